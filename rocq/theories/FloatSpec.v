(* The value a 32 bit pattern of the portable format stands for, and when two
   native numbers are the same value. *)
From Coq Require Import ZArith Floats.SpecFloat.
Local Open Scope Z_scope.

Definition word (s e m : Z) : Z := s * 2 ^ 31 + e * 2 ^ 23 + m.
Definition isSign (s : Z) : Prop := s = 0 \/ s = 1.
Definition isMantissa (m : Z) : Prop := 0 <= m < 2 ^ 23.
Definition isNormalExponent (e : Z) : Prop := 1 <= e <= 254.
Definition isWord (w : Z) : Prop := 0 <= w < 2 ^ 32.
(* (-1)^s * m * 2^e for m > 0 *)
Definition finite (s : Z) (m e : Z) : spec_float := S754_finite (s =? 1) (Z.to_pos m) e.

Definition isZero (x : spec_float) : Prop := exists s, x = S754_zero s.
Definition sameValue (x y : spec_float) : Prop := x = y \/ (isZero x /\ isZero y).
(* a native float: binary32 *)
Definition isFloat (x : spec_float) : Prop := valid_binary 24 128 x = true.
Definition isSubnormal (x : spec_float) : Prop := exists s m e, x = S754_finite s m e /\ Z.pos m < 2 ^ 23.
