(* float.c.  A native float is a binary32 number of the specification of
   floating point arithmetic in the Coq standard library (precision 24, emax 128,
   round to nearest even); the four bytes of a fiftyoneDegreesFloatInternal are
   one little endian 32 bit number. *)
From Coq Require Export List ZArith Lia Bool.
From Coq Require Export Floats.SpecFloat.
Export ListNotations.
Local Open Scope Z_scope.

(* a float *)
Definition native := spec_float.
(* multiplication of floats *)
Definition fmul : native -> native -> native := SFmul 24 128.
(* addition of floats *)
Definition fadd : native -> native -> native := SFadd 24 128.
(* subtraction of floats *)
Definition fsub : native -> native -> native := SFsub 24 128.
(* division of floats *)
Definition fdiv : native -> native -> native := SFdiv 24 128.
(* conversion of an integer to float *)
Definition ofInt (z : Z) : native := binary_normalize 24 128 z 0 false.
(* conversion of a float to int, towards zero; only used for values that fit *)
Definition toInt (x : native) : Z :=
  match x with
  | S754_finite s m e =>
    let a := if 0 <=? e then Z.pos m * 2 ^ e else Z.pos m / 2 ^ (- e) in
    if s then - a else a
  | _ => 0
  end.
(* powf(2, k) for whole k with a normal result, and powf(-1, 0 or 1): both
   taken to be exact, as glibc's are. *)
Definition powf2 (k : Z) : native := S754_finite false (2 ^ 23) (k - 23).
(* powf(-1, sign), exact *)
Definition powfMinus1 (sign : Z) : native := S754_finite (Z.odd sign) (2 ^ 23) (-23).

(* float.h:103-110: the bit fields of fiftyoneDegreesFloatU as GCC lays them
   out on a little endian machine. *)
Record parts := mkParts { mantissa : Z; exponent : Z; sign : Z }.
(* the fields of the struct *)
Definition partsOf (w : Z) : parts := mkParts (w mod 2 ^ 23) (w / 2 ^ 23 mod 2 ^ 8) (w / 2 ^ 31 mod 2).
(* the bytes of the struct *)
Definition wordOf (p : parts) : Z := mantissa p mod 2 ^ 23 + 2 ^ 23 * (exponent p mod 2 ^ 8) + 2 ^ 31 * (sign p mod 2).

(* float.h:44,62,67,72,92,97 *)
Definition FLOAT_BIAS := 127.
(* float.h *)
Definition FLOAT_RADIX := 2.
(* float.h *)
Definition FLOAT_MANT_SIZE := 23.
(* float.h *)
Definition FLOAT_EXP_MAX := 255.
(* float.h *)
Definition FLOAT_MANT_MAX := 8388607.

(* float.c:27-79 fiftyoneDegreesFloatToNative *)
Definition FloatToNative (w : Z) : native :=
  let p := partsOf w in
  if exponent p =? 0 then
    if mantissa p =? 0 then S754_zero false
    else fmul (fmul (powfMinus1 (sign p)) (powf2 (1 - FLOAT_BIAS)))
           (fdiv (ofInt (mantissa p)) (powf2 FLOAT_MANT_SIZE))
  else if exponent p =? FLOAT_EXP_MAX then
    if mantissa p =? FLOAT_MANT_MAX then S754_infinity false else S754_nan
  else fmul (fmul (powfMinus1 (sign p)) (powf2 (exponent p - FLOAT_BIAS)))
         (fadd (ofInt 1) (fdiv (ofInt (mantissa p)) (powf2 FLOAT_MANT_SIZE))).

(* fpclassify of <math.h> (float.c:86) *)
Inductive class := FP_NAN | FP_INFINITE | FP_SUBNORMAL | FP_NORMAL | FP_ZERO.
(* fpclassify of the C library *)
Definition fpclassify (f : native) : class :=
  match f with
  | S754_nan => FP_NAN
  | S754_infinity _ => FP_INFINITE
  | S754_zero _ => FP_ZERO
  | S754_finite _ m _ => if 2 ^ 23 <=? Z.pos m then FP_NORMAL else FP_SUBNORMAL
  end.
(* f >= 0 *)
Definition geZero (f : native) : bool := SFleb (S754_zero false) f.

(* float.c:81-126 fiftyoneDegreesNativeToFloat.  frexp works on doubles; its
   result, rounded back to float, is the exact significand, as here. *)
Definition NativeToFloat (f : native) : Z :=
  wordOf match fpclassify f with
  | FP_NAN => mkParts 1 FLOAT_EXP_MAX 0
  | FP_INFINITE => mkParts FLOAT_MANT_MAX FLOAT_EXP_MAX 0
  | FP_SUBNORMAL =>
    let '(significand, e) := SFfrexp 24 128 f in
    mkParts (toInt (fmul (SFabs significand) (powf2 FLOAT_MANT_SIZE))) 0 (if geZero f then 0 else -1)
  | FP_NORMAL =>
    let '(significand, e) := SFfrexp 24 128 f in
    mkParts (toInt (fmul (fsub (fmul (SFabs significand) (ofInt FLOAT_RADIX)) (ofInt 1)) (powf2 FLOAT_MANT_SIZE)))
      (e - 1 + FLOAT_BIAS) (if geZero f then 0 else -1)
  | FP_ZERO => mkParts 0 0 0
  end.

(* float.c:128-134 fiftyoneDegreesFloatIsEqual, on the bytes *)
Fixpoint bytesDiffer (n : nat) (a b : Z) : Z :=
  match n with
  | O => 0
  | S n' => Z.lor (if a mod 256 =? b mod 256 then 0 else 1) (bytesDiffer n' (a / 256) (b / 256))
  end.
(* float.c:128-133 fiftyoneDegreesFloatIsEqual *)
Definition FloatIsEqual (a b : Z) : Z := bytesDiffer 4 a b.

