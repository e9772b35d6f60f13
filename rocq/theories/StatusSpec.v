(* What the messages of status codes and exceptions are *)
From Coq Require Import List ZArith.
Import ListNotations.
Open Scope Z_scope.

(* t is z in decimal *)
Definition value (t : list Z) : Z := fold_left (fun a c => 10 * a + (c - 48)) t 0.
Definition isNumber (t : list Z) (z : Z) : Prop :=
  t <> [] /\ Forall (fun c => 48 <= c <= 57) t /\ (hd 0 t = 48 -> t = [48]) /\ value t = z.
Definition isDecimal (t : list Z) (z : Z) : Prop :=
  (0 <= z /\ isNumber t z) \/ (z < 0 /\ exists d, t = 45 :: d /\ isNumber d (- z)).

(* r is the message m with name in place of its %s; there is no other % *)
Definition filled (m name r : list Z) : Prop :=
  (~ In 37 m /\ r = m) \/
  exists a b, ~ In 37 a /\ ~ In 37 b /\ m = a ++ [37; 115] ++ b /\ r = a ++ name ++ b.
