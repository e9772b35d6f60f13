(* What results may do with memory: independent of the model apart from the heap and
   the names of the operations *)
From Verif Require Import HeldModel LifeSpec.
Local Open Scope Z_scope.

(* texts that fit the sizes, items with bytes *)
Definition fits (o : rop) : Prop :=
  match o with RAdd _ len _ => 0 <= len < 2 ^ 32 - 11 | RFetch w => sized w | _ => True end.
(* memory for the texts is there *)
Definition granted (o : rop) : Prop := match o with RAdd _ _ memOk => memOk = true | _ => True end.
(* the override of the property is left alone *)
Definition spares (i : Z) (o : rop) : Prop := match o with RAdd j _ _ => j <> i | RReset => False | _ => True end.
(* how many components can be read one after the other *)
Definition readUpTo (ways : nat -> way) (n k : nat) : Prop :=
  (k <= n)%nat /\ (forall i, (i < k)%nat -> readable (ways i)) /\ ((k < n)%nat -> ~ readable (ways k)).
