(* When memory is used right: independent of the model apart from the heap of
   ItemModel and the names of the calls that may fail. *)
From Verif Require Import ItemModel LifeModel.
Local Open Scope Z_scope.

(* every block so far is older than those to come *)
Definition older (m : mem) : Prop := forall p n, In (p, n) (live m) -> (p < fresh m)%nat.
(* what is read, if read, is an item with bytes *)
Definition sized (w : way) : Prop := forall bytes memOk readOk, w = Try bytes memOk readOk -> 0 < bytes < 2 ^ 32.
(* the same for a get that loads a cache node *)
Definition sizedLoad (o : load) : Prop := forall i j w okNode, o = Load i j w okNode -> sized w.
(* the settings of a cache allow one *)
Definition cacheAllowed (capacity conc : Z) : Prop := 0 < capacity -> 0 < conc -> conc <= capacity / conc.
(* the calls whose failure the code does not expect all succeed *)
Definition trusted (ok : call -> bool) : Prop :=
  (forall p, ok (FileColl p) = true /\ ok (FileState p) = true) /\
  ok MemColl = true /\ ok MemState = true /\ ok CacheColl = true /\ ok CacheState = true /\
  ok (FileSkip Source) = true.
(* an item that can be read *)
Definition readable (w : way) : Prop := exists bytes, w = Try bytes true true /\ 0 < bytes < 2 ^ 32.
