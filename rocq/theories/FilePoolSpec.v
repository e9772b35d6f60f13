(* Specification of the pool of file handles. *)
From Verif Require Import CacheModel PoolModel PoolSpec FilePoolModel.

(* the items for which the file is opened or tried, from item i: all of them,
   or, if a failure is noticed, those up to the first failure *)
Fixpoint tried (noticed : bool) (opens : nat -> option nat) (i todo : nat) : list nat :=
  match todo with
  | 0 => []
  | S todo' =>
    i :: match opens i with
         | Some _ => if noticed then [] else tried noticed opens (S i) todo'
         | None => tried noticed opens (S i) todo'
         end
  end.

(* the file could be opened for the item *)
Definition opened (opens : nat -> option nat) (i : nat) : bool :=
  match opens i with None => true | Some _ => false end.

(* every handle of the n is free and each of the threads, alone, is handed
   each of them once and is then refused *)
Definition allAvailable (n nthreads : nat) (p : pool) : Prop :=
  forall t, t < nthreads -> exists L, NoDup L /\ (forall i, In i L <-> 1 <= i <= n) /\
    soloGets t (n + 1) p = Some (map (Got t) L ++ [Exhausted t]).

(* the pool is one that n items and some calls of its users lead to, so that
   everything proved of pools in use holds for it *)
Definition inUse (n nthreads : nat) (p : pool) : Prop :=
  exists p0 tr, fresh n nthreads p0 /\ exec window p0 tr p /\ forall i, status tr i = Free.
