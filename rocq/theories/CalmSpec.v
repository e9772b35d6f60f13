(* The resource manager when no other call is in progress at the exchange of a replace,
   while all other steps overlap. *)
From Verif Require Import CacheModel ResourceModel ResourceSpec.

(* a replace makes its exchange of the active handle (resource.c 344-347) only while the
   other threads are idle; the manager is not freed *)
Definition replaceAlone (m : manager) (t : nat) (a : action) : Prop :=
  a <> CallFree /\
  ((exists nh fin old, nth_error (thr m) t = Some (RepCas nh fin old)) ->
   forall t' x', t' <> t -> nth_error (thr m) t' = Some x' -> x' = Idle).
