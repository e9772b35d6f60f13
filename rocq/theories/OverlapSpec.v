(* Threads whose gets overlap: every interleaving, with a limit of calls at a time *)
From Verif Require Import TreeModel CacheModel CacheSpec CollectionModel CollectionSpec ProfileModel DbModel DbSpec.
From Verif Require ItemModel.
From Verif Require Import CallsModel CallsSpec.
From Verif Require Import ThreadsModel ThreadsSpec OverlapModel.
Local Open Scope Z_scope.

(* the threads that are in a call *)
Definition inCalls (st : state) : nat := list_sum (map (fun th => match running th with Some _ => 1%nat | None => O end) (threads st)).
(* a call is started if there are nodes for it and not too many are in progress *)
Definition oadmissible (d : db) (u : uses) (cap limit : nat) (os : ostate) (a : action) : Prop :=
  match a with Call q => allowed d u q /\ (busy (inner os) < cap)%nat /\ (inCalls (inner os) < limit)%nat | _ => True end.
(* nobody has called anything *)
Definition ostart (count : nat) (w : world) : ostate := mkO (mkState w (repeat (mkThread None []) count)) [].
(* every interleaving of any number of threads; events, newest first *)
Inductive oexec (file : list Z) (d : db) (u : uses) (compareOther : list Z -> list Z -> Z) (cap limit count : nat) (w : world) : list event -> (nat -> nat) -> ostate -> Prop :=
| oexec_start : oexec file d u compareOther cap limit count w [] (fun _ => O) (ostart count w)
| oexec_step tr n os t a os' evs : oexec file d u compareOther cap limit count w tr n os -> oadmissible d u cap limit os a ->
    ostep file (fuelOf u) compareOther t a os = Some (os', evs) -> oexec file d u compareOther cap limit count w (evs ++ tr) (counted t a n) os'.
(* threads go on, one after the other *)
Inductive goes (file : list Z) (u : uses) (compareOther : list Z -> list Z -> Z) : list nat -> ostate -> list event -> ostate -> Prop :=
| goes_end os : goes file u compareOther [] os [] os
| goes_on t l os os1 e1 e2 os2 : ostep file (fuelOf u) compareOther t Go os = Some (os1, e1) -> goes file u compareOther l os1 e2 os2 -> goes file u compareOther (t :: l) os (e2 ++ e1) os2.
(* the get a thread is at *)
Definition atGet (os : ostate) (t : nat) (s : src) (i : Z) : Prop :=
  exists th q okay it k, nth_error (threads (inner os)) t = Some th /\ running th = Some (q, GetIt s i okay it k).
(* the mutex a thread needs for its next step *)
Definition needs (os : ostate) (t : nat) (a : action) (l : lock) : Prop :=
  exists th, nth_error (threads (inner os)) t = Some th /\
  match a, running th with
  | Go, Some (_, GetIt s i _ _ _) => ~ In t (map fst (reading os)) /\ lockOfGet (shared (inner os)) s i = Some l
  | Go, Some (_, Release s it _) => lockOfRelease (shared (inner os)) s it = Some l
  | GiveBack k, None => exists s it, nth_error (items th) k = Some (s, it) /\ lockOfRelease (shared (inner os)) s it = Some l
  | _, _ => False
  end.
