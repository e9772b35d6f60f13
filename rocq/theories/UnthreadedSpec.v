(* Sequences of calls in the build without threads. *)
From Verif Require Import UnthreadedModel ResourceSpec.

(* what is held is released; the manager is freed once and not used for gets or replaces
   afterwards *)
Definition ucallable (tr : list event) (a : action) : Prop :=
  match a with
  | CallRelease h => users tr h > 0
  | CallGet | CallReplace | CallFree => forall t, ~ In (FreeBegin t) tr
  | Continue => False
  end.
Inductive uexec : list event -> umanager -> Prop :=
| uexec_init : uexec [Activated 0] uInit
| uexec_call tr u a u' evs : uexec tr u -> ucallable tr a -> ucall a u = Some (u', evs) -> uexec (evs ++ tr) u'.
