(* The properties of signals (threading.c) *)
From Verif Require Import SignalProofs.

(* C56, a set is not lost: the threads cannot come to rest with one of them waiting
   for a signal that is set *)
Theorem signal_not_lost : forall n tr s t, exec n tr s -> stuck s -> isSet tr -> ~ waiting s t.
Proof. intros n tr s t H ST IS. exact (not_lost _ _ (exec_inv _ _ _ H) ST IS t). Qed.
Print Assumptions signal_not_lost.

(* C56, the wait returns: if the signal is set and a thread waits, then however the
   threads go on they come to rest after a bounded number of steps, they can go on
   until then, and one of the waits has returned by then *)
Theorem signal_returns : forall n tr0 s u, exec n tr0 s -> isSet tr0 -> waiting s u ->
  (exists bound, forall k tr s', goesOn k s tr s' -> k <= bound) /\
  (exists k tr s', goesOn k s tr s' /\ stuck s') /\
  (forall k tr s', goesOn k s tr s' -> stuck s' -> exists t, waiting s t /\ In (Returned t) tr).
Proof.
  intros n tr0 s u H IS W. split; [|split].
  - exists (steps s). intros k tr s' G. exact (goes_bound _ _ _ _ G).
  - exact (goes_exists (steps s) s (le_n _)).
  - intros k tr s' G ST. exact (set_returns _ _ _ _ _ _ _ H IS W G ST).
Qed.
Print Assumptions signal_returns.

(* C56, the only thread that waits gets the signal *)
Theorem signal_returns_alone : forall n tr0 s u k tr s', exec n tr0 s -> isSet tr0 -> waiting s u -> (forall t, waiting s t -> t = u) ->
  goesOn k s tr s' -> stuck s' -> In (Returned u) tr.
Proof.
  intros n tr0 s u k tr s' H IS W A G ST. destruct (set_returns _ _ _ _ _ _ _ H IS W G ST) as (t & Wt & I). apply A in Wt. now subst t.
Qed.
Print Assumptions signal_returns_alone.

(* C56, a set releases at most one wait: between two returns there is a set *)
Theorem signal_one_each : forall n s a t b u c, exec n (a ++ Returned t :: b ++ Returned u :: c) s -> exists v, In (SetDone v) b.
Proof.
  intros n s a t b u c H. pose proof (exec_returned _ _ _ H a t _ eq_refl) as Q. destruct b as [|[v|v] b]; cbn in Q; try contradiction. exists v. now left.
Qed.
Print Assumptions signal_one_each.

(* C56, the mutex: two threads are never between lock and unlock *)
Theorem signal_exclusive : forall n tr s t u x y, exec n tr s -> nth_error (threads s) t = Some x -> nth_error (threads s) u = Some y ->
  In x [SetStore; SetSignal; SetUnlock; WaitTest; WaitStore; WaitUnlock] -> In y [SetStore; SetSignal; SetUnlock; WaitTest; WaitStore; WaitUnlock] -> t = u.
Proof.
  intros n tr s t u x y H X Y Ix Iy. pose proof (i_mutex _ _ (exec_inv _ _ _ H)) as M.
  assert (Hx : forall z, In z [SetStore; SetSignal; SetUnlock; WaitTest; WaitStore; WaitUnlock] -> holds z = true) by (intros z I; cbn in I; intuition (subst; reflexivity)).
  pose proof (proj1 (M t x X) (Hx _ Ix)). pose proof (proj1 (M u y Y) (Hx _ Iy)). congruence.
Qed.
Print Assumptions signal_exclusive.

(* runs a list of steps *)
Fixpoint runs (l : list (nat * action)) (tr : list event) (s : Signal) : option (list event * Signal) :=
  match l with
  | [] => Some (tr, s)
  | (t, a) :: l' => match step t a s with Some (s', evs) => runs l' (evs ++ tr) s' | None => None end
  end.
Lemma runs_exec n l : forall tr s tr' s', exec n tr s -> runs l tr s = Some (tr', s') -> exec n tr' s'.
Proof.
  induction l as [|(t, a) l IH]; intros tr s tr' s' H R; cbn in R; [injection R as <- <-; exact H|].
  destruct (step t a s) as [(s1, evs)|] eqn:E; [|discriminate R]. eapply IH; [econstructor; eassumption|exact R].
Qed.
Definition go (t : nat) (k : nat) : list (nat * action) := repeat (t, Continue []) k.

(* a first wait, two threads that then wait, a set that wakes the first of them *)
Definition beginning : list (nat * action) := ((2, CallWait) :: go 2 4 ++ (0, CallWait) :: go 0 2 ++ (1, CallWait) :: go 1 2).
Example signal_example : exists s,
  runs (beginning ++ (2, CallSet) :: go 2 2) [] (SignalCreate 3) = Some ([SetDone 2; Returned 2], s) /\ threads s = [Sleep; Sleep; SetSignal] /\ exec 3 [SetDone 2; Returned 2] s /\ isSet [SetDone 2; Returned 2] /\ waiting s 0.
Proof.
  eexists. assert (R : runs (beginning ++ (2, CallSet) :: go 2 2) [] (SignalCreate 3) = Some ([SetDone 2; Returned 2], mkSignal false (Some 2) [Sleep; Sleep; SetSignal])) by reflexivity.
  rewrite R. split; [reflexivity|]. split; [reflexivity|]. split; [|split; exact I]. eapply runs_exec; [constructor|exact R].
Qed.
(* a spurious wake finds the flag set and sleeps again *)
Example signal_spurious_example : runs ((0, CallWait) :: go 0 4 ++ (0, CallWait) :: go 0 2 ++ (0, Spurious) :: go 0 2) [] (SignalCreate 1) = Some ([Returned 0], mkSignal true None [Sleep]).
Proof. reflexivity. Qed.

(* C56, not at first: the signal is created as if it were set, so that the first wait
   returns though nothing was set *)
Theorem signal_initial_refuted : ~ (forall n tr s t, exec n tr s -> In (Returned t) tr -> exists v, In (SetDone v) tr).
Proof.
  intros C. destruct (C 1 [Returned 0] (mkSignal true None [Idle]) 0) as (v & [H|[]]); [|now left|discriminate H].
  eapply (runs_exec 1 ((0, CallWait) :: go 0 4)); [constructor|reflexivity].
Qed.
Print Assumptions signal_initial_refuted.

(* C56, not one for each set: two sets while two threads wait can release just one of
   them, and the other waits for good *)
Theorem signal_two_sets_refuted : exists s0 s, runs beginning [] (SignalCreate 3) = Some ([Returned 2], s0) /\ threads s0 = [Sleep; Sleep; Idle] /\
  exec 3 [Returned 0; SetDone 2; SetDone 2; Returned 2] s /\ stuck s /\ waiting s 1.
Proof.
  eexists. exists (mkSignal true None [Idle; Sleep; Idle]). split; [reflexivity|]. split; [reflexivity|]. split; [|split].
  - eapply (runs_exec 3 (beginning ++ (2, CallSet) :: go 2 2 ++ (2, Continue [0]) :: go 2 1 ++ (2, CallSet) :: go 2 2 ++ (2, Continue [1]) :: go 2 1 ++ go 0 4 ++ go 1 2)); [constructor|reflexivity].
  - intros [|[|[|t]]] [|w l]; try reflexivity; destruct t; reflexivity.
  - exact I.
Qed.
Print Assumptions signal_two_sets_refuted.
