(* C21 - C23, C61, C62: the resource manager (resource.c).  Histories are
   those of ResourceSpec.exec: every interleaving of the shared memory
   accesses of any number of threads that release only what they hold. *)
From Verif Require Import CacheModel ResourceModel ResourceSpec ResourceProofs ResourceRun ResourceSeq.

Definition run (t k : nat) : list (nat * action) := repeat (t, Continue) k.
Definition m0 (nt : nat) : manager := fst (ManagerInit nt).
Definition tr0 : list event := [Activated 0].

(* a concrete history: threads 0 and 1 hold handle 0, thread 2 replaces it
   while they hold it, thread 0 gets the new one; 0 is freed at the last
   release, whose steps overlap with the other one's *)
Definition exSched : list (nat * action) :=
  [(0, CallGet)] ++ run 0 2 ++ [(1, CallGet)] ++ run 1 4 ++ run 0 6 ++
  [(2, CallReplace)] ++ run 2 9 ++ [(2, CallGet)] ++ run 2 4 ++
  [(0, CallRelease 0); (1, CallRelease 0)] ++ run 0 1 ++ run 1 2 ++ run 0 6.
Definition exTrace : list event :=
  [Done 0; Freed 0; Done 1; RelBegin 1 0; RelBegin 0 0; Got 2 1; GetBegin 2; Done 2; Activated 1; Created 1;
   Got 0 0; Got 1 0; GetBegin 1; GetBegin 0; Activated 0].
Example resource_example : exists m, exec anyOrder 3 exTrace m /\ quiescent m.
Proof.
  destruct (runR exSched tr0 (m0 3)) as [(tr, m)|] eqn:E; [|vm_compute in E; discriminate].
  exists m. split.
  - assert (tr = exTrace) as <- by (vm_compute in E; injection E as <- _; reflexivity).
    eapply runR_exec; [apply exec_init|exact E].
  - vm_compute in E. injection E as _ <-. intros [|[|[|t]]] x Hx; cbn in Hx; try congruence. destruct t; discriminate.
Qed.

(* C21.  In every reachable state a resource was freed at most once, and if it
   was freed then nobody holds it and it is not the active one - so it was not
   freed while held, and is never handed out afterwards. *)
Theorem resource_in_use_never_freed :
  forall nthreads tr m, exec anyOrder nthreads tr m ->
  forall h, timesFreed tr h <= 1 /\ (timesFreed tr h = 1 -> users tr h = 0 /\ h <> activeOf tr).
Proof. intros nt tr m He h. eapply reach_freed; eauto. Qed.
Print Assumptions resource_in_use_never_freed.
Example resource_in_use_never_freed_case :
  timesFreed exTrace 0 = 1 /\ users exTrace 0 = 0 /\ users (skipn 4 exTrace) 0 = 1 /\ users (skipn 5 exTrace) 0 = 2 /\
  activeOf exTrace = 1 /\ users exTrace 1 = 1.
Proof. repeat split. Qed.

(* C23, where it holds, and the no-leak half of C21.  When all threads are
   idle, every resource ever given to the manager is the active one, held,
   freed, or was given up by a replace whose exchange failed; if replaces do
   not overlap none is given up. *)
Theorem resource_unused_is_freed :
  forall nthreads tr m, exec anyOrder nthreads tr m -> quiescent m ->
  forall h, In (Created h) tr \/ h = 0 ->
  h = activeOf tr \/ users tr h > 0 \/ timesFreed tr h = 1 \/ In (Lost h) tr.
Proof.
  intros nt tr m He Hq h Hc. pose proof (reach_quiet _ _ _ _ h He Hq Hc) as H.
  destruct (Nat.eq_dec h (activeOf tr)); auto. destruct (users tr h) eqn:E; [|right; left; lia].
  destruct (count (isLost h) tr) eqn:El; [right; right; left; auto|].
  right. right. right. clear -El. revert El. induction tr as [|e tr IH]; intros H; [discriminate|].
  rewrite count_cons in H. destruct (isLost h e) eqn:Ee; [right; auto|]. left. destruct e; try discriminate.
  cbn in Ee. destruct (Nat.eqb_spec h0 h); [congruence|discriminate].
Qed.
Print Assumptions resource_unused_is_freed.
Theorem resource_replace_one_at_a_time :
  forall nthreads tr m, exec oneReplace nthreads tr m -> (forall h, ~ In (Lost h) tr) /\
  (quiescent m -> forall h, In (Created h) tr \/ h = 0 ->
   h = activeOf tr \/ users tr h > 0 \/ timesFreed tr h = 1).
Proof.
  intros nt tr m He. assert (forall h, ~ In (Lost h) tr) as Hl.
  { intros h Hi. exact (or_ev _ _ (exec_OR _ _ _ He) _ Hi). }
  split; auto. intros Hq h Hc.
  destruct (resource_unused_is_freed nt tr m) with (h := h) as [H|[H|[H|H]]]; auto.
  - eapply exec_weaken; [|exact He]. intros; exact I.
  - destruct (Hl _ H).
Qed.
Print Assumptions resource_replace_one_at_a_time.
Example resource_unused_is_freed_case : In (Created 1) exTrace /\ activeOf exTrace = 1 /\ timesFreed exTrace 0 = 1.
Proof. cbn. tauto. Qed.

(* C23 is false: two overlapping replaces.  Thread 0 has read the handle it
   wants to replace when thread 1 replaces it; thread 0's exchange fails, but
   the loop condition compares the returned pointer with false, so the replace
   returns without installing its resource: it is not active, not held and
   never freed. *)
Theorem resource_concurrent_replace_refuted :
  exists tr m h, exec anyOrder 2 tr m /\ quiescent m /\ In (Created h) tr /\
  h <> activeOf tr /\ users tr h = 0 /\ timesFreed tr h = 0.
Proof.
  destruct (runR ([(0, CallReplace)] ++ run 0 6 ++ [(1, CallReplace)] ++ run 1 9 ++ run 0 6) tr0 (m0 2)) as [(tr, m)|] eqn:E;
    [|vm_compute in E; discriminate].
  exists tr, m, 1. split; [eapply runR_exec; [apply exec_init|exact E]|].
  vm_compute in E. injection E as <- <-. split.
  - intros [|[|t]] x Hx; cbn in Hx; try congruence. destruct t; discriminate.
  - cbn. repeat split; auto; try tauto; try discriminate.
Qed.
Print Assumptions resource_concurrent_replace_refuted.

(* C22.  Threads one at a time: no call touches a freed handle; a get returns
   the active handle; between calls a resource has been freed exactly when it
   is not active and has no users; every call comes to its end; freeing the
   manager leaves no resource active. *)
Theorem resource_sequential :
  forall nthreads tr m, exec sequential nthreads tr m ->
  touched m = false /\
  (forall t, ~ In (GotNull t) tr) /\
  (forall tr1 t h tr2, tr = tr1 ++ Got t h :: tr2 -> h = activeOf tr2) /\
  (quiescent m -> forall h, In (Created h) tr \/ h = 0 ->
     timesFreed tr h = if Nat.eqb h (activeOf tr) then 0 else if Nat.eqb (users tr h) 0 then 1 else 0) /\
  (forall t x, nth_error (thr m) t = Some x ->
     exists evs m', exec sequential nthreads (evs ++ tr) m' /\ nth_error (thr m') t = Some Idle) /\
  (forall t, quiescent m -> In (FreeBegin t) tr -> In (HandleFreed (activeOf tr)) tr /\ users tr (activeOf tr) = 0).
Proof.
  intros nt tr m He. pose proof (exec_SQ _ _ _ He) as HS. pose proof (exec_RI _ _ _ _ He) as HI.
  split; [apply HS|]. split; [intros t Hi; exact (sq_ev _ _ HS _ Hi)|]. split; [|split; [|split]].
  - intros tr1 t h tr2 E. destruct (exec_event _ _ _ _ He _ _ _ _ E) as (m1 & m2 & He1 & _ & Hs).
    destruct (got_inv _ _ _ _ Hs) as (c & Et). pose proof (sq_t _ _ (exec_SQ _ _ _ He1) _ _ Et) as Hx.
    destruct Hx as (-> & _). apply (ri_act _ _ (exec_RI _ _ _ _ He1)).
  - intros Hq h Hc. destruct (reach_freed _ _ _ _ h He) as (A & B).
    destruct (Nat.eqb_spec h (activeOf tr)) as [Ea|Na].
    + destruct (timesFreed tr h) as [|[|n]]; auto; [destruct (B eq_refl); congruence|lia].
    + destruct (Nat.eqb_spec (users tr h) 0) as [Eu|Nu].
      * apply (reach_quiet _ _ _ _ h He Hq Hc); auto.
        destruct (count (isLost h) tr) eqn:El; auto. exfalso.
        assert (In (Lost h) tr) as Hi.
        { clear -El. revert El. induction tr as [|e tr IH]; intros H; [discriminate|].
          rewrite count_cons in H. destruct (isLost h e) eqn:Ee; [right; auto|]. left. destruct e; try discriminate.
          cbn in Ee. destruct (Nat.eqb_spec h0 h); [congruence|discriminate]. }
        exact (sq_ev _ _ HS _ Hi).
      * destruct (timesFreed tr h) as [|[|n]]; auto; [destruct (B eq_refl); congruence|lia].
  - intros t x Et. eapply seq_finish; eauto.
  - intros t Hq Hi. destruct (sq_fb _ _ HS _ Hi) as [H|(t' & x & Hx & Hf)].
    + destruct (sq_hf _ _ HS _ H) as (_ & Hg & _). rewrite (ri_act _ _ HI) in *. split.
      * clear -H. induction tr as [|e tr IH]; [cbn in H; lia|].
        assert (forall a, 1 <= count (isHFreed a) tr -> In (HandleFreed a) tr) as G.
        { clear. intros a. induction tr as [|e tr IH]; [cbn; lia|]. rewrite count_cons. intros H.
          destruct (isHFreed a e) eqn:Ee; [right; auto|]. left. destruct e; try discriminate.
          cbn in Ee. destruct (Nat.eqb_spec h a); [congruence|discriminate]. }
        set (a := activeOf (e :: tr)) in *. clearbody a. rewrite count_cons in H.
        destruct (isHFreed a e) eqn:Ee; [right; apply G; lia|]. left. destruct e; try discriminate.
        cbn in Ee. destruct (Nat.eqb_spec h a); [congruence|discriminate].
      * unfold users. lia.
    + rewrite (Hq _ _ Hx) in Hf. discriminate.
Qed.
Print Assumptions resource_sequential.
Example resource_sequential_case :
  exists m, exec sequential 2
    [Done 0; Freed 0; RelBegin 0 0; Done 1; HandleFreed 2; Freed 1; Activated 2; Created 2; FreeBegin 1;
     Done 1; Activated 1; Created 1; Got 0 0; GetBegin 0; Activated 0] m /\ quiescent m.
Proof.
  destruct (runQ ([(0, CallGet)] ++ run 0 4 ++ [(1, CallReplace)] ++ run 1 9 ++ [(1, CallFree)] ++ run 1 13 ++ 
     [(0, CallRelease 0)] ++ run 0 5) tr0 (m0 2)) as [(tr, m)|] eqn:E; [|vm_compute in E; discriminate].
  exists m. split.
  - match goal with |- exec _ _ ?l _ => assert (tr = l) as <- by (vm_compute in E; injection E as <- _; reflexivity) end.
    eapply runQ_exec; [apply exec_init|exact E].
  - vm_compute in E. injection E as _ <-. intros [|[|t]] x Hx; cbn in Hx; try congruence. destruct t; discriminate.
Qed.

(* C61 is false: under concurrency a get can read the counter of a handle
   whose block was freed between its read of manager->active and the access.
   (It holds for threads one at a time: resource_sequential.) *)
Theorem resource_handle_use_after_free_refuted :
  exists tr m, exec anyOrder 2 tr m /\ touched m = true.
Proof.
  destruct (runR ([(0, CallGet)] ++ run 0 1 ++ [(1, CallReplace)] ++ run 1 12 ++ run 0 1) tr0 (m0 2)) as [(tr, m)|] eqn:E;
    [|vm_compute in E; discriminate].
  exists tr, m. split; [eapply runR_exec; [apply exec_init|exact E]|].
  vm_compute in E. injection E as <- <-. reflexivity.
Qed.
Print Assumptions resource_handle_use_after_free_refuted.
(* the same in a release: between the decrement to zero and the read of
   handle->manager another thread replaces and frees the handle *)
Theorem resource_release_use_after_free_refuted :
  exists tr m, exec anyOrder 2 tr m /\ touched m = true /\ forall t, In (GetBegin t) tr -> t = 0.
Proof.
  destruct (runR ([(0, CallGet)] ++ run 0 4 ++ [(0, CallRelease 0)] ++ run 0 2 ++ [(1, CallReplace)] ++ run 1 12 ++ run 0 1) tr0 (m0 2)) as [(tr, m)|] eqn:E;
    [|vm_compute in E; discriminate].
  exists tr, m. split; [eapply runR_exec; [apply exec_init|exact E]|].
  vm_compute in E. injection E as <- <-. split; [reflexivity|]. intros t. cbn. intuition congruence.
Qed.
Print Assumptions resource_release_use_after_free_refuted.

(* C62.  A handle returned by a get was the active handle at some moment
   during the call. *)
Theorem resource_get_was_active :
  forall nthreads tr m, exec anyOrder nthreads tr m ->
  forall tr1 t h tr2, tr = tr1 ++ Got t h :: tr2 ->
  exists tr3 tr4, tr2 = tr3 ++ tr4 /\ ~ In (GetBegin t) tr3 /\ In (GetBegin t) tr4 /\ activeOf tr4 = h.
Proof.
  intros nt tr m He tr1 t h tr2 E. destruct (exec_event _ _ _ _ He _ _ _ _ E) as (m1 & m2 & He1 & _ & Hs).
  destruct (got_inv _ _ _ _ Hs) as (c & Et). pose proof (ri_t _ _ (exec_RI _ _ _ _ He1) _ _ Et) as Hx.
  unfold tok in Hx. destruct Hx as ((_ & Hx) & _). exact (Hx eq_refl).
Qed.
Print Assumptions resource_get_was_active.
Example resource_get_was_active_case : exTrace = firstn 5 exTrace ++ Got 2 1 :: skipn 6 exTrace /\ activeOf (skipn 6 exTrace) = 1.
Proof. repeat split. Qed.
(* But a get can return NULL: the counter it read was emptied, and when two
   replaces fall into its window the counter it exchanges is an equal empty
   one of another handle.  No freed block is touched on the way. *)
Theorem resource_get_null_refuted :
  exists tr m t, exec anyOrder 3 (GotNull t :: tr) m /\ touched m = false.
Proof.
  destruct (runR ([(0, CallGet)] ++ run 0 1 ++ [(1, CallReplace)] ++ run 1 11 ++ run 0 2 ++ [(2, CallReplace)] ++ run 2 11 ++ run 0 1) tr0 (m0 3)) as [(tr, m)|] eqn:E;
    [|vm_compute in E; discriminate].
  assert (tr = GotNull 0 :: tl tr) as Et by (vm_compute in E; injection E as <- _; reflexivity).
  exists (tl tr), m, 0. rewrite <- Et. split; [eapply runR_exec; [apply exec_init|exact E]|].
  vm_compute in E. injection E as _ <-. reflexivity.
Qed.
Print Assumptions resource_get_null_refuted.

(* C21.  The int32_t of a counter does not overflow, as the model has it: the count of a
   handle is at least 0 and at most its users and one for each thread. *)
Lemma exec_threads W nt tr m : exec W nt tr m -> length (thr m) = nt.
Proof.
  induction 1 as [|tr m t a m' evs _ IH _ _ H]; [apply repeat_length|]. rewrite <- IH. clear IH. unfold rstep, afterDec in H.
  destruct (nth_error (thr m) t) as [x|]; [|discriminate H]. destruct x; try discriminate H; destruct a; try discriminate H;
  try match goal with k : option nat |- _ => destruct k end;
  repeat match type of H with context [match ?x with _ => _ end] => destruct x; try discriminate H end;
  injection H as <- _; unfold setT, setH, touch, setActive; cbn [thr]; rewrite ?CacheRun.length_lupd; reflexivity.
Qed.
Lemma tsum_bound f l : (forall x, f x <= 1) -> tsum f l <= length l.
Proof. intros B. induction l as [|x l IH]; [reflexivity|]. change (f x + tsum f l <= S (length l)). specialize (B x). lia. Qed.
Theorem resource_count_in_range :
  forall nthreads tr m, exec anyOrder nthreads tr m ->
  forall h hd, nth_error (hs m) h = Some hd -> self hd = true ->
  (0 <= inUse hd <= Z.of_nat (users tr h + nthreads))%Z.
Proof.
  intros nt tr m He h hd Eh S. pose proof (ri_h _ _ (exec_RI _ _ _ _ He) _ _ Eh) as K. unfold HInv in K. rewrite S in K.
  assert (B : tsum (fUse h) (thr m) <= nt).
  { rewrite <- (exec_threads _ _ _ _ He). apply tsum_bound. intros x. unfold fUse, eq1. destruct x; try lia; destruct (Nat.eqb _ h); lia. }
  unfold users. lia.
Qed.
Print Assumptions resource_count_in_range.
Example resource_count_in_range_case :
  exists m, option_map (fun r => (users (fst r) 0, map inUse (hs (snd r)))) (runR ([(0, CallGet)] ++ run 0 4 ++ [(1, CallReplace)] ++ run 1 6) tr0 (m0 2)) = Some (1, m) /\ m = [2; 0]%Z.
Proof. eexists. split; [vm_compute; reflexivity|reflexivity]. Qed.
