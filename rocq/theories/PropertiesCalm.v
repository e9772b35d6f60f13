(* C127: the resource manager when the exchange of a replace is made alone while all other
   steps overlap freely (resource.c).  Histories are those of ResourceSpec.exec with CalmSpec.replaceAlone. *)
From Verif Require Import CacheModel ResourceModel ResourceSpec ResourceProofs ResourceRun ResourceSeq PropertiesResource CalmProofs.

(* schedules checked against a boolean restriction *)
Fixpoint runW (w : manager -> nat -> action -> bool) (sch : list (nat * action)) (tr : list event) (m : manager) : option (list event * manager) :=
  match sch with
  | [] => Some (tr, m)
  | (t, a) :: sch' =>
    if wub tr m a && w m t a then
      match rstep t a m with
      | Some (m', evs) => runW w sch' (evs ++ tr) m'
      | None => None
      end
    else None
  end.
Lemma runW_exec w (W : manager -> nat -> action -> Prop) nt : (forall m t a, w m t a = true -> W m t a) -> forall sch tr m tr' m', exec W nt tr m -> runW w sch tr m = Some (tr', m') -> exec W nt tr' m'.
Proof.
  intros H0. induction sch as [|(t, a) sch IH]; intros tr m tr' m' He H; cbn in H.
  - now injection H as <- <-.
  - destruct (wub tr m a && w m t a) eqn:Ew; [|discriminate]. apply andb_true_iff in Ew. destruct Ew as (Ew & Eq).
    destruct (rstep t a m) as [(m1, evs)|] eqn:Es; [|discriminate].
    eapply IH; [|exact H]. eapply exec_step; eauto using wub_ok.
Qed.
Definition oneb (m : manager) (t : nat) (a : action) : bool := forallb (fun x => negb (replacing x)) (thr m) || match a with CallReplace | CallFree => false | _ => true end.
Lemma oneb_ok m t a : oneb m t a = true -> oneReplace m t a.
Proof.
  unfold oneb. intros H A t' x E. apply orb_true_iff in H. destruct H as [H|H]; [|destruct A as [-> | ->]; discriminate H].
  rewrite forallb_forall in H. specialize (H x (nth_error_In _ _ E)). now destruct (replacing x).
Qed.
Definition idleb (x : tstate) : bool := match x with Idle => true | _ => false end.
Definition aloneb (m : manager) (t : nat) (a : action) : bool :=
  match a with CallFree => false | _ => true end &&
  match nth_error (thr m) t with Some (RepCas _ _ _) => forallb idleb (lupd (thr m) t Idle) | _ => true end.
Lemma aloneb_ok m t a : aloneb m t a = true -> replaceAlone m t a.
Proof.
  unfold aloneb. intros H. apply andb_true_iff in H. destruct H as (A & H). split; [intros ->; discriminate A|]. intros (nh & fin & old & Et) t' x' N E.
  rewrite Et in H. rewrite forallb_forall in H. rewrite <- (PoolProofs.nth_lupd_ne (thr m) t Idle t' N) in E. specialize (H x' (nth_error_In _ _ E)). now destruct x'.
Qed.

(* C127.  No freed handle is read or written, no get returns NULL, no resource is given up
   and nothing crashes; a get returns the handle that is active at its exchange. *)
Theorem calm_safe :
  forall nthreads tr m, exec replaceAlone nthreads tr m ->
  touched m = false /\
  (forall t, ~ In (GotNull t) tr) /\ (forall t, ~ In (Crash t) tr) /\ (forall h, ~ In (Lost h) tr) /\
  (forall tr1 t h tr2, tr = tr1 ++ Got t h :: tr2 -> h = activeOf tr2).
Proof.
  intros nt tr m He. pose proof (exec_CQ _ _ _ He) as HS. split; [apply HS|].
  split; [intros t I; exact (cq_ev _ _ HS _ I)|]. split; [intros t I; exact (cq_ev _ _ HS _ I)|]. split; [intros t I; exact (cq_ev _ _ HS _ I)|].
  intros tr1 t h tr2 E. destruct (exec_event _ _ _ _ He _ _ _ _ E) as (m1 & m2 & He1 & _ & Hs).
  destruct (got_inv _ _ _ _ Hs) as (c & Et). destruct (cq_t _ _ (exec_CQ _ _ _ He1) _ _ Et) as ((-> & _) & _). apply (ri_act _ _ (exec_RI _ _ _ _ He1)).
Qed.
Print Assumptions calm_safe.

(* C127.  Between calls a resource has been freed just when it is not active and has no
   users; a handle that is not freed has its number of users as its count. *)
Theorem calm_frees :
  forall nthreads tr m, exec replaceAlone nthreads tr m -> quiescent m ->
  forall h, In (Created h) tr \/ h = 0 ->
  timesFreed tr h = (if Nat.eqb h (activeOf tr) then 0 else if Nat.eqb (users tr h) 0 then 1 else 0) /\
  (timesFreed tr h = 0 -> forall hd, nth_error (hs m) h = Some hd -> alive hd = true /\ inUse hd = Z.of_nat (users tr h)).
Proof.
  intros nt tr m He Hq h Hc. pose proof (exec_CQ _ _ _ He) as HS. pose proof (exec_RI _ _ _ _ He) as HI. destruct (reach_freed _ _ _ _ h He) as (A & B). split.
  - destruct (Nat.eqb_spec h (activeOf tr)) as [Ea|Na].
    + destruct (timesFreed tr h) as [|[|n]]; auto; [destruct (B eq_refl); congruence|lia].
    + destruct (Nat.eqb_spec (users tr h) 0) as [Eu|Nu].
      * apply (reach_quiet _ _ _ _ h He Hq Hc); auto. assert (L : forall e, In e tr -> calmEv e) by apply HS. clear -L.
        induction tr as [|e tr IH]; [reflexivity|]. rewrite count_cons, IH by (intros e' I; apply L; now right). pose proof (L e (or_introl eq_refl)) as K. destruct e; cbn in *; try reflexivity. destruct K.
      * destruct (timesFreed tr h) as [|[|n]]; auto; [destruct (B eq_refl); congruence|lia].
  - intros F0 hd Eh. pose proof (ri_h _ _ HI _ _ Eh) as K. unfold HInv in K. change (count (isFreed h) tr) with (timesFreed tr h) in K. rewrite F0 in K.
    assert (Q : forall f, f Idle = 0 -> tsum f (thr m) = 0).
    { intros f F. destruct (tsum f (thr m)) eqn:E; [reflexivity|]. destruct (tsum_pos f (thr m)) as (t & x & Ex & P); [lia|]. rewrite (Hq _ _ Ex) in P. lia. }
    rewrite (Q (fUse h) eq_refl), (Q (fFree h) eq_refl), (calm_noHF _ (cq_ev _ _ HS) h) in K. unfold users.
    destruct (self hd); [|lia]. split; [destruct (alive hd); [reflexivity|lia]|lia].
Qed.
Print Assumptions calm_frees.

(* C127.  One call at a time is a special case, up to the freeing of the manager. *)
Theorem calm_covers_sequential :
  forall nthreads tr m, exec sequential nthreads tr m -> (forall t, ~ In (FreeBegin t) tr) -> exec replaceAlone nthreads tr m.
Proof.
  induction 1 as [|tr m t a m' evs He IH Hw HW Hs]; intros F; [apply exec_init|].
  assert (F0 : forall t', ~ In (FreeBegin t') tr) by (intros t' I; apply (F t'), in_or_app; now right).
  eapply exec_step; [exact (IH F0)|exact Hw| |exact Hs]. split.
  - intros ->. unfold rstep in Hs. destruct (nth_error (thr m) t) as [x|]; [|discriminate]. destruct x; try discriminate. injection Hs as _ <-. apply (F t). now left.
  - intros _ t' x' N E. exact (HW _ _ N E).
Qed.
Print Assumptions calm_covers_sequential.

(* threads 0 and 1 get together while thread 2 begins to replace; after its exchange its
   release, a get of thread 3 and both releases of the old handle overlap *)
Definition calmSched : list (nat * action) :=
  [(0, CallGet)] ++ run 0 2 ++ [(2, CallReplace)] ++ run 2 3 ++ [(1, CallGet)] ++ run 1 4 ++ run 0 6 ++ run 2 4 ++
  [(3, CallGet)] ++ run 3 2 ++ [(0, CallRelease 0); (1, CallRelease 0)] ++ run 0 1 ++ run 1 2 ++ run 3 2 ++ run 2 2 ++ run 0 6.
Example calm_case : exists tr m, exec replaceAlone 4 tr m /\ quiescent m /\ timesFreed tr 0 = 1 /\ users tr 1 = 1 /\ activeOf tr = 1 /\ In (Got 3 1) tr.
Proof.
  destruct (runW aloneb calmSched tr0 (m0 4)) as [(tr, m)|] eqn:E; [|vm_compute in E; discriminate].
  exists tr, m. split; [eapply runW_exec; [exact aloneb_ok|apply exec_init|exact E]|].
  vm_compute in E. injection E as <- <-. split; [|cbn; tauto].
  intros [|[|[|[|t]]]] x Hx; cbn in Hx; try congruence. destruct t; discriminate.
Qed.

(* It is not enough that replaces do not overlap each other: with one replace in the whole
   history a get reads, and so does a release, a handle that was freed. *)
Definition created (tr : list event) : nat := length (filter (fun e => match e with Created _ => true | _ => false end) tr).
Theorem calm_one_replace_refuted :
  (exists tr m, exec oneReplace 2 tr m /\ touched m = true /\ created tr = 1 /\ forall t h, ~ In (RelBegin t h) tr) /\
  (exists tr m, exec oneReplace 2 tr m /\ touched m = true /\ created tr = 1 /\ forall t x, nth_error (thr m) t = Some x -> getting x = false).
Proof.
  split.
  - destruct (runW oneb ([(0, CallGet)] ++ run 0 1 ++ [(1, CallReplace)] ++ run 1 12 ++ run 0 1) tr0 (m0 2)) as [(tr, m)|] eqn:E; [|vm_compute in E; discriminate].
    exists tr, m. split; [eapply runW_exec; [exact oneb_ok|apply exec_init|exact E]|].
    vm_compute in E. injection E as <- <-. split; [reflexivity|]. split; [reflexivity|]. intros t h. cbn. intuition congruence.
  - destruct (runW oneb ([(0, CallGet)] ++ run 0 4 ++ [(0, CallRelease 0)] ++ run 0 2 ++ [(1, CallReplace)] ++ run 1 12 ++ run 0 1) tr0 (m0 2)) as [(tr, m)|] eqn:E; [|vm_compute in E; discriminate].
    exists tr, m. split; [eapply runW_exec; [exact oneb_ok|apply exec_init|exact E]|].
    vm_compute in E. injection E as <- <-. split; [reflexivity|]. split; [reflexivity|]. intros [|[|t]] x Hx; cbn in Hx; try (injection Hx as <-; reflexivity). destruct t; discriminate.
Qed.
Print Assumptions calm_one_replace_refuted.
