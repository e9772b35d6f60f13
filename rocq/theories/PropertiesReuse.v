(* C119: the resource manager (resource.c) on a heap that hands out freed blocks again.
   Histories are those of ReuseSpec.rexec: every interleaving of the shared
   memory accesses of any number of threads that release only what they hold,
   and every choice of a free block for each new handle. *)
From Verif Require Import CacheModel CacheRun PoolProofs ResourceModel ResourceSpec ResourceProofs ResourceRun ResourceSeq PropertiesResource ReuseModel ReuseSpec ReuseProofs ReuseRun ReuseAny.

(* if a block is not handed out while a pointer to it is left, the histories of resources are those of
   a heap that never hands out a block again, and the same accesses are to freed blocks *)
Theorem reuse_as_without : forall nthreads tr m, rexec quarantine nthreads tr m ->
  exists n, exec anyOrder nthreads (view tr) n /\ touched n = touched (core m) /\ length (thr n) = length (thr (core m)).
Proof.
  intros nt tr m He. destruct (reuse_exec quarantine anyOrder nt) with (3 := He) as (n & home & E & S & _); [auto|intros; exact Logic.I|].
  exists n. split; [exact E|]. split; [apply (s_touch _ _ _ _ S)|]. rewrite (s_thr _ _ _ _ S). apply map_length.
Qed.
Print Assumptions reuse_as_without.
(* then a resource is freed at most once, and one that was freed is neither held nor active *)
Theorem reuse_never_freed : forall nthreads tr m, rexec quarantine nthreads tr m ->
  forall r, timesFreed (view tr) r <= 1 /\ (timesFreed (view tr) r = 1 -> users (view tr) r = 0 /\ r <> activeOf (view tr)).
Proof. intros nt tr m He r. destruct (reuse_as_without _ _ _ He) as (n & E & _). eapply reach_freed; eauto. Qed.
Print Assumptions reuse_never_freed.
(* and a get returns a resource that was active during the call, in the block its user releases *)
Theorem reuse_get_was_active : forall nthreads tr m, rexec quarantine nthreads tr m ->
  forall tr1 t h r tr2, tr = tr1 ++ (Got t h, r) :: tr2 ->
  exists tr3 tr4, tr2 = tr3 ++ tr4 /\ ~ In (GetBegin t) (view tr3) /\ In (GetBegin t) (view tr4) /\ activeOf (view tr4) = r.
Proof.
  intros nt tr m He tr1 t h r tr2 ->. destruct (reuse_as_without _ _ _ He) as (n & E & _).
  destruct (resource_get_was_active _ _ _ E (view tr1) t r (view tr2)) as (u3 & u4 & Eu & A & B & C); [unfold view; rewrite map_app; reflexivity|].
  unfold view in Eu. apply map_eq_app in Eu. destruct Eu as (tr3 & tr4 & -> & E3 & E4). exists tr3, tr4. unfold view. rewrite E3, E4. auto.
Qed.
Print Assumptions reuse_get_was_active.
(* whatever blocks are handed out, a resource that is held is not freed and none is freed twice *)
Theorem reuse_held_not_freed : forall W nthreads tr m, rexec W nthreads tr m ->
  forall r, timesFreed (view tr) r <= 1 /\ (timesFreed (view tr) r = 1 -> users (view tr) r = 0).
Proof. intros W nt tr m He r. eapply any_freed; eauto. Qed.
Print Assumptions reuse_held_not_freed.
(* with threads one at a time no block need be kept back *)
Theorem reuse_sequential : forall nthreads tr m, rexec reuseSequential nthreads tr m ->
  touched (core m) = false /\
  (forall t, ~ In (GotNull t) (view tr)) /\
  (forall tr1 t h r tr2, tr = tr1 ++ (Got t h, r) :: tr2 -> r = activeOf (view tr2)) /\
  (quiescent (core m) -> forall r, In (Created r) (view tr) \/ r = 0 ->
     timesFreed (view tr) r = if Nat.eqb r (activeOf (view tr)) then 0 else if Nat.eqb (users (view tr) r) 0 then 1 else 0).
Proof.
  intros nt tr m He. destruct (reuse_exec reuseSequential sequential nt) with (3 := He) as (n & home & E & S & _).
  - intros tr0 m0 n t a m' evs E S W Hs. destruct a as [| | | |p]; cbn [quarantine]; auto. intros fin b Et.
    pose proof (exec_SQ _ _ _ E) as HS. pose proof (exec_RI _ _ _ _ E) as HI.
    assert (nth_error (thr n) t = Some (RepRead fin (at_ (res m0) b))) as En by (rewrite (s_thr _ _ _ _ S), nth_error_map, Et; reflexivity).
    destruct (sq_t _ _ HS _ _ En) as (Ea & Lv). rewrite (s_act _ _ _ _ S) in Ea.
    assert (b = active (core m0)) as ->.
    { apply (s_inj _ _ _ _ S); auto; [|apply (s_in _ _ _ _ S)]. apply (s_ref _ _ _ _ S _ _ _ Et). reflexivity. }
    assert (p <> active (core m0)) as Na.
    { intros ->. cbn [reuseStep] in Hs. rewrite Et in Hs. destruct (nth_error (hs (core m0)) (active (core m0))) as [hd|] eqn:Eh; [|discriminate].
      unfold freeBlock in Hs. rewrite Eh in Hs. pose proof (s_h _ _ _ _ S _ _ Eh) as Eh'. rewrite <- (s_act _ _ _ _ S) in Eh'.
      rewrite (alive_self _ _ _ _ HI Eh' (active_self _ _ _ HI Eh')) in Hs; [discriminate|]. apply (proj1 Lv). }
    split; auto. intros t' x Hx. destruct (Nat.eq_dec t' t) as [->|Ne]; [rewrite Et in Hx; injection Hx as <-; exact Na|]. rewrite (W _ _ Ne Hx). auto.
  - intros m0 n t a S W t' x Ne Hx. rewrite (s_thr _ _ _ _ S), nth_error_map in Hx. destruct (nth_error (thr (core m0)) t') as [y|] eqn:Ey; [|discriminate].
    injection Hx as <-. rewrite (W _ _ Ne Ey). reflexivity.
  - destruct (resource_sequential _ _ _ E) as (A & B & C & D & _). split; [rewrite <- (s_touch _ _ _ _ S); exact A|]. split; [exact B|]. split.
    + intros tr1 t h r tr2 ->. apply (C (view tr1) t). unfold view. rewrite map_app. reflexivity.
    + intros Hq. apply D. intros t x Hx. rewrite (s_thr _ _ _ _ S), nth_error_map in Hx. destruct (nth_error (thr (core m)) t) as [y|] eqn:Ey; [|discriminate].
      injection Hx as <-. rewrite (Hq _ _ Ey). reflexivity.
Qed.
Print Assumptions reuse_sequential.

(* ---- running a schedule ---- *)
Definition usedB (tr : list (event * nat)) (a : raction) : bool :=
  match a with
  | Release h r => Nat.ltb 0 (holders tr h r)
  | Get | Replace => negb (existsb isFB (view tr))
  | FreeManager => false
  | Go _ => true
  end.
Lemma usedB_ok tr m a : usedB tr a = true -> reuseUsed tr m a.
Proof.
  destruct a; cbn; auto; try discriminate.
  - intros H t Hi. apply negb_true_iff in H. assert (existsb isFB (view tr) = true) as X by (apply existsb_exists; exists (FreeBegin t); auto). congruence.
  - destruct (holders tr h r); [discriminate|lia].
  - intros H t Hi. apply negb_true_iff in H. assert (existsb isFB (view tr) = true) as X by (apply existsb_exists; exists (FreeBegin t); auto). congruence.
Qed.
Fixpoint runW (W : rmanager -> nat -> raction -> bool) (sch : list (nat * raction)) (tr : list (event * nat)) (m : rmanager) : option (list (event * nat) * rmanager) :=
  match sch with
  | [] => Some (tr, m)
  | (t, a) :: sch => if usedB tr a && W m t a then match reuseStep t a m with Some (m', evs) => runW W sch (evs ++ tr) m' | None => None end else None
  end.
Lemma runW_exec (W : rmanager -> nat -> raction -> Prop) Wb nt : (forall m t a, Wb m t a = true -> W m t a) ->
  forall sch tr m tr' m', rexec W nt tr m -> runW Wb sch tr m = Some (tr', m') -> rexec W nt tr' m'.
Proof.
  intros HW. induction sch as [|(t, a) sch IH]; intros tr m tr' m' He Hr; cbn in Hr; [injection Hr as <- <-; auto|].
  destruct (usedB tr a) eqn:Eu; [|discriminate]. destruct (Wb m t a) eqn:Ew; [|discriminate]. destruct (reuseStep t a m) as [(m1, evs)|] eqn:Es; [|discriminate].
  eapply IH; [|exact Hr]. econstructor; eauto. now apply usedB_ok.
Qed.
Definition oneB (m : rmanager) (t : nat) (a : raction) : bool := match a with Replace | FreeManager => forallb (fun x => negb (replacing x)) (thr (core m)) | _ => true end.
Lemma oneB_ok m t a : oneB m t a = true -> reuseOneReplace m t a.
Proof.
  intros H Ha t' x Hx. assert (forallb (fun x => negb (replacing x)) (thr (core m)) = true) as F by (destruct Ha as [-> | ->]; exact H).
  rewrite forallb_forall in F. apply nth_error_In in Hx. specialize (F _ Hx). destruct (replacing x); auto.
Qed.
Definition go (t k p : nat) : list (nat * raction) := repeat (t, Go p) k.

(* refuted when a block is handed out again at once (C21, C119).  Thread 0 releases the first resource
   and has counted down to zero when thread 1 replaces it, which frees its handle, and replaces it again:
   the new handle is put in the same block.  Thread 0 goes on, finds the counter as it left it, and frees
   the new resource, which thread 1 then makes the active one.  No freed block was accessed and
   no two replaces overlapped. *)
Definition bad : list (nat * raction) :=
  [(0, Get)] ++ go 0 4 0 ++ [(0, Release 0 0)] ++ go 0 2 0 ++ [(1, Replace)] ++ go 1 12 1 ++ [(1, Replace)] ++ go 1 2 0 ++ go 0 3 0 ++ go 1 10 0.
Theorem reuse_active_freed_refuted : exists tr m, rexec reuseOneReplace 2 tr m /\ touched (core m) = false /\ quiescent (core m) /\
  timesFreed (view tr) (activeOf (view tr)) = 1 /\ exists tr1 tr2, tr = tr1 ++ tr2 /\ timesFreed (view tr2) 2 = 1 /\ activeOf (view tr2) = 1 /\ In (Activated 2) (view tr1).
Proof.
  destruct (runW oneB bad (snd (reuseInit 2)) (fst (reuseInit 2))) as [(tr, m)|] eqn:E; [|vm_compute in E; discriminate].
  exists tr, m. split; [eapply (runW_exec _ oneB); [apply oneB_ok|constructor|exact E]|]. vm_compute in E. injection E as <- <-.
  split; [reflexivity|]. split; [intros [|[|t]] x Hx; cbn in Hx; try congruence; destruct t; discriminate|]. split; [reflexivity|].
  eexists (_ :: _ :: _ :: nil). eexists. split; [reflexivity|]. split; [reflexivity|]. split; [reflexivity|]. cbn. tauto.
Qed.
Print Assumptions reuse_active_freed_refuted.
(* the next get then accesses the freed handle *)
Example reuse_active_freed_next : exists tr m, rexec reuseOneReplace 2 tr m /\ touched (core m) = true.
Proof.
  destruct (runW oneB (bad ++ [(0, Get)] ++ go 0 2 0) (snd (reuseInit 2)) (fst (reuseInit 2))) as [(tr, m)|] eqn:E; [|vm_compute in E; discriminate].
  exists tr, m. split; [eapply (runW_exec _ oneB); [apply oneB_ok|constructor|exact E]|]. vm_compute in E. injection E as <- <-. reflexivity.
Qed.
(* the history above: resource 0 was got and released by thread 0, each resource is freed once *)
Example reuse_held_not_freed_case : exists tr m, rexec reuseOneReplace 2 tr m /\ res m = [2; 1] /\ users (view tr) 0 = 0 /\ In (Got 0 0, 0) tr /\ map (timesFreed (view tr)) [0; 1; 2] = [1; 1; 1].
Proof.
  destruct (runW oneB bad (snd (reuseInit 2)) (fst (reuseInit 2))) as [(tr, m)|] eqn:E; [|vm_compute in E; discriminate].
  exists tr, m. split; [eapply (runW_exec _ oneB); [apply oneB_ok|constructor|exact E]|]. vm_compute in E. injection E as <- <-.
  split; [reflexivity|]. split; [reflexivity|]. split; [cbn; tauto|]. reflexivity.
Qed.

(* ---- blocks that are used again as in the theorems ---- *)
Definition counterB (c : counter) (h : nat) : bool := match snd c with Some j => Nat.eqb h j | None => false end.
Definition forB (k : incFor) (h : nat) : bool := match k with ForUser => false | ForReplace nh _ => Nat.eqb h nh end.
Definition someB (k : option nat) (h : nat) : bool := match k with Some j => Nat.eqb h j | None => false end.
Definition refersB (x : tstate) (h : nat) : bool :=
  match x with
  | Idle | Crashed | RepStart _ => false
  | RepRead _ a => Nat.eqb h a
  | Inc k => forB k h
  | IncRead k a => forB k h || Nat.eqb h a
  | IncAgain k c => forB k h || counterB c h
  | IncCas k c a => forB k h || counterB c h || Nat.eqb h a
  | RepCas nh _ old => Nat.eqb h nh || Nat.eqb h old
  | Dec j k | DecZero j k | DecEmpty j k | DecFree j k => Nat.eqb h j || someB k h
  | DecCas j k c => Nat.eqb h j || someB k h || counterB c h
  | FreeNew nh => Nat.eqb h nh
  end.
Lemma refersB_ok x h : refersTo x h -> refersB x h = true.
Proof.
  assert (forall c, inCounter c h -> counterB c h = true) as Hc by (intros (z, [j|]); unfold inCounter, counterB; cbn; intros E; [injection E as ->; apply Nat.eqb_refl|discriminate]).
  assert (forall k, inFor k h -> forB k h = true) as Hf by (intros [|nh fin]; cbn; [tauto|]; intros ->; apply Nat.eqb_refl).
  assert (forall k, k = Some h -> someB k h = true) as Hs by (intros k ->; apply Nat.eqb_refl).
  assert (forall a, h = a -> Nat.eqb h a = true) as He by (intros a ->; apply Nat.eqb_refl).
  destruct x; cbn; intros H; repeat match goal with X : _ \/ _ |- _ => destruct X end; rewrite ?orb_true_iff; auto; contradiction.
Qed.
Definition keptB (m : rmanager) (t : nat) (a : raction) : bool :=
  match a, nth_error (thr (core m)) t with
  | Go p, Some (RepRead _ _) => negb (Nat.eqb p (active (core m))) && forallb (fun x => negb (refersB x p)) (thr (core m))
  | _, _ => true
  end.
Lemma keptB_ok m t a : keptB m t a = true -> quarantine m t a.
Proof.
  destruct a as [| | | |p]; cbn; auto. intros H fin b Et. rewrite Et in H. apply andb_true_iff in H. destruct H as (A & B). split; [intros ->; rewrite Nat.eqb_refl in A; discriminate|].
  intros t' x Hx Hr. rewrite forallb_forall in B. specialize (B _ (nth_error_In _ _ Hx)). rewrite (refersB_ok _ _ Hr) in B. discriminate.
Qed.
(* thread 0 is in a get of the second resource, in block 1, while thread 1 puts the third in block 0; block 1 is handed out when it
   has no pointer to it any more; thread 2 holds the first for a while *)
Definition good : list (nat * raction) :=
  [(2, Get)] ++ go 2 4 0 ++ [(1, Replace)] ++ go 1 9 1 ++ [(2, Release 0 0)] ++ go 2 3 0 ++ [(0, Get)] ++ go 0 3 0 ++ go 2 2 0 ++ [(1, Replace)] ++ go 1 12 0 ++
  go 0 5 0 ++ [(1, Replace)] ++ go 1 9 1 ++ [(0, Release 0 2)] ++ go 0 5 0.
Definition goodTrace : list (event * nat) :=
  [(Done 0, 2); (Freed 0, 2); (RelBegin 0 0, 2); (Done 1, 2); (Activated 1, 3); (Created 1, 3); (Got 0 0, 2); (Done 1, 2); (Freed 1, 1); (Activated 0, 2); (Created 0, 2);
   (Done 2, 0); (Freed 0, 0); (GetBegin 0, 0); (RelBegin 2 0, 0); (Done 1, 0); (Activated 1, 1); (Created 1, 1); (Got 2 0, 0); (GetBegin 2, 0); (Activated 0, 0)].
Example reuse_example : exists m, rexec quarantine 3 goodTrace m /\ quiescent (core m) /\ res m = [2; 3] /\ map alive (hs (core m)) = [false; true] /\ active (core m) = 1.
Proof.
  destruct (runW keptB good (snd (reuseInit 3)) (fst (reuseInit 3))) as [(tr, m)|] eqn:E; [|vm_compute in E; discriminate].
  assert (tr = goodTrace) as <- by (vm_compute in E; injection E as <- _; reflexivity).
  exists m. split; [eapply (runW_exec _ keptB); [apply keptB_ok|constructor|exact E]|]. vm_compute in E. injection E as _ <-.
  split; [intros [|[|[|t]]] x Hx; cbn in Hx; try congruence; destruct t; discriminate|]. repeat split.
Qed.
Example reuse_never_freed_case : map (timesFreed (view goodTrace)) [0; 1; 2; 3] = [1; 1; 1; 0] /\ activeOf (view goodTrace) = 3 /\ users (view (skipn 3 goodTrace)) 2 = 1 /\
  goodTrace = firstn 6 goodTrace ++ (Got 0 0, 2) :: skipn 7 goodTrace /\ activeOf (view (skipn 7 goodTrace)) = 2.
Proof. repeat split. Qed.
(* one thread at a time, with the freed block used again at once *)
Definition aloneB (m : rmanager) (t : nat) (a : raction) : bool := seqb (core m) t.
Example reuse_sequential_case : exists tr m, rexec reuseSequential 2 tr m /\ quiescent (core m) /\ res m = [2; 3] /\ length (filter (fun x => match fst x with Freed _ => true | _ => false end) tr) = 3 /\
  activeOf (view tr) = 3 /\ users (view tr) 2 = 0 /\ In (Got 0 0, 2) tr.
Proof.
  destruct (runW aloneB ([(1, Replace)] ++ go 1 12 1 ++ [(1, Replace)] ++ go 1 12 0 ++ [(0, Get)] ++ go 0 4 0 ++ [(1, Replace)] ++ go 1 9 1 ++ [(0, Release 0 2)] ++ go 0 5 0) (snd (reuseInit 2)) (fst (reuseInit 2))) as [(tr, m)|] eqn:E; [|vm_compute in E; discriminate].
  exists tr, m. split; [eapply (runW_exec _ aloneB); [intros m1 t a; apply (seqb_ok (core m1) t Continue)|constructor|exact E]|]. vm_compute in E. injection E as <- <-.
  split; [intros [|[|t]] x Hx; cbn in Hx; try congruence; destruct t; discriminate|]. repeat split. cbn. tauto.
Qed.
