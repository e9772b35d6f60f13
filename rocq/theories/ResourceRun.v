From Verif Require Import CacheModel CacheRun PoolProofs ResourceModel ResourceSpec ResourceProofs.

Lemma init_RI nt : RI (snd (ManagerInit nt)) (fst (ManagerInit nt)).
Proof.
  cbn. constructor; cbn [active hs thr]; auto.
  - intros [|h] hd Hh; cbn in Hh; [|destruct h; discriminate]. injection Hh as <-. unfold HInv. cbn [thr self inUse alive active].
    rewrite !tsum_repeat by reflexivity. cbn. lia.
  - intros h Hh. unfold HNone. cbn [thr]. rewrite !tsum_repeat by reflexivity.
    destruct h; [discriminate|]. cbn. lia.
  - intros t x Hx. apply nth_error_In, repeat_spec in Hx. subst. split; exact I.
Qed.
Lemma exec_RI W nt tr m : exec W nt tr m -> RI tr m.
Proof.
  induction 1 as [|tr m t a m' evs He IH Hw HW Hs]; [apply init_RI|]. eapply step_inv; eauto.
Qed.
Lemma exec_weaken (W W' : manager -> nat -> action -> Prop) nt tr m :
  (forall m t a, W m t a -> W' m t a) -> exec W nt tr m -> exec W' nt tr m.
Proof. intros HW. induction 1; [constructor|]. econstructor; eauto. Qed.

Ltac brk Hs := repeat match type of Hs with context [match ?x with _ => _ end] =>
  lazymatch x with context [match _ with _ => _ end] => fail | _ => destruct x eqn:?; try discriminate end end.
Lemma rstep_cases t a m m' evs : rstep t a m = Some (m', evs) ->
  length (hs m') = length (hs m) /\ (forall h, ~ In (Created h) evs) \/
  length (hs m') = S (length (hs m)) /\ evs = [Created (length (hs m))].
Proof.
  unfold rstep, afterDec. intros Hs. destruct (nth_error (thr m) t) as [x|]; [|discriminate].
  destruct x; destruct a; try discriminate;
  brk Hs;
  injection Hs as <- <-; cbn; rewrite ?length_lupd, ?app_length; cbn;
  try (left; split; [reflexivity|intros; intuition congruence]); right; split; auto; lia.
Qed.
Lemma exec_created W nt tr m : exec W nt tr m -> forall h, In (Created h) tr \/ h = 0 <-> h < length (hs m).
Proof.
  induction 1 as [|tr m t a m' evs He IH Hw HW Hs]; intros h.
  - cbn. intuition (try congruence); try lia.
  - rewrite in_app_iff. specialize (IH h). apply rstep_cases in Hs. destruct Hs as [(-> & Hs)|(-> & ->)].
    + rewrite <- IH. specialize (Hs h). tauto.
    + cbn. destruct (Nat.eq_dec h (length (hs m))) as [->|].
      * split; [lia|]. auto.
      * split.
        { intros [[[E|[]]|H]|H]; [congruence| |]; assert (h < length (hs m)) by tauto; lia. }
        { intros. assert (h < length (hs m)) by lia. tauto. }
Qed.

(* facts of reachable states *)
Lemma reach_freed W nt tr m h : exec W nt tr m ->
  timesFreed tr h <= 1 /\ (timesFreed tr h = 1 -> users tr h = 0 /\ h <> activeOf tr).
Proof.
  intros He. pose proof (exec_RI _ _ _ _ He) as HI. unfold timesFreed, users. rewrite <- (ri_act _ _ HI).
  destruct (nth_error (hs m) h) as [hd|] eqn:E.
  - pose proof (ri_h _ _ HI _ _ E) as H. unfold HInv in H. destruct hd as [n [|] al]; cbn [self] in H; lia.
  - pose proof (ri_none _ _ HI _ E) as H. unfold HNone in H. lia.
Qed.
Lemma tsum_quiet f m : quiescent m -> f Idle = 0 -> tsum f (thr m) = 0.
Proof.
  intros Hq Hf. destruct (tsum f (thr m)) eqn:E; auto. destruct (tsum_pos f (thr m)) as (t & x & Hx & Hp); [lia|].
  apply Hq in Hx. subst. lia.
Qed.
Lemma reach_quiet W nt tr m h : exec W nt tr m -> quiescent m -> In (Created h) tr \/ h = 0 ->
  (h <> activeOf tr -> count (isLost h) tr = 0 -> users tr h = 0 -> timesFreed tr h = 1).
Proof.
  intros He Hq Hc. apply (exec_created _ _ _ _ He) in Hc. pose proof (exec_RI _ _ _ _ He) as HI.
  destruct (nth_error (hs m) h) as [hd|] eqn:E; [|apply nth_error_None in E; lia].
  pose proof (ri_h _ _ HI _ _ E) as H. unfold HInv in H. unfold timesFreed, users. rewrite <- (ri_act _ _ HI).
  rewrite !tsum_quiet in H by (auto; reflexivity). destruct hd as [n [|] al]; cbn [self inUse] in H; lia.
Qed.

Lemma exec_event W nt tr m : exec W nt tr m -> forall tr1 t h tr2, tr = tr1 ++ Got t h :: tr2 ->
  exists m1 m2, exec W nt tr2 m1 /\ W m1 t Continue /\ rstep t Continue m1 = Some (m2, [Got t h]).
Proof.
  induction 1 as [|tr m t a m' evs He IH Hw HW Hs]; intros tr1 t' h tr2 E.
  - destruct tr1 as [|? [|? ?]]; discriminate.
  - assert (In (Got t' h) evs -> evs = [Got t' h] /\ t = t' /\ a = Continue) as Hev.
    { unfold rstep, afterDec in Hs. destruct (nth_error (thr m) t) as [x|]; [|discriminate].
      destruct x; destruct a; try discriminate;
      brk Hs;
      injection Hs as <- <-; cbn; intuition congruence. }
    assert (In (Got t' h) evs \/ exists l, tr1 = evs ++ l /\ tr = l ++ Got t' h :: tr2) as [Hi|(l & -> & ->)].
    { clear -E. revert tr1 E. induction evs as [|e evs IHe]; intros tr1 E; cbn in *.
      - right. exists tr1. auto.
      - destruct tr1 as [|e1 tr1]; cbn in E; injection E as -> E; [left; auto|].
        destruct (IHe _ E) as [H|(l & -> & ->)]; auto. right. exists l. auto. }
    + destruct (Hev Hi) as (-> & -> & ->). cbn in E. destruct tr1 as [|e1 tr1]; cbn in E.
      * injection E as ->. exists m, m'. auto.
      * injection E as _ E. apply (IH _ _ _ _ E).
    + apply (IH _ _ _ _ eq_refl).
Qed.
Lemma got_inv t m m2 h : rstep t Continue m = Some (m2, [Got t h]) -> exists c,
  nth_error (thr m) t = Some (IncCas ForUser c h).
Proof.
  unfold rstep, afterDec. destruct (nth_error (thr m) t) as [x|] eqn:Et; [|discriminate].
  destruct x; try discriminate; intros Hs;
  brk Hs;
  try discriminate Hs.
  injection Hs as _ ->. match goal with H : counter_eqb _ _ = true |- _ => apply counter_eqb_eq in H; rename H into Ec end.
  subst c. cbn in *. destruct (self _); [|discriminate].
  match goal with H : Some _ = Some _ |- _ => injection H as -> end. eauto.
Qed.

(* ---- replaces one at a time *)
Definition frep (x : tstate) : nat := if replacing x then 1 else 0.
Record OR (tr : list event) (m : manager) : Prop := {
  or_one : tsum frep (thr m) <= 1;
  or_t : forall t x, nth_error (thr m) t = Some x ->
    match x with IncCas (ForReplace _ _) _ a => a = active m | RepCas _ _ o => o = active m | _ => True end;
  or_ev : forall e, In e tr -> match e with Lost _ | Crash _ => False | _ => True end }.

Lemma two_reps m t t' x x' : tsum frep (thr m) <= 1 -> t <> t' ->
  nth_error (thr m) t = Some x -> nth_error (thr m) t' = Some x' -> frep x = 1 -> frep x' = 0.
Proof.
  intros H1 Nt Hx Hx' Hf. pose proof (tsum_lupd frep _ _ _ Idle Hx) as H. change (frep Idle) with 0 in H.
  assert (nth_error (lupd (thr m) t Idle) t' = Some x') as H2 by (rewrite nth_lupd_ne; auto).
  apply (tsum_ge frep) in H2. lia.
Qed.

Lemma or_step tr m t a m' evs : RI tr m -> OR tr m -> wellUsed tr m a -> oneReplace m t a ->
  rstep t a m = Some (m', evs) -> OR (evs ++ tr) m'.
Proof.
  intros HI HO Hw HW Hs. unfold rstep in Hs. destruct (nth_error (thr m) t) as [x|] eqn:Et; [|discriminate].
  assert (t < length (thr m)) as Htl by (apply nth_error_Some; congruence).
  pose proof (or_t _ _ HO _ _ Et) as Hx.
  assert (forall y evs' act', frep y <= frep x \/ tsum frep (thr m) = 0 -> 
     (act' = active m \/ frep x = 1) ->
     match y with IncCas (ForReplace _ _) _ a => a = act' | RepCas _ _ o => o = act' | _ => True end ->
     (forall e, In e evs' -> match e with Lost _ | Crash _ => False | _ => True end) ->
     forall hs' tch, OR (evs' ++ tr) (mkM hs' act' tch (lupd (thr m) t y))) as G.
  { intros y evs' act' Hf Ha Hy He hs' tch. constructor; cbn [thr active].
    - pose proof (tsum_lupd frep _ _ _ y Et). pose proof (or_one _ _ HO). 
      assert (frep y <= 1) by (unfold frep; destruct (replacing y); lia).
      pose proof (tsum_ge frep _ _ _ Et). lia.
    - intros t' x' Hx'. destruct (Nat.eq_dec t' t) as [->|Nt].
      + rewrite nth_lupd_eq in Hx' by auto. injection Hx' as <-. exact Hy.
      + rewrite nth_lupd_ne in Hx' by auto. destruct Ha as [->|Ha]; [eapply or_t; eauto|].
        pose proof (two_reps m t t' x x' (or_one _ _ HO) ltac:(auto) Et Hx' Ha) as Hz.
        destruct x' as [| | | |k|k ?|k ?|[|? ?] ? ?| | | | | | |]; auto; discriminate Hz.
    - intros e Hi. apply in_app_iff in Hi. destruct Hi as [Hi|Hi]; [exact (He e Hi)|exact (or_ev _ _ HO e Hi)]. }
  unfold setT, setH, setActive, touch, afterDec in Hs. cbn [hs active touched thr] in Hs.
  destruct x as [| |fin|fin a0|k|k a0|k c|k c a0|nh fin o|h k|h k c|h k|h k|h k|nh]; destruct a as [|h'| | |]; try discriminate;
  brk Hs;
  try (injection Hs as <- <-); cbn [hs active touched thr setT setH touch setActive];
  try (apply G; cbn; auto; try (intros; intuition (subst; auto)); fail).
  all: try (destruct k; apply G; cbn; auto; try (intros; intuition (subst; auto)); fail).
  - (* CallReplace *)
    apply G; cbn; auto; try tauto. right. destruct (tsum frep (thr m)) eqn:E; auto.
    destruct (tsum_pos frep (thr m)) as (t1 & x1 & H1 & H2); [lia|].
    unfold frep in H2. rewrite (HW ltac:(auto) _ _ H1) in H2. lia.
  - apply G; cbn; auto; try (intros; intuition (subst; auto)). right. destruct (tsum frep (thr m)) eqn:E; auto.
    destruct (tsum_pos frep (thr m)) as (t1 & x1 & H1 & H2); [lia|].
    unfold frep in H2. rewrite (HW ltac:(auto) _ _ H1) in H2. lia.
  - apply G; cbn; auto; [|tauto]. 
    match goal with H : counter_eqb _ _ = true |- _ => apply counter_eqb_eq in H; rename H into Ec end. subst c. cbn in *.
    destruct (self _); [|discriminate]. congruence.
  - exfalso. match goal with H : counter_eqb _ _ = true |- _ => apply counter_eqb_eq in H; rename H into Ec end. subst c. cbn in *.
    match goal with H : nth_error (hs m) _ = Some ?hd |- _ => pose proof (ri_h _ _ HI _ _ H) as Hh; unfold HInv in Hh; destruct (self hd) end; [discriminate|].
    destruct Hh as (_ & (_ & _ & Hh & _) & _). auto.
  - exfalso. rewrite Nat.eqb_neq in *. congruence.
  - exfalso. rewrite Nat.eqb_neq in *. congruence.
Qed.
Lemma exec_OR nt tr m : exec oneReplace nt tr m -> OR tr m.
Proof.
  induction 1 as [|tr m t a m' evs He IH Hw HW Hs].
  - cbn. constructor; cbn [thr].
    + rewrite tsum_repeat; [lia|reflexivity].
    + intros t x Hx. apply nth_error_In, repeat_spec in Hx. subst. exact I.
    + intros e [<-|[]]. exact I.
  - eapply or_step; eauto. eapply exec_RI; eauto.
Qed.
