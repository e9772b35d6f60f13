(* Proofs about overlapping gets and releases. *)
From Verif Require Import CacheModel CacheRun PoolProofs ResourceModel ResourceSpec ResourceProofs ResourceRun ResourceSeq.
From Verif Require Export CalmSpec.

Definition calmEv (e : event) : Prop := match e with Lost _ | Crash _ | GotNull _ | FreeBegin _ | HandleFreed _ => False | _ => True end.
Definition pos (m : manager) (x : tstate) : Prop :=
  match x with
  | Crashed => False
  | RepRead _ a | IncRead _ a => a = active m
  | IncAgain _ c => snd c = Some (active m)
  | IncCas _ c a => a = active m /\ snd c = Some a
  | RepCas _ _ o => o = active m
  | _ => True
  end.
(* a handle that is not active is at zero for one thread at most *)
Definition zeroOnce (m : manager) : Prop := forall h hd, nth_error (hs m) h = Some hd -> h <> active m -> 1 <= tsum (fZero h) (thr m) ->
  tsum (fZero h) (thr m) = 1 /\ self hd = true /\ inUse hd = 0%Z.
Record CQ (tr : list event) (m : manager) : Prop := {
  cq_touch : touched m = false;
  cq_ev : forall e, In e tr -> calmEv e;
  cq_t : forall t x, nth_error (thr m) t = Some x -> pos m x /\ finx x = false;
  cq_z : zeroOnce m }.

Lemma calm_noHF tr : (forall e, In e tr -> calmEv e) -> forall h, count (isHFreed h) tr = 0.
Proof.
  intros C h. induction tr as [|e tr IH]; [reflexivity|]. rewrite count_cons, IH by (intros e' I; apply C; now right). pose proof (C e (or_introl eq_refl)) as K.
  destruct e; cbn in *; try reflexivity. destruct K.
Qed.
Lemma tsum_alone f l t x : nth_error l t = Some x -> f Idle = 0 -> (forall t' x', t' <> t -> nth_error l t' = Some x' -> x' = Idle) -> tsum f l = f x.
Proof.
  intros E F O. pose proof (tsum_lupd f l t x Idle E) as K. assert (tsum f (lupd l t Idle) = 0); [|lia].
  destruct (tsum f (lupd l t Idle)) eqn:Q; [reflexivity|]. destruct (tsum_pos f (lupd l t Idle)) as (t' & x' & E' & P); [lia|].
  destruct (Nat.eq_dec t' t) as [->|N].
  - rewrite nth_lupd_eq in E' by (apply nth_error_Some; congruence). injection E' as <-. lia.
  - rewrite nth_lupd_ne in E' by exact N. rewrite (O _ _ N E') in P. lia.
Qed.
Lemma pos_same m m' x : active m' = active m -> pos m x -> pos m' x.
Proof. intros E. destruct x; cbn; rewrite ?E; auto. Qed.

Lemma cq_assemble tr m t x y evs m' : CQ tr m -> nth_error (thr m) t = Some x ->
  thr m' = lupd (thr m) t y -> touched m' = false -> (forall e, In e evs -> calmEv e) -> pos m' y -> finx y = false ->
  (active m' = active m \/ forall t' x', t' <> t -> nth_error (thr m) t' = Some x' -> x' = Idle) ->
  zeroOnce m' -> CQ (evs ++ tr) m'.
Proof.
  intros HS Et Hthr Ht He Hp Hf Ha Hz. assert (t < length (thr m)) as Htl by (apply nth_error_Some; congruence). constructor; auto.
  - intros e I. apply in_app_or in I. destruct I as [I|I]; [exact (He e I)|exact (cq_ev _ _ HS e I)].
  - intros t' x' E. rewrite Hthr in E. destruct (Nat.eq_dec t' t) as [->|N].
    + rewrite nth_lupd_eq in E by exact Htl. injection E as <-. split; assumption.
    + rewrite nth_lupd_ne in E by exact N. destruct Ha as [Ha|Ha].
      * destruct (cq_t _ _ HS _ _ E) as (P & Q). split; [eapply pos_same; eassumption|exact Q].
      * rewrite (Ha _ _ N E). split; [exact I|reflexivity].
Qed.
(* steps that keep the threads at zero *)
Lemma zero_keep m m' t x y : zeroOnce m -> nth_error (thr m) t = Some x -> thr m' = lupd (thr m) t y -> active m' = active m ->
  (forall h, h <> active m -> fZero h y = fZero h x) ->
  (forall h hd, nth_error (hs m') h = Some hd -> h <> active m -> 1 <= tsum (fZero h) (thr m) -> nth_error (hs m) h = Some hd) -> zeroOnce m'.
Proof.
  intros Z Et Hthr Ha Hf Hh h hd E N P. rewrite Ha in N. rewrite Hthr in *. pose proof (tsum_lupd (fZero h) _ _ _ y Et) as K. rewrite (Hf h N) in K.
  assert (Q : tsum (fZero h) (lupd (thr m) t y) = tsum (fZero h) (thr m)) by lia. rewrite Q in *. exact (Z h hd (Hh _ _ E N P) N P).
Qed.

Ltac cqe := intros; cbn in *; intuition (subst; cbn; auto; try congruence).
Lemma cq_step tr m t a m' evs : RI tr m -> CQ tr m -> wellUsed tr m a -> replaceAlone m t a -> rstep t a m = Some (m', evs) -> CQ (evs ++ tr) m'.
Proof.
  intros HI HS Hw (Nf & HW) Hs. unfold rstep in Hs. destruct (nth_error (thr m) t) as [x|] eqn:Et; [|discriminate].
  destruct (cq_t _ _ HS _ _ Et) as (Hp & Hfx). pose proof (cq_touch _ _ HS) as Htc. pose proof (cq_z _ _ HS) as Hz. pose proof (calm_noHF _ (cq_ev _ _ HS)) as HF.
  assert (Ho : forall nh fin old, x = RepCas nh fin old -> forall t' x', t' <> t -> nth_error (thr m) t' = Some x' -> x' = Idle) by (intros nh fin old ->; apply HW; eauto).
  destruct (act_lt _ _ _ HI (ri_actA _ _ HI)) as (hda & Ea). pose proof (active_self _ _ _ HI Ea) as Hsa. pose proof (alive_self _ _ _ _ HI Ea Hsa (HF _)) as Hla.
  assert (Zs : forall y m1, thr m1 = lupd (thr m) t y -> active m1 = active m -> hs m1 = hs m -> (forall h, h <> active m -> fZero h y = fZero h x) -> zeroOnce m1).
  { intros y m1 A B C D. eapply zero_keep; [exact Hz|exact Et|exact A|exact B|exact D|]. rewrite C. auto. }
  assert (Use : forall h hd0, nth_error (hs m) h = Some hd0 -> 1 <= fUse h x -> self hd0 = true /\ alive hd0 = true /\ (h <> active m -> tsum (fZero h) (thr m) = 0)).
  { intros h hd0 Eh U. pose proof (tsum_ge (fUse h) _ _ _ Et) as Hu. pose proof (ri_h _ _ HI _ _ Eh) as K. unfold HInv in K.
    assert (S : self hd0 = true) by (destruct (self hd0); [reflexivity|lia]). rewrite S in K. split; [exact S|]. split; [exact (alive_self _ _ _ _ HI Eh S (HF _))|].
    intros N. destruct (tsum (fZero h) (thr m)) eqn:Q; [reflexivity|]. destruct (Hz h hd0 Eh N) as (_ & _ & I0); lia. }
  destruct x as [| |fin|fin a0|k|k a0|k c|k c a0|nh fin o|h k|h k c|h k|h k|h k|nh]; cbn [pos] in Hp.
  - destruct a as [|h| | |]; try discriminate; try congruence; injection Hs as <- <-.
    + eapply cq_assemble; [exact HS|exact Et|reflexivity|exact Htc|cqe|exact I|reflexivity|left; reflexivity|eapply Zs; reflexivity].
    + eapply cq_assemble; [exact HS|exact Et|reflexivity|exact Htc|cqe|exact I|reflexivity|left; reflexivity|eapply Zs; reflexivity].
    + eapply cq_assemble; [exact HS|exact Et|reflexivity|exact Htc|cqe|exact I|reflexivity|left; reflexivity|eapply Zs; reflexivity].
  - destruct Hp.
  - destruct a; try discriminate. injection Hs as <- <-.
    eapply cq_assemble; [exact HS|exact Et|reflexivity|exact Htc|cqe|reflexivity|exact Hfx|left; reflexivity|eapply Zs; reflexivity].
  - destruct a; try discriminate. subst a0. rewrite Ea in Hs. injection Hs as <- <-.
    eapply cq_assemble; [exact HS|exact Et|reflexivity|cbn; now rewrite Htc, Hla|cqe|exact I|exact Hfx|left; reflexivity|].
    eapply zero_keep; [exact Hz|exact Et|reflexivity|reflexivity|reflexivity|]. cbn [hs setT touch]. intros h hd E N P.
    destruct (nth_error (hs m) h) as [hd0|] eqn:Eh; [rewrite nth_error_app1 in E by (apply nth_error_Some; congruence); congruence|].
    apply (ri_none _ _ HI) in Eh. unfold HNone in Eh. lia.
  - destruct a; try discriminate. injection Hs as <- <-.
    eapply cq_assemble; [exact HS|exact Et|reflexivity|exact Htc|cqe|reflexivity|destruct k; exact Hfx|left; reflexivity|eapply Zs; reflexivity].
  - destruct a; try discriminate. subst a0. rewrite Ea in Hs. injection Hs as <- <-.
    eapply cq_assemble; [exact HS|exact Et|reflexivity|cbn; now rewrite Htc, Hla|cqe| |destruct k; exact Hfx|left; reflexivity|eapply Zs; reflexivity].
    cbn [pos counterOf snd active setT touch]. now rewrite Hsa.
  - destruct a; try discriminate. injection Hs as <- <-.
    eapply cq_assemble; [exact HS|exact Et|reflexivity|exact Htc|cqe|split; [reflexivity|exact Hp]|destruct k; exact Hfx|left; reflexivity|eapply Zs; reflexivity].
  - destruct a; try discriminate. destruct Hp as (-> & Hc). rewrite Ea in Hs. destruct (counter_eqb _ c).
    + rewrite Hc in Hs. assert (Zu : forall y m1, thr m1 = lupd (thr m) t y -> active m1 = active m -> (exists v, hs m1 = lupd (hs m) (active m) v) -> (forall h, fZero h y = 0) -> zeroOnce m1).
      { intros y m1 A B (v & C) D. eapply zero_keep; [exact Hz|exact Et|exact A|exact B|intros h _; rewrite D; reflexivity|]. rewrite C. intros h hd E N _. now rewrite nth_lupd_ne in E by exact N. }
      destruct k as [|nh fin]; injection Hs as <- <-.
      * eapply cq_assemble; [exact HS|exact Et|reflexivity|cbn; now rewrite Htc, Hla|cqe|exact I|reflexivity|left; reflexivity|eapply Zu; [reflexivity|reflexivity|eexists; reflexivity|reflexivity]].
      * eapply cq_assemble; [exact HS|exact Et|reflexivity|cbn; now rewrite Htc, Hla|cqe|reflexivity|exact Hfx|left; reflexivity|eapply Zu; [reflexivity|reflexivity|eexists; reflexivity|reflexivity]].
    + injection Hs as <- <-.
      eapply cq_assemble; [exact HS|exact Et|reflexivity|cbn; now rewrite Htc, Hla|cqe|exact I|destruct k; exact Hfx|left; reflexivity|eapply Zs; reflexivity].
  - destruct a; try discriminate. subst o. cbn [finx] in Hfx. subst fin. rewrite Nat.eqb_refl in Hs. injection Hs as <- <-.
    eapply cq_assemble; [exact HS|exact Et|reflexivity|exact Htc|cqe|exact I|reflexivity|right; exact (Ho _ _ _ eq_refl)|].
    intros h hd E N P. exfalso. cbn [thr setT setActive] in P. pose proof (tsum_lupd (fZero h) _ _ _ (Dec (active m) None) Et) as K. rewrite (tsum_alone (fZero h) _ _ _ Et eq_refl (Ho _ _ _ eq_refl)) in K. cbn [fZero] in K. lia.
  - destruct a; try discriminate. destruct (nth_error (hs m) h) as [hd0|] eqn:Eh; [|discriminate]. injection Hs as <- <-.
    destruct (Use h hd0 Eh) as (S0 & A0 & _); [cbn; unfold eq1; rewrite Nat.eqb_refl; lia|].
    eapply cq_assemble; [exact HS|exact Et|reflexivity|cbn; now rewrite Htc, A0|cqe|exact I|destruct k; exact Hfx|left; reflexivity|eapply Zs; reflexivity].
  - destruct a; try discriminate. destruct (nth_error (hs m) h) as [hd0|] eqn:Eh; [|discriminate].
    destruct (Use h hd0 Eh) as (S0 & A0 & Z0); [cbn; unfold eq1; rewrite Nat.eqb_refl; lia|].
    destruct k as [nk|]; [discriminate Hfx|]. destruct (counter_eqb _ c).
    + destruct (Z.eqb_spec (inUse hd0 - 1) 0) as [Ez|Nz]; cbn [afterDec] in Hs; injection Hs as <- <-.
      * eapply cq_assemble; [exact HS|exact Et|reflexivity|cbn; now rewrite Htc, A0|cqe|exact I|reflexivity|left; reflexivity|].
        intros j hd E N P. cbn [hs thr active setT setH touch] in *. pose proof (tsum_lupd (fZero j) _ _ _ (DecZero h None) Et) as K. cbn [fZero] in K. unfold eq1 in K.
        destruct (Nat.eqb_spec h j) as [->|Nj].
        -- rewrite nth_lupd_eq in E by (apply nth_error_Some; congruence). injection E as <-. rewrite (Z0 N) in K. cbn [self inUse]. split; [lia|]. split; [exact S0|exact Ez].
        -- rewrite nth_lupd_ne in E by congruence. assert (Q : tsum (fZero j) (lupd (thr m) t (DecZero h None)) = tsum (fZero j) (thr m)) by lia. rewrite Q in *. exact (Hz j hd E N P).
      * eapply cq_assemble; [exact HS|exact Et|reflexivity|cbn; now rewrite Htc, A0|cqe|exact I|reflexivity|left; reflexivity|].
        eapply zero_keep; [exact Hz|exact Et|reflexivity|reflexivity|reflexivity|]. cbn [hs setT setH touch]. intros j hd E N P.
        destruct (Nat.eq_dec j h) as [->|Nj]; [rewrite (Z0 N) in P; lia|now rewrite nth_lupd_ne in E by exact Nj].
    + injection Hs as <- <-.
      eapply cq_assemble; [exact HS|exact Et|reflexivity|cbn; now rewrite Htc, A0|cqe|exact I|reflexivity|left; reflexivity|eapply Zs; reflexivity].
  - destruct a; try discriminate. destruct (nth_error (hs m) h) as [hd0|] eqn:Eh; [|discriminate]. destruct k as [nk|]; [discriminate Hfx|].
    pose proof (tsum_ge (fZero h) _ _ _ Et) as Hu. cbn in Hu. unfold eq1 in Hu. rewrite Nat.eqb_refl in Hu.
    assert (A0 : alive hd0 = true).
    { destruct (Nat.eq_dec h (active m)) as [->|N]; [congruence|]. destruct (Hz h hd0 Eh N Hu) as (_ & S & _). exact (alive_self _ _ _ _ HI Eh S (HF _)). }
    cbn [active touch afterDec] in Hs. destruct (Nat.eqb_spec (active m) h) as [E1|E1]; injection Hs as <- <-.
    + eapply cq_assemble; [exact HS|exact Et|reflexivity|cbn; now rewrite Htc, A0|cqe|exact I|reflexivity|left; reflexivity|].
      eapply Zs; try reflexivity. intros j N. cbn [fZero]. unfold eq1. destruct (Nat.eqb_spec h j); [congruence|reflexivity].
    + eapply cq_assemble; [exact HS|exact Et|reflexivity|cbn; now rewrite Htc, A0|cqe|exact I|reflexivity|left; reflexivity|eapply Zs; reflexivity].
  - destruct a; try discriminate. destruct (nth_error (hs m) h) as [hd0|] eqn:Eh; [|discriminate]. destruct k as [nk|]; [discriminate Hfx|].
    pose proof (tsum_ge (fZero h) _ _ _ Et) as Hu. cbn in Hu. unfold eq1 in Hu. rewrite Nat.eqb_refl in Hu.
    pose proof (ri_t _ _ HI _ _ Et) as ((_ & Na) & _). destruct (Hz h hd0 Eh ltac:(congruence) Hu) as (Z1 & S0 & I0). pose proof (alive_self _ _ _ _ HI Eh S0 (HF _)) as A0.
    unfold counterOf in Hs. rewrite S0, I0, counter_eqb_refl in Hs. injection Hs as <- <-.
    eapply cq_assemble; [exact HS|exact Et|reflexivity|cbn; now rewrite Htc, A0|cqe|exact I|reflexivity|left; reflexivity|].
    intros j hd E N P. cbn [hs thr active setT setH touch] in *. pose proof (tsum_lupd (fZero j) _ _ _ (DecFree h None) Et) as K. cbn [fZero] in K. unfold eq1 in K.
    destruct (Nat.eqb_spec h j) as [->|Nj]; [lia|]. rewrite nth_lupd_ne in E by congruence.
    assert (Q : tsum (fZero j) (lupd (thr m) t (DecFree h None)) = tsum (fZero j) (thr m)) by lia. rewrite Q in *. exact (Hz j hd E N P).
  - destruct a; try discriminate. destruct (nth_error (hs m) h) as [hd0|] eqn:Eh; [|discriminate]. destruct k as [nk|]; [discriminate Hfx|].
    pose proof (tsum_ge (fFree h) _ _ _ Et) as Hu. cbn in Hu. unfold eq1 in Hu. rewrite Nat.eqb_refl in Hu.
    pose proof (ri_h _ _ HI _ _ Eh) as Hh. unfold HInv in Hh. assert (S0 : self hd0 = false) by (destruct (self hd0); auto; lia). rewrite S0 in Hh.
    assert (A0 : alive hd0 = true) by (destruct (alive hd0); auto; rewrite (HF h) in Hh; lia).
    cbn [afterDec] in Hs. injection Hs as <- <-.
    eapply cq_assemble; [exact HS|exact Et|reflexivity|cbn; now rewrite Htc, A0|cqe|exact I|reflexivity|left; reflexivity|].
    eapply zero_keep; [exact Hz|exact Et|reflexivity|reflexivity|reflexivity|]. cbn [hs setT setH touch]. intros j hd E N P.
    destruct (Nat.eq_dec j h) as [->|Nj]; [destruct (Hz h hd0 Eh N P) as (_ & S & _); congruence|now rewrite nth_lupd_ne in E by exact Nj].
  - discriminate Hfx.
Qed.
Lemma exec_CQ nt tr m : exec replaceAlone nt tr m -> CQ tr m.
Proof.
  induction 1 as [|tr m t a m' evs He IH Hw HW Hs].
  - cbn. assert (Hr : forall t x, nth_error (repeat Idle nt) t = Some x -> x = Idle) by (intros t x Hx; now apply nth_error_In, repeat_spec in Hx).
    constructor; cbn [thr touched active]; auto.
    + intros e [<-|[]]. exact I.
    + intros t x E. rewrite (Hr _ _ E). split; [exact I|reflexivity].
    + intros h hd _ _ P. cbn [thr] in P. rewrite tsum_repeat in P by reflexivity. lia.
  - eapply cq_step; eauto. eapply exec_RI; eauto.
Qed.
