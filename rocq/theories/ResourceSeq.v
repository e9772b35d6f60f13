(* one thread at a time *)
From Verif Require Import CacheModel CacheRun PoolProofs ResourceModel ResourceSpec ResourceProofs ResourceRun.

Definition noHF (tr : list event) : Prop := forall h, count (isHFreed h) tr = 0.
Definition noFB (tr : list event) : Prop := forall t, ~ In (FreeBegin t) tr.
Definition hasFB (tr : list event) : Prop := exists t, In (FreeBegin t) tr.
Definition live (tr : list event) (fin : bool) : Prop := noHF tr /\ (if fin then hasFB tr else noFB tr).
Definition kok (tr : list event) (k : incFor) : Prop :=
  match k with ForUser => live tr false | ForReplace _ fin => live tr fin end.
Definition dok (tr : list event) (m : manager) (h : nat) (k : option nat) : Prop :=
  match k with None => True | Some nh => noHF tr /\ active m = nh /\ h <> nh /\ count (isGot nh) tr = 0 /\ hasFB tr end.
Definition ctr (m : manager) (h : nat) (c : counter) : Prop :=
  exists hd, nth_error (hs m) h = Some hd /\ counterOf h hd = c.
Definition chk (tr : list event) (m : manager) (x : tstate) : Prop :=
  match x with
  | Idle => True
  | Crashed => False
  | RepStart fin => live tr fin
  | RepRead fin a => a = active m /\ live tr fin
  | Inc k => kok tr k
  | IncRead k a => a = active m /\ kok tr k
  | IncAgain k c => ctr m (active m) c /\ kok tr k
  | IncCas k c a => a = active m /\ ctr m a c /\ kok tr k
  | RepCas nh fin o => o = active m /\ live tr fin
  | Dec h k => dok tr m h k
  | DecCas h k c => ctr m h c /\ dok tr m h k
  | DecZero h k => ctr m h (0%Z, Some h) /\ dok tr m h k
  | DecEmpty h k => ctr m h (0%Z, Some h) /\ dok tr m h k
  | DecFree h k => dok tr m h k
  | FreeNew nh => dok tr m (S nh) (Some nh)
  end.
Definition finx (x : tstate) : bool :=
  match x with
  | RepStart fin | RepRead fin _ | Inc (ForReplace _ fin) | IncRead (ForReplace _ fin) _
  | IncAgain (ForReplace _ fin) _ | IncCas (ForReplace _ fin) _ _ | RepCas _ fin _ => fin
  | Dec _ (Some _) | DecCas _ (Some _) _ | DecZero _ (Some _) | DecEmpty _ (Some _) | DecFree _ (Some _) | FreeNew _ => true
  | _ => false
  end.
Definition okEv (e : event) : Prop := match e with Lost _ | Crash _ | GotNull _ => False | _ => True end.

Record SQ (tr : list event) (m : manager) : Prop := {
  sq_touch : touched m = false;
  sq_ev : forall e, In e tr -> okEv e;
  sq_t : forall t x, nth_error (thr m) t = Some x -> chk tr m x;
  sq_hf : forall h, 1 <= count (isHFreed h) tr -> h = active m /\ count (isGot h) tr = 0 /\
     tsum (fUse h) (thr m) = 0 /\ tsum (fZero h) (thr m) = 0 /\ exists t, In (FreeBegin t) tr;
  sq_fb : forall t, In (FreeBegin t) tr -> 1 <= count (isHFreed (active m)) tr \/
     exists t' x, nth_error (thr m) t' = Some x /\ finx x = true;
  sq_one : forall t t' x x', nth_error (thr m) t = Some x -> nth_error (thr m) t' = Some x' ->
     x <> Idle -> x' <> Idle -> t = t' }.

(* a handle whose counter points to itself is not freed *)
Lemma alive_self tr m h hd : RI tr m -> nth_error (hs m) h = Some hd -> self hd = true ->
  count (isHFreed h) tr = 0 -> alive hd = true.
Proof.
  intros HI Hh Hs Hf. pose proof (ri_h _ _ HI _ _ Hh) as H. unfold HInv in H. rewrite Hs in H.
  destruct (alive hd); auto. lia.
Qed.
Lemma active_self tr m hd : RI tr m -> nth_error (hs m) (active m) = Some hd -> self hd = true.
Proof.
  intros HI Hh. pose proof (ri_h _ _ HI _ _ Hh) as H. unfold HInv in H. destruct (self hd); auto. tauto.
Qed.

Lemma sq_assemble tr m t x y evs m' :
  RI tr m -> SQ tr m -> nth_error (thr m) t = Some x -> RI (evs ++ tr) m' ->
  (forall t' x', t' <> t -> nth_error (thr m) t' = Some x' -> x' = Idle) ->
  thr m' = lupd (thr m) t y -> touched m' = false -> (forall e, In e evs -> okEv e) ->
  chk (evs ++ tr) m' y ->
  (forall h, 1 <= count (isHFreed h) (evs ++ tr) -> h = active m' /\ count (isGot h) (evs ++ tr) = 0 /\
     tsum (fUse h) (thr m') = 0 /\ tsum (fZero h) (thr m') = 0 /\ exists t, In (FreeBegin t) (evs ++ tr)) ->
  ((exists t1, In (FreeBegin t1) (evs ++ tr)) -> 1 <= count (isHFreed (active m')) (evs ++ tr) \/ finx y = true) ->
  SQ (evs ++ tr) m'.
Proof.
  intros HI HS Et HI' Ho Hthr Ht He Hy Hhf Hfb. assert (t < length (thr m)) as Htl by (apply nth_error_Some; congruence).
  constructor; auto.
  - intros e Hi. apply in_app_iff in Hi. destruct Hi as [Hi|Hi]; [exact (He e Hi)|exact (sq_ev _ _ HS e Hi)].
  - intros t' x' Hx'. rewrite Hthr in Hx'. destruct (Nat.eq_dec t' t) as [->|Nt].
    + rewrite nth_lupd_eq in Hx' by auto. injection Hx' as <-. exact Hy.
    + rewrite nth_lupd_ne in Hx' by auto. rewrite (Ho _ _ Nt Hx'). exact I.
  - intros t1 H1. destruct (Hfb (ex_intro _ t1 H1)) as [H|H]; auto. right. exists t, y. rewrite Hthr, nth_lupd_eq; auto.
  - intros t1 t2 x1 x2 H1 H2 N1 N2. rewrite Hthr in H1, H2.
    destruct (Nat.eq_dec t1 t) as [->|Nt1]; destruct (Nat.eq_dec t2 t) as [->|Nt2]; auto.
    + rewrite nth_lupd_ne in H2 by auto. specialize (Ho _ _ Nt2 H2). congruence.
    + rewrite nth_lupd_ne in H1 by auto. specialize (Ho _ _ Nt1 H1). congruence.
    + rewrite nth_lupd_ne in H1 by auto. specialize (Ho _ _ Nt1 H1). congruence.
Qed.

Lemma noHF_cons evs tr : (forall h, count (isHFreed h) evs = 0) -> noHF tr -> noHF (evs ++ tr).
Proof. intros H1 H2 h. rewrite count_app, H1, H2. reflexivity. Qed.
Lemma noFB_cons evs tr : (forall t, ~ In (FreeBegin t) evs) -> noFB tr -> noFB (evs ++ tr).
Proof. intros H1 H2 t Hi. apply in_app_iff in Hi. destruct Hi; [eapply H1|eapply H2]; eauto. Qed.
Lemma live_cons evs tr fin : (forall h, count (isHFreed h) evs = 0) -> (forall t, ~ In (FreeBegin t) evs) ->
  live tr fin -> live (evs ++ tr) fin.
Proof.
  intros H1 H2 (A & B). split; [apply noHF_cons; auto|]. destruct fin; [|apply noFB_cons; auto].
  destruct B as (t & B). exists t. apply in_app_iff. auto.
Qed.
Lemma dok_cons evs tr m m' h k : (forall h, count (isHFreed h) evs = 0) -> (forall h, count (isGot h) evs = 0) ->
  active m' = active m -> dok tr m h k -> dok (evs ++ tr) m' h k.
Proof.
  intros H1 H2 E. destruct k as [nh|]; cbn; auto. intros (A & B & C & D & t & F). repeat split; auto; try congruence.
  - apply noHF_cons; auto.
  - rewrite count_app, H2, D. reflexivity.
  - exists t. apply in_app_iff. auto.
Qed.
Lemma dok_free evs tr m m' h nh : (forall h, count (isHFreed h) evs = 0) -> (forall h, count (isGot h) evs = 0) ->
  active m' = active m -> dok tr m h (Some nh) -> dok (evs ++ tr) m' (S nh) (Some nh).
Proof.
  intros H1 H2 E (A & B & C & D & t & F). apply (dok_cons evs tr m); auto. repeat split; auto; try lia. exists t. auto.
Qed.
Lemma kok_cons evs tr k : (forall h, count (isHFreed h) evs = 0) -> (forall t, ~ In (FreeBegin t) evs) ->
  kok tr k -> kok (evs ++ tr) k.
Proof. destruct k; cbn; apply live_cons. Qed.
Lemma kok_hf tr k h : kok tr k -> count (isHFreed h) tr = 0.
Proof. destruct k; intros (H & _); apply H. Qed.

(* the steps that free nothing *)
Lemma sq_quiet tr m t x y evs m' :
  RI tr m -> SQ tr m -> nth_error (thr m) t = Some x -> RI (evs ++ tr) m' ->
  (forall t' x', t' <> t -> nth_error (thr m) t' = Some x' -> x' = Idle) ->
  thr m' = lupd (thr m) t y -> touched m' = false -> (forall e, In e evs -> okEv e) ->
  chk (evs ++ tr) m' y ->
  (forall h, count (isHFreed h) evs = 0) ->
  (noHF tr \/ active m' = active m /\
     (forall h, 1 <= count (isHFreed h) tr -> count (isGot h) evs = 0 /\
       fUse h y <= fUse h x /\ fZero h y <= fUse h x + fZero h x)) ->
  ((exists t, In (FreeBegin t) evs) \/ finx x = finx y) -> ((exists t, In (FreeBegin t) evs) -> finx y = true) ->
  (finx x = true -> finx y = true) ->
  SQ (evs ++ tr) m'.
Proof.
  intros HI HS Et HI' Ho Hthr Ht He Hy Hev Hcase Hfb Hfb2 Hfx.
  eapply sq_assemble; eauto.
  - intros h. rewrite !count_app, Hev. cbn [plus]. intros Hh.
    destruct Hcase as [Hn|(Ea & Hc)]; [specialize (Hn h); lia|].
    destruct (sq_hf _ _ HS h Hh) as (A & B & C & D & E & t1). destruct (Hc h Hh) as (G & U & Z).
    rewrite Hthr. pose proof (tsum_lupd (fUse h) _ _ _ y Et). pose proof (tsum_lupd (fZero h) _ _ _ y Et).
    pose proof (tsum_ge (fUse h) _ _ _ Et). pose proof (tsum_ge (fZero h) _ _ _ Et).
    repeat split; try lia; try congruence. exists E. apply in_app_iff. auto.
  - intros (t1 & H1). apply in_app_iff in H1. destruct H1 as [H1|H1]; [right; apply Hfb2; eauto|].
    rewrite count_app, Hev. cbn [plus].
    destruct (sq_fb _ _ HS _ H1) as [H|(t' & x' & Hx' & Hf)].
    + destruct Hcase as [Hn|(Ea & _)]; [specialize (Hn (active m)); lia|]. rewrite Ea. auto.
    + right. destruct (Nat.eq_dec t' t) as [->|Nt].
      * apply Hfx. congruence.
      * rewrite (Ho _ _ Nt Hx') in Hf. discriminate.
Qed.

Lemma ctr_eq h hd c m : nth_error (hs m) h = Some hd -> ctr m h c -> c = counterOf h hd.
Proof. intros H (hd' & H1 & <-). congruence. Qed.

Ltac ev := intros; repeat match goal with H : exists _, _ |- _ => destruct H end; cbn in *; intuition (subst; cbn; auto; try congruence).
Ltac sq HI HS Et HI' Ho :=
  eapply sq_quiet; [exact HI|exact HS|exact Et|exact HI'|exact Ho|reflexivity|
    cbn [touched setT setH touch setActive]|ev; fail||idtac|cbn [chk]|
    intros; reflexivity| | | | ].

Ltac hf := right; split; [reflexivity|intros; cbn; lia].

Lemma sq_step tr m t a m' evs : RI tr m -> SQ tr m -> wellUsed tr m a -> sequential m t a ->
  rstep t a m = Some (m', evs) -> SQ (evs ++ tr) m'.
Proof.
  intros HI HS Hw HW Hs. pose proof (step_inv _ _ _ _ _ _ HI Hw Hs) as HI'.
  unfold rstep in Hs. destruct (nth_error (thr m) t) as [x|] eqn:Et; [|discriminate].
  pose proof (sq_t _ _ HS _ _ Et) as Hx. pose proof (sq_touch _ _ HS) as Htc.
  assert (forall t' x', t' <> t -> nth_error (thr m) t' = Some x' -> x' = Idle) as Ho by exact HW.
  destruct (act_lt _ _ _ HI (ri_actA _ _ HI)) as (hda & Ea).
  pose proof (active_self _ _ _ HI Ea) as Hsa.
  destruct x as [| |fin|fin a0|k|k a0|k c|k c a0|nh fin o|h k|h k c|h k|h k|h k|nh]; cbn [chk] in Hx.
  - (* Idle *)
    assert (noFB tr -> noHF tr) as Hnn.
    { intros Hn h. destruct (count (isHFreed h) tr) eqn:E; auto.
      destruct (sq_hf _ _ HS h ltac:(lia)) as (_ & _ & _ & _ & t1 & H1). destruct (Hn _ H1). }
    destruct a as [|h| | |]; try discriminate; injection Hs as <- <-; cbn [wellUsed] in Hw.
    + sq HI HS Et HI' Ho; auto; try (ev; fail); try hf.
      apply (live_cons [GetBegin t]); [reflexivity|ev|]. split; auto.
    + sq HI HS Et HI' Ho; auto; try (ev; fail); try hf.
      right. split; auto. intros j Hj. destruct (sq_hf _ _ HS j Hj) as (_ & B & _). unfold users in Hw.
      cbn. unfold eq1. destruct (Nat.eqb_spec h j); [subst; lia|]. lia.
    + sq HI HS Et HI' Ho; auto; try (ev; fail); try hf. split; auto.
    + destruct Hw as (Hw & _). sq HI HS Et HI' Ho; auto; try (ev; fail); try hf.
      * split; [|exists t; now left]. apply (noHF_cons [FreeBegin t]); auto.
      * left. exists t. now left.
  - contradiction.
  - (* RepStart *) destruct a; try discriminate. injection Hs as <- <-.
    sq HI HS Et HI' Ho; auto; try (ev; fail); try hf.
  - (* RepRead *) destruct a; try discriminate. destruct Hx as (-> & Hx). rewrite Ea in Hs. injection Hs as <- <-.
    sq HI HS Et HI' Ho; auto; try (ev; fail); try hf.
    + rewrite Htc, (alive_self _ _ _ _ HI Ea Hsa); auto. apply Hx.
    + cbn [kok]. apply (live_cons [Created _]); auto. ev.
  - (* Inc *) destruct a; try discriminate. injection Hs as <- <-.
    sq HI HS Et HI' Ho; auto; try (ev; fail); try hf; try (destruct k; auto; fail).
  - (* IncRead *) destruct a; try discriminate. destruct Hx as (-> & Hx). rewrite Ea in Hs. injection Hs as <- <-.
    sq HI HS Et HI' Ho; auto; try (ev; fail); try hf; try (destruct k; auto; fail).
    + rewrite Htc, (alive_self _ _ _ _ HI Ea Hsa); auto. eapply kok_hf; eauto.
    + split; auto. exists hda. auto.
  - (* IncAgain *) destruct a; try discriminate. destruct Hx as (Hc & Hx). injection Hs as <- <-.
    sq HI HS Et HI' Ho; auto; try (ev; fail); try hf; try (destruct k; auto; fail).
  - (* IncCas *) destruct a; try discriminate. destruct Hx as (-> & Hc & Hx). rewrite Ea in Hs.
    rewrite (ctr_eq _ _ _ _ Ea Hc), counter_eqb_refl in Hs. cbn [counterOf snd] in Hs. rewrite Hsa in Hs.
    pose proof (alive_self _ _ _ _ HI Ea Hsa (kok_hf _ _ _ Hx)) as Hal.
    destruct k as [|nh fin]; injection Hs as <- <-.
    + sq HI HS Et HI' Ho; auto; try (ev; fail); try hf.
      * now rewrite Htc, Hal.
      * left. intros h. eapply (kok_hf _ ForUser); eauto.
    + sq HI HS Et HI' Ho; auto; try (ev; fail); try hf.
      * now rewrite Htc, Hal.
      * left. intros h. eapply (kok_hf _ (ForReplace nh fin)); eauto.
  - (* RepCas *) destruct a; try discriminate. destruct Hx as (-> & Hx). rewrite Nat.eqb_refl in Hs. injection Hs as <- <-.
    sq HI HS Et HI' Ho; auto; try (ev; fail); try hf.
    + destruct fin; [|exact I].
      pose proof (tsum_ge (fPend nh) _ _ _ Et) as Hp. cbn in Hp. unfold eq1 in Hp. rewrite Nat.eqb_refl in Hp.
      assert (exists hdn, nth_error (hs m) nh = Some hdn) as (hdn & Ehn).
      { destruct (nth_error (hs m) nh) eqn:E; eauto. apply (ri_none _ _ HI) in E. unfold HNone in E. lia. }
      pose proof (ri_h _ _ HI _ _ Ehn) as Hn. unfold HInv in Hn.
      destruct Hx as (Hx & t1 & Hx1).
      split; [apply (noHF_cons [Activated nh]); auto|]. split; [reflexivity|]. split; [|split].
      * intros E. pose proof (ri_actA _ _ HI). rewrite E in *. lia.
      * rewrite count_app, count_cons. cbn. lia.
      * exists t1. apply in_app_iff. auto.
    + left. apply Hx.
    + right. destruct fin; auto.
  - (* Dec *) destruct a; try discriminate.
    destruct (nth_error (hs m) h) as [hd0|] eqn:Eh; [|discriminate]. injection Hs as <- <-.
    pose proof (tsum_ge (fUse h) _ _ _ Et) as Hu. cbn in Hu. unfold eq1 in Hu. rewrite Nat.eqb_refl in Hu.
    sq HI HS Et HI' Ho; auto; try (ev; fail); try hf; try (destruct k; auto; fail).
    + rewrite Htc. rewrite (alive_self _ _ _ _ HI Eh); auto.
      * pose proof (ri_h _ _ HI _ _ Eh) as H. unfold HInv in H. destruct (self hd0); auto. lia.
      * destruct (count (isHFreed h) tr) eqn:E; auto. destruct (sq_hf _ _ HS h ltac:(lia)) as (_ & _ & U & _). lia.
    + split; [exists hd0; auto|]. destruct k; auto.
  - (* DecCas *) destruct a; try discriminate. destruct Hx as (Hc & Hx).
    destruct (nth_error (hs m) h) as [hd0|] eqn:Eh; [|discriminate].
    rewrite (ctr_eq _ _ _ _ Eh Hc), counter_eqb_refl in Hs.
    pose proof (tsum_ge (fUse h) _ _ _ Et) as Hu. cbn in Hu. unfold eq1 in Hu. rewrite Nat.eqb_refl in Hu.
    assert (self hd0 = true) as Hs0.
    { pose proof (ri_h _ _ HI _ _ Eh) as H. unfold HInv in H. destruct (self hd0); auto. lia. }
    assert (alive hd0 = true) as Hal.
    { apply (alive_self _ _ _ _ HI Eh); auto.
      destruct (count (isHFreed h) tr) eqn:E; auto. destruct (sq_hf _ _ HS h ltac:(lia)) as (_ & _ & U & _). lia. }
    assert (h < length (hs m)) as Hl by (apply nth_error_Some; congruence).
    destruct (Z.eqb_spec (inUse hd0 - 1) 0) as [Ez|Nz].
    + injection Hs as <- <-.
      sq HI HS Et HI' Ho; auto; try (ev; fail); try hf; try (destruct k; auto; fail).
      * now rewrite Htc, Hal.
      * split; [|destruct k; auto]. eexists. split; [cbn; apply nth_lupd_eq; auto|]. unfold counterOf. cbn. now rewrite Hs0, Ez.
    + destruct k as [nk|]; injection Hs as <- <-.
      * sq HI HS Et HI' Ho; auto; try (ev; fail); try hf.
        { now rewrite Htc, Hal. }
        { eapply (dok_free []); eauto. }
      * sq HI HS Et HI' Ho; auto; try (ev; fail); try hf.
        { now rewrite Htc, Hal. }
  - (* DecZero *) destruct a; try discriminate. destruct Hx as (Hc & Hx).
    destruct (nth_error (hs m) h) as [hd0|] eqn:Eh; [|discriminate].
    pose proof (tsum_ge (fZero h) _ _ _ Et) as Hu. cbn in Hu. unfold eq1 in Hu. rewrite Nat.eqb_refl in Hu.
    assert (self hd0 = true) as Hs0.
    { pose proof (ctr_eq _ _ _ _ Eh Hc) as E. unfold counterOf in E. injection E as _ E. destruct (self hd0); [auto|discriminate]. }
    assert (alive hd0 = true) as Hal.
    { apply (alive_self _ _ _ _ HI Eh); auto.
      destruct (count (isHFreed h) tr) eqn:E; auto. destruct (sq_hf _ _ HS h ltac:(lia)) as (_ & _ & _ & U & _). lia. }
    cbn [active touch] in Hs. destruct (Nat.eqb_spec (active m) h) as [E1|E1].
    + destruct k as [nk|]; injection Hs as <- <-.
      * sq HI HS Et HI' Ho; auto; try (ev; fail); try hf.
      * sq HI HS Et HI' Ho; auto; try (ev; fail); try hf.
        { now rewrite Htc, Hal. }
    + injection Hs as <- <-. sq HI HS Et HI' Ho; auto; try (ev; fail); try hf; try (destruct k; auto; fail).
      { now rewrite Htc, Hal. }
  - (* DecEmpty *) destruct a; try discriminate. destruct Hx as (Hc & Hx).
    destruct (nth_error (hs m) h) as [hd0|] eqn:Eh; [|discriminate].
    pose proof (tsum_ge (fZero h) _ _ _ Et) as Hu. cbn in Hu. unfold eq1 in Hu. rewrite Nat.eqb_refl in Hu.
    pose proof (ctr_eq _ _ _ _ Eh Hc) as Ec.
    assert (self hd0 = true) as Hs0.
    { unfold counterOf in Ec. injection Ec as _ E. destruct (self hd0); [auto|discriminate]. }
    assert (alive hd0 = true) as Hal.
    { apply (alive_self _ _ _ _ HI Eh); auto.
      destruct (count (isHFreed h) tr) eqn:E; auto. destruct (sq_hf _ _ HS h ltac:(lia)) as (_ & _ & _ & U & _). lia. }
    rewrite <- Ec, counter_eqb_refl in Hs. injection Hs as <- <-.
    sq HI HS Et HI' Ho; auto; try (ev; fail); try hf; try (destruct k; auto; fail).
    { now rewrite Htc, Hal. }
  - (* DecFree *) destruct a; try discriminate.
    destruct (nth_error (hs m) h) as [hd0|] eqn:Eh; [|discriminate].
    pose proof (tsum_ge (fFree h) _ _ _ Et) as Hu. cbn in Hu. unfold eq1 in Hu. rewrite Nat.eqb_refl in Hu.
    pose proof (ri_h _ _ HI _ _ Eh) as Hh. unfold HInv in Hh.
    assert (self hd0 = false) as Hs0 by (destruct (self hd0); auto; lia). rewrite Hs0 in Hh.
    assert (alive hd0 = true) as Hal.
    { destruct (alive hd0); auto. destruct Hh as (_ & Hh & _ & _ & _ & [H|H]); [lia|].
      destruct (sq_hf _ _ HS h H) as (A & _). destruct Hh as (_ & _ & B & _). congruence. }
    destruct k as [nk|]; cbn [afterDec] in Hs; injection Hs as <- <-.
    + sq HI HS Et HI' Ho; auto; try (ev; fail); try hf.
      * now rewrite Htc, Hal.
      * eapply (dok_free [Freed h]); eauto.
    + sq HI HS Et HI' Ho; auto; try (ev; fail); try hf.
      * now rewrite Htc, Hal.
  - (* FreeNew *) destruct a; try discriminate. destruct Hx as (Hn & <- & _ & Hg & t1 & H1).
    rewrite Ea in Hs. injection Hs as <- <-.
    assert (quiescent (setT t Idle m)) as Hq.
    { intros t' x' Hx'. cbn in Hx'. destruct (Nat.eq_dec t' t) as [->|Nt].
      - rewrite nth_lupd_eq in Hx' by (apply nth_error_Some; congruence). congruence.
      - rewrite nth_lupd_ne in Hx' by auto. eauto. }
    eapply (sq_assemble tr m t); [exact HI|exact HS|exact Et|exact HI'|exact Ho|reflexivity| | | | | ].
    + cbn. rewrite Htc, (alive_self _ _ _ _ HI Ea Hsa); auto.
    + ev.
    + exact I.
    + intros h Hh. cbn [active setT setH touch thr hs].
      rewrite count_app, !count_cons, count_nil in Hh. cbn [isHFreed] in Hh. rewrite (Hn h) in Hh.
      destruct (Nat.eqb_spec (active m) h) as [Eah|]; [subst h|lia].
      split; auto. split; [rewrite count_app, !count_cons; cbn; exact Hg|].
      split; [apply (tsum_quiet _ _ Hq); reflexivity|]. split; [apply (tsum_quiet _ _ Hq); reflexivity|].
      exists t1. apply in_app_iff. auto.
    + intros _. left. cbn [active setT setH touch]. rewrite count_app, !count_cons. cbn. rewrite Nat.eqb_refl. lia.
Qed.
Lemma exec_SQ nt tr m : exec sequential nt tr m -> SQ tr m.
Proof.
  induction 1 as [|tr m t a m' evs He IH Hw HW Hs].
  - cbn. assert (forall t x, nth_error (repeat Idle nt) t = Some x -> x = Idle) as Hr.
    { intros t x Hx. now apply nth_error_In, repeat_spec in Hx. }
    constructor; cbn [thr touched active]; auto.
    + intros e [<-|[]]. exact I.
    + intros t x Hx. rewrite (Hr _ _ Hx). exact I.
    + cbn. lia.
    + intros t [H|[]]. discriminate.
    + intros t t' x x' Hx _ N. rewrite (Hr _ _ Hx) in N. congruence.
  - eapply sq_step; eauto. eapply exec_RI; eauto.
Qed.

(* a lone call comes to its end *)
Definition rank (x : tstate) : nat :=
  match x with
  | Idle => 0 | Crashed => 0
  | RepStart _ => 20 | RepRead _ _ => 19
  | Inc (ForReplace _ _) => 18 | IncRead (ForReplace _ _) _ => 17 | IncAgain (ForReplace _ _) _ => 16 | IncCas (ForReplace _ _) _ _ => 15
  | RepCas _ _ _ => 14
  | Inc ForUser => 4 | IncRead ForUser _ => 3 | IncAgain ForUser _ => 2 | IncCas ForUser _ _ => 1
  | Dec _ _ => 7 | DecCas _ _ _ => 6 | DecZero _ _ => 5 | DecEmpty _ _ => 4 | DecFree _ _ => 3
  | FreeNew _ => 2
  end.
Lemma seq_progress tr m t x : RI tr m -> SQ tr m -> nth_error (thr m) t = Some x -> x <> Idle ->
  exists m' evs y, rstep t Continue m = Some (m', evs) /\ nth_error (thr m') t = Some y /\ rank y < rank x.
Proof.
  intros HI HS Et Nx. assert (t < length (thr m)) as Htl by (apply nth_error_Some; congruence).
  pose proof (sq_t _ _ HS _ _ Et) as Hx.
  destruct (act_lt _ _ _ HI (ri_actA _ _ HI)) as (hda & Ea).
  pose proof (active_self _ _ _ HI Ea) as Hsa.
  unfold rstep. rewrite Et.
  assert (forall y m0, thr m0 = thr m -> nth_error (thr (setT t y m0)) t = Some y) as G.
  { intros y m0 E. cbn. rewrite E. apply nth_lupd_eq; auto. }
  assert (forall h, 1 <= tsum (fUse h) (thr m) \/ 1 <= tsum (fZero h) (thr m) \/ 1 <= tsum (fFree h) (thr m) -> exists hd, nth_error (hs m) h = Some hd) as Hex.
  { intros h H. destruct (nth_error (hs m) h) eqn:E; eauto. apply (ri_none _ _ HI) in E. unfold HNone in E. lia. }
  assert (forall (h : nat) k m0, thr m0 = thr m -> exists m' evs y, Some (afterDec t k m0) = Some (m', evs) /\ nth_error (thr m') t = Some y /\ rank y <= 2) as GA.
  { intros h [nk|] m0 E; cbn [afterDec]; do 3 eexists; (split; [reflexivity|split; [apply G; auto|cbn; lia]]). }
  destruct x as [| |fin|fin a0|k|k a0|k c|k c a0|nh fin o|h k|h k c|h k|h k|h k|nh]; cbn [chk] in Hx; try congruence; try contradiction.
  - do 3 eexists. split; [reflexivity|]. split; [apply G; reflexivity|]. cbn. lia.
  - destruct Hx as (-> & _). rewrite Ea. do 3 eexists. split; [reflexivity|]. split; [apply G; reflexivity|]. cbn. lia.
  - do 3 eexists. split; [reflexivity|]. split; [apply G; reflexivity|]. destruct k; cbn; lia.
  - destruct Hx as (-> & _). rewrite Ea. do 3 eexists. split; [reflexivity|]. split; [apply G; reflexivity|]. destruct k; cbn; lia.
  - do 3 eexists. split; [reflexivity|]. split; [apply G; reflexivity|]. destruct k; cbn; lia.
  - destruct Hx as (-> & Hc & Hx). rewrite Ea, (ctr_eq _ _ _ _ Ea Hc), counter_eqb_refl. cbn [counterOf snd]. rewrite Hsa.
    destruct k; do 3 eexists; (split; [reflexivity|]; split; [apply G; reflexivity|]; cbn; lia).
  - destruct (Nat.eqb (active m) o); do 3 eexists; (split; [reflexivity|]; split; [apply G; reflexivity|]; cbn; lia).
  - pose proof (tsum_ge (fUse h) _ _ _ Et) as Hu. cbn in Hu. unfold eq1 in Hu. rewrite Nat.eqb_refl in Hu.
    destruct (Hex h ltac:(auto)) as (hd0 & Eh). rewrite Eh. do 3 eexists. split; [reflexivity|]. split; [apply G; reflexivity|]. cbn; lia.
  - destruct Hx as ((hd0 & Eh & <-) & _). rewrite Eh, counter_eqb_refl. destruct (Z.eqb _ 0).
    + do 3 eexists. split; [reflexivity|]. split; [apply G; reflexivity|]. cbn; lia.
    + match goal with |- context [afterDec t k ?m0] => destruct (GA h k m0 eq_refl) as (m' & evs & y & A & B & C) end.
      exists m', evs, y. split; [exact A|]. split; [exact B|]. cbn. lia.
  - destruct Hx as ((hd0 & Eh & _) & _). rewrite Eh. destruct (Nat.eqb _ h).
    + match goal with |- context [afterDec t k ?m0] => destruct (GA h k m0 eq_refl) as (m' & evs & y & A & B & C) end.
      exists m', evs, y. split; [exact A|]. split; [exact B|]. cbn. lia.
    + do 3 eexists. split; [reflexivity|]. split; [apply G; reflexivity|]. cbn; lia.
  - destruct Hx as ((hd0 & Eh & Ec) & _). rewrite Eh, Ec, counter_eqb_refl.
    do 3 eexists. split; [reflexivity|]. split; [apply G; reflexivity|]. cbn; lia.
  - pose proof (tsum_ge (fFree h) _ _ _ Et) as Hu. cbn in Hu. unfold eq1 in Hu. rewrite Nat.eqb_refl in Hu.
    destruct (Hex h ltac:(auto)) as (hd0 & Eh). rewrite Eh.
    match goal with |- context [afterDec t k ?m0] => destruct (GA h k m0 eq_refl) as (m' & evs & y & A & B & C) end.
    injection A as A. rewrite A. exists m', (evs ++ [Freed h]), y. split; [reflexivity|]. split; [exact B|]. cbn. lia.
  - destruct Hx as (_ & <- & _). rewrite Ea. do 3 eexists. split; [reflexivity|]. split; [apply G; reflexivity|]. cbn. lia.
Qed.
Lemma seq_finish nt t : forall r tr m x, exec sequential nt tr m -> nth_error (thr m) t = Some x -> rank x <= r ->
  exists evs m', exec sequential nt (evs ++ tr) m' /\ nth_error (thr m') t = Some Idle.
Proof.
  induction r as [|r IH]; intros tr m x He Et Hr.
  - pose proof (sq_t _ _ (exec_SQ _ _ _ He) _ _ Et) as Hx. exists [], m. split; auto.
    destruct x as [| | | |[]|[]|[]|[]| | | | | | |]; cbn in Hr; try lia; [auto|contradiction].
  - destruct x as [| |fin|fin a0|k|k a0|k c|k c a0|nh fin o|h k|h k c|h k|h k|h k|nh]; [exists [], m; auto| |..].
    { pose proof (sq_t _ _ (exec_SQ _ _ _ He) _ _ Et) as Hx. destruct Hx. }
    all: match type of Et with _ = Some ?x =>
      destruct (seq_progress tr m t x (exec_RI _ _ _ _ He) (exec_SQ _ _ _ He) Et ltac:(discriminate)) as (m1 & evs1 & y & A & B & C);
      assert (exec sequential nt (evs1 ++ tr) m1) as He1;
        [apply (exec_step _ _ tr m t Continue); [exact He|exact I| |exact A]; intros t' x' Nt Hx'; 
         destruct x' eqn:?; auto; exfalso; apply Nt; (eapply (sq_one _ _ (exec_SQ _ _ _ He)); [exact Hx'|exact Et|discriminate|discriminate])
        |destruct (IH _ _ _ He1 B ltac:(lia)) as (evs2 & m2 & He2 & Hi2); exists (evs2 ++ evs1), m2; rewrite <- app_assoc; auto] end.
Qed.

(* running a schedule *)
Definition isFB (e : event) : bool := match e with FreeBegin _ => true | _ => false end.
Definition wub (tr : list event) (m : manager) (a : action) : bool :=
  match a with
  | CallRelease h => Nat.ltb 0 (users tr h)
  | CallGet | CallReplace => negb (existsb isFB tr)
  | CallFree => negb (existsb isFB tr) && forallb (fun x => negb (replacing x) && negb (getting x)) (thr m)
  | Continue => true
  end.
Lemma wub_ok tr m a : wub tr m a = true -> wellUsed tr m a.
Proof.
  assert (negb (existsb isFB tr) = true -> forall t, ~ In (FreeBegin t) tr) as H.
  { intros H t Hi. rewrite negb_true_iff in H. assert (existsb isFB tr = true); [|congruence].
    apply existsb_exists. eexists. split; [exact Hi|reflexivity]. }
  destruct a; cbn; auto.
  - destruct (users tr h); [discriminate|lia].
  - rewrite andb_true_iff. intros (A & B). split; auto. intros t x Hx. rewrite forallb_forall in B.
    specialize (B x (nth_error_In _ _ Hx)). rewrite andb_true_iff, !negb_true_iff in B. exact B.
Qed.
Fixpoint runR (sch : list (nat * action)) (tr : list event) (m : manager) : option (list event * manager) :=
  match sch with
  | [] => Some (tr, m)
  | (t, a) :: sch' =>
    if wub tr m a then
      match rstep t a m with
      | Some (m', evs) => runR sch' (evs ++ tr) m'
      | None => None
      end
    else None
  end.
Lemma runR_exec nt sch : forall tr m tr' m', exec anyOrder nt tr m -> runR sch tr m = Some (tr', m') -> exec anyOrder nt tr' m'.
Proof.
  induction sch as [|(t, a) sch IH]; intros tr m tr' m' He H; cbn in H.
  - now injection H as <- <-.
  - destruct (wub tr m a) eqn:Ew; [|discriminate]. destruct (rstep t a m) as [(m1, evs)|] eqn:Es; [|discriminate].
    eapply IH; [|exact H]. eapply exec_step; eauto using wub_ok. exact I.
Qed.
(* the same for threads one at a time *)
Definition isIdle (x : tstate) : bool := match x with Idle => true | _ => false end.
Definition seqb (m : manager) (t : nat) : bool := forallb isIdle (lupd (thr m) t Idle).
Lemma seqb_ok m t a : seqb m t = true -> sequential m t a.
Proof.
  unfold seqb, sequential. rewrite forallb_forall. intros H t' x Nt Hx.
  rewrite <- (nth_lupd_ne (thr m) t Idle t' Nt) in Hx. specialize (H x (nth_error_In _ _ Hx)). now destruct x.
Qed.
Fixpoint runQ (sch : list (nat * action)) (tr : list event) (m : manager) : option (list event * manager) :=
  match sch with
  | [] => Some (tr, m)
  | (t, a) :: sch' =>
    if wub tr m a && seqb m t then
      match rstep t a m with
      | Some (m', evs) => runQ sch' (evs ++ tr) m'
      | None => None
      end
    else None
  end.
Lemma runQ_exec nt sch : forall tr m tr' m', exec sequential nt tr m -> runQ sch tr m = Some (tr', m') -> exec sequential nt tr' m'.
Proof.
  induction sch as [|(t, a) sch IH]; intros tr m tr' m' He H; cbn in H.
  - now injection H as <- <-.
  - destruct (wub tr m a && seqb m t) eqn:Ew; [|discriminate]. apply andb_true_iff in Ew. destruct Ew as (Ew & Eq).
    destruct (rstep t a m) as [(m1, evs)|] eqn:Es; [|discriminate].
    eapply IH; [|exact H]. eapply exec_step; eauto using wub_ok, seqb_ok.
Qed.
