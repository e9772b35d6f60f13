(* Histories of calls refine the finite map. *)
From Coq Require Import Sorting.Sorted Permutation.
From Verif Require Import TreeModel TreeRep TreeInsert TreeDelete TreeOps TreeDeleteOps TreeSpec.

Lemma existsb_eqb p l : existsb (Nat.eqb p) l = true <-> In p l.
Proof.
  rewrite existsb_exists. split.
  - intros (x & Hx & He). apply Nat.eqb_eq in He. now subst.
  - intros H. exists p. split; auto. apply Nat.eqb_refl.
Qed.
Lemma hasNode_iff p s : hasNode p s = true <-> In p (ids (present s)).
Proof.
  unfold hasNode. rewrite existsb_exists. unfold ids. rewrite in_map_iff. split.
  - intros (e & He & Hp). apply Nat.eqb_eq in Hp. eauto.
  - intros (e & He & Hp). exists e. split; auto. apply Nat.eqb_eq. auto.
Qed.
Lemma hasKey_iff k s : hasKey k s = true <-> In k (keys (present s)).
Proof.
  unfold hasKey. rewrite existsb_exists. unfold keys. rewrite in_map_iff. split.
  - intros (e & He & Hp). apply Z.eqb_eq in Hp. eauto.
  - intros (e & He & Hp). exists e. split; auto. apply Z.eqb_eq. auto.
Qed.
Lemma isClean_iff p s : isClean p s = true <-> In p (clean s).
Proof. apply existsb_eqb. Qed.
Lemma Permutation_ids a b : Permutation a b -> Permutation (ids a) (ids b).
Proof. apply Permutation_map. Qed.
Lemma Permutation_keys a b : Permutation a b -> Permutation (keys a) (keys b).
Proof. apply Permutation_map. Qed.

Definition cleanNode (n : node) : Prop :=
  parent n = EMPTY /\ left n = EMPTY /\ right n = EMPTY /\ colour n = false.

Record inv (ns : list ptr) (h : heap) (s : spec) (t : tree) : Prop := {
  i_t : tinv h t;
  i_p : Permutation (inorder t) (present s);
  i_ns : NoDup ns /\ (forall p, In p ns -> 3 <= p /\ exists n, h p = Some n);
  i_in : forall p, In p (ids (present s)) -> In p ns;
  i_cl : forall p, In p (clean s) ->
    In p ns /\ ~ In p (ids (present s)) /\ exists n, h p = Some n /\ cleanNode n }.

Lemma inv_cnt ns h s t p : inv ns h s t -> (1 <= cnt p t <-> In p (ids (present s))).
Proof.
  intros HI. rewrite cnt_ids.
  rewrite (Permutation_in' eq_refl (Permutation_ids _ _ (Permutation_sym (i_p _ _ _ _ HI)))).
  rewrite (count_occ_In Nat.eq_dec). lia.
Qed.
Lemma inv_cnt0 ns h s t p : inv ns h s t -> ~ In p (ids (present s)) -> cnt p t = 0.
Proof. intros HI Hn. pose proof (inv_cnt _ _ _ _ p HI). destruct (cnt p t); auto. exfalso; apply Hn, H; lia. Qed.

Lemma inv_size ns h s t : inv ns h s t -> size t = length (present s) /\ size t <= length ns.
Proof.
  intros HI. assert (size t = length (present s)) as H1.
  { rewrite size_inorder. apply Permutation_length, HI. }
  split; auto. rewrite H1. replace (length (present s)) with (length (ids (present s))) by apply map_length.
  apply NoDup_incl_length; [|intros p; apply HI].
  eapply Permutation_NoDup; [apply Permutation_ids, HI|].
  eapply repz_nodup, ti_z, HI.
Qed.
Lemma inv_height ns h s t : inv ns h s t -> height t + 2 <= bound (length (present s)).
Proof.
  intros HI. pose proof (tinv_height _ _ (i_t _ _ _ _ HI)) as H.
  rewrite (proj1 (inv_size _ _ _ _ HI)) in H. unfold bound.
  replace (length (present s) + 1) with (S (length (present s))) by lia. lia.
Qed.
Lemma bound_mono a b : a <= b -> bound a <= bound b.
Proof. intros H. unfold bound. pose proof (Nat.log2_le_mono (a+1) (b+1)). lia. Qed.

(* deleting a clean node *)
Lemma clean_delete_ok h t fuel p n :
  tinv h t -> h p = Some n -> cleanNode n -> res p = 0 -> 2 <= fuel ->
  exists h', TreeDelete fuel p h = Some (tt, h') /\ tinv h' t /\
    (forall q, q <> EMPTY -> h' q = h q).
Proof.
  intros HI Hp (C1 & C2 & C3 & C4) Hres Hf.
  pose proof HI as [Hz (ep & He) Hr Hb Hm Hs].
  assert (p <> EMPTY) as Np by (apply res_neq; [auto|unfold EMPTY; lia]).
  assert (EMPTY <> ROOT) as Ner by discriminate.
  unfold TreeDelete.
  rewrite (ld_bind _ _ _ _ _ Hp), C2. rewrite (ld_bind _ _ _ _ _ Hp), C3.
  rewrite Nat.eqb_refl. cbn [orb]. erewrite bind_ok by reflexivity.
  rewrite (ld_bind _ _ _ _ _ Hp), C2, Nat.eqb_refl.
  rewrite (ld_bind _ _ _ _ _ Hp), C3. rewrite (ld_bind _ _ _ _ _ Hp), C1.
  unfold set_parent at 1. rewrite (modn_bind _ _ _ _ _ He). cbn [parent left right colour key].
  set (h1 := upd EMPTY (mk EMPTY EMPTY EMPTY false 0%Z) h).
  assert (h1 EMPTY = Some (mk EMPTY EMPTY EMPTY false 0%Z)) as H1e by apply upd_eq.
  assert (forall q, q <> EMPTY -> h1 q = h q) as F1 by (intros q Q; now apply upd_neq).
  rewrite (ld_bind _ _ _ _ _ H1e). cbn [parent]. rewrite (eqb_neq_f _ _ Ner).
  assert (h1 p = Some n) as H1p by (rewrite F1; auto).
  assert ((yp1 <- ld parent p ;; ypl <- ld left yp1 ;;
     (if Nat.eqb p ypl then set_left EMPTY yp1 else set_right EMPTY yp1)) h1 =
     Some (tt, upd EMPTY (mk EMPTY EMPTY EMPTY false 0%Z) h1)) as E1.
  { rewrite (ld_bind _ _ _ _ _ H1p), C1. rewrite (ld_bind _ _ _ _ _ H1e). cbn [left].
    rewrite (eqb_neq_f _ _ Np). unfold set_right. rewrite (modn_ok _ _ _ _ H1e). reflexivity. }
  rewrite (bind_ok _ _ _ _ _ E1). clear E1.
  set (h2 := upd EMPTY (mk EMPTY EMPTY EMPTY false 0%Z) h1).
  assert (h2 EMPTY = Some (mk EMPTY EMPTY EMPTY false 0%Z)) as H2e by apply upd_eq.
  assert (forall q, q <> EMPTY -> h2 q = h q) as F2
    by (intros q Q; unfold h2; rewrite upd_neq; auto).
  assert (h2 p = Some n) as H2p by (rewrite F2; auto).
  assert (repz h2 [] t) as Hz2.
  { eapply repz_frame; [| |exact Hz].
    - intros q Q. apply F2. intros ->. pose proof (rz_u _ _ _ Hz) as HU. uq HU EMPTY. cbn in Q. lia.
    - apply F2. discriminate. }
  rewrite (ld_bind _ _ _ _ _ H2p), C4. cbn [negb].
  assert (exists h3, deleteRepair fuel EMPTY h2 = Some (tt, h3) /\ 
     h3 EMPTY = Some (mk EMPTY EMPTY EMPTY false 0%Z) /\ (forall q, q <> EMPTY -> h3 q = h2 q)) as (h3 & E3 & H3e & F3).
  { destruct fuel as [|[|fuel]]; try lia. cbn [deleteRepair].
    rewrite (ld_bind _ _ _ _ _ H2e). cbn [colour].
    rewrite (ld_bind _ _ _ _ _ (first_ok _ _ Hz2)). cbn [left negb andb].
    destruct (negb (EMPTY =? rid t)) eqn:Hfirst.
    - rewrite (ld_bind _ _ _ _ _ H2e). cbn [parent].
      rewrite (ld_bind _ _ _ _ _ H2e). cbn [left]. rewrite Nat.eqb_refl.
      rewrite (ld_bind _ _ _ _ _ H2e). cbn [right].
      rewrite (ld_bind _ _ _ _ _ H2e). cbn [colour].
      erewrite bind_ok by reflexivity.
      rewrite (ld_bind _ _ _ _ _ H2e). cbn [right].
      rewrite (ld_bind _ _ _ _ _ H2e). cbn [colour].
      rewrite (ld_bind _ _ _ _ _ H2e). cbn [left].
      rewrite (ld_bind _ _ _ _ _ H2e). cbn [colour negb andb].
      unfold set_colour at 1. rewrite (modn_bind _ _ _ _ _ H2e). cbn [parent left right colour key].
      set (h3 := upd EMPTY (mk EMPTY EMPTY EMPTY true 0%Z) h2).
      assert (h3 EMPTY = Some (mk EMPTY EMPTY EMPTY true 0%Z)) as H3e by apply upd_eq.
      rewrite (ld_bind _ _ _ _ _ H3e). cbn [parent].
      rewrite (ld_bind _ _ _ _ _ H3e). cbn [colour].
      assert (h3 ROOT = Some (mk NULLP (rid t) EMPTY false 0%Z)) as H3r.
      { unfold h3. rewrite upd_neq by discriminate. exact (first_ok _ _ Hz2). }
      rewrite (ld_bind _ _ _ _ _ H3r). cbn [negb andb].
      unfold set_colour. rewrite (modn_ok _ _ _ _ H3e). cbn [parent left right colour key].
      eexists; split; [reflexivity|]. split; [apply upd_eq|].
      intros q Q. unfold h3. now rewrite !upd_neq.
    - unfold set_colour. rewrite (modn_ok _ _ _ _ H2e). cbn [parent left right colour key].
      eexists; split; [reflexivity|]. split; [apply upd_eq|].
      intros q Q. now rewrite !upd_neq. }
  rewrite (bind_ok _ _ _ _ _ E3). rewrite Nat.eqb_refl. cbn [negb].
  exists h3. split; [reflexivity|].
  assert (forall q, q <> EMPTY -> h3 q = h q) as F by (intros q Q; rewrite F3, F2; auto).
  split; [|exact F].
  constructor; auto.
  - eapply repz_frame; [| |exact Hz].
    + intros q Q. apply F. intros ->. pose proof (rz_u _ _ _ Hz) as HU. uq HU EMPTY. cbn in Q. lia.
    + apply F. discriminate.
  - exists EMPTY. exact H3e.
Qed.

Lemma tinv_frame h h' t : (forall q, 1 <= cnt q t \/ q = ROOT \/ q = EMPTY -> h' q = h q) ->
  tinv h t -> tinv h' t.
Proof.
  intros Hq [Hz (ep & He) Hr Hb Hm Hs]. constructor; auto.
  - eapply repz_frame; [| |exact Hz]; intros; apply Hq; cbn in *; auto; lia.
  - exists ep. unfold emp. rewrite Hq; auto.
Qed.

Lemma nodeRemove_ok h p n : h p = Some n ->
  exists h', TreeNodeRemove p h = Some (tt, h') /\
    h' p = Some (mk EMPTY EMPTY EMPTY false (key n)) /\ (forall q, q <> p -> h' q = h q).
Proof.
  intros Hp. unfold TreeNodeRemove.
  unfold set_left. rewrite (modn_bind _ _ _ _ _ Hp). cbn [parent left right colour key].
  unfold set_right. erewrite modn_bind by apply upd_eq. cbn [parent left right colour key].
  unfold set_parent. erewrite modn_bind by apply upd_eq. cbn [parent left right colour key].
  unfold set_colour. erewrite modn_ok by apply upd_eq. cbn [parent left right colour key].
  eexists; split; [reflexivity|]. split; [apply upd_eq|]. intros q Q. now rewrite !upd_neq.
Qed.

Lemma filter_app_mid p a (b : list (Z * ptr)) k : NoDup (ids (a ++ (k, p) :: b)) ->
  filter (fun e => negb (Nat.eqb p (snd e))) (a ++ (k, p) :: b) = a ++ b.
Proof.
  intros Hn. rewrite ids_app in Hn. cbn [ids map snd] in Hn. apply NoDup_remove_2 in Hn.
  rewrite in_app_iff in Hn.
  assert (forall l, ~ In p (ids l) -> filter (fun e => negb (Nat.eqb p (snd e))) l = l) as H.
  { clear. induction l as [|e l IH]; cbn; auto. intros Hp.
    destruct (Nat.eqb_spec p (snd e)); [exfalso; auto|]. cbn. f_equal. auto. }
  rewrite filter_app. cbn. rewrite Nat.eqb_refl. cbn. rewrite !H; auto.
Qed.
Lemma Permutation_filter {A} (f : A -> bool) a b : Permutation a b -> Permutation (filter f a) (filter f b).
Proof.
  induction 1 as [|x l l' _ IH|x y l|l l' l'' _ IH1 _ IH2]; cbn.
  - constructor.
  - destruct (f x); auto.
  - destruct (f x), (f y); auto; constructor.
  - etransitivity; eauto.
Qed.

Lemma step_ok ns h s t o s' fuel :
  inv ns h s t -> step ns s o = Some s' -> bound (length (present s)) <= fuel ->
  exists h' t', runOp fuel o h = Some (tt, h') /\ inv ns h' s' t' /\
    (forall q, ~ In q ns -> q <> ROOT -> q <> EMPTY -> h' q = h q).
Proof.
  intros HI Hs Hf. pose proof (inv_height _ _ _ _ HI) as Hh.
  pose proof HI as [Ht Hp (Hnd & Hns) Hin Hcl].
  destruct o as [p k|p|p]; cbn [step runOp] in *.
  - (* Insert *)
    destruct (existsb (Nat.eqb p) ns && negb (hasKey k s) && negb (hasNode p s)) eqn:Hc; [|discriminate].
    injection Hs as <-. rewrite !andb_true_iff, !negb_true_iff in Hc. destruct Hc as ((Hc1 & Hc2) & Hc3).
    apply existsb_eqb in Hc1. destruct (Hns _ Hc1) as (Hp3 & n & Hn).
    unfold set_key. rewrite (modn_bind _ _ _ _ _ Hn).
    set (h1 := upd p (mk (parent n) (left n) (right n) (colour n) k) h).
    assert (~ In p (ids (present s))) as Hnp by (rewrite <- hasNode_iff; congruence).
    assert (~ In k (keys (present s))) as Hnk by (rewrite <- hasKey_iff; congruence).
    pose proof (inv_cnt0 _ _ _ _ _ HI Hnp) as Hcp.
    assert (forall q, q <> p -> h1 q = h q) as F1 by (intros q Q; now apply upd_neq).
    assert (tinv h1 t) as Ht1.
    { eapply tinv_frame; [|exact Ht]. intros q Q. apply F1. intros ->.
      destruct Q as [Q|[Q|Q]]; [lia| |]; subst; unfold ROOT, EMPTY in *; lia. }
    assert (res p = 0) as Hrp.
    { unfold res. destruct (Nat.ltb_spec p 3); lia. }
    destruct (TreeInsert_ok h1 t fuel p (mk (parent n) (left n) (right n) (colour n) k)) as (h' & t' & a & b & E1 & Ht' & Ia & Ib & F'); auto.
    { apply upd_eq. } { lia. }
    { cbn. intros Hk. apply Hnk. eapply Permutation_in; [apply Permutation_keys, Hp|exact Hk]. }
    { lia. }
    cbn [key] in Ib.
    assert (forall q, ~ In q (ids (present s)) -> q <> p -> q <> ROOT -> h' q = h q) as F''.
    { intros q Q1 Q2 Q3. rewrite F', F1; auto. eapply inv_cnt0; eauto. }
    assert (forall q, 1 <= cnt q t' -> exists n', h' q = Some n') as Hal.
    { intros q Q. destruct (find_node _ _ Q) as (cc & cx & l & kk & r & He').
      pose proof (ti_z _ _ Ht') as Hz'. rewrite He' in Hz'. rewrite <- (app_nil_r cc) in He'.
      rewrite <- repz_plug in Hz'. destruct (rz_t _ _ _ Hz') as (Hq & _). eauto. }
    assert (Permutation (inorder t') ((k, p) :: present s)) as Hp'.
    { rewrite Ib. etransitivity; [apply Permutation_sym, Permutation_middle|].
      constructor. rewrite <- Ia. exact Hp. }
    exists h', t'. split; [exact E1|]. split; [constructor; cbn [present clean]|].
    + exact Ht'.
    + exact Hp'.
    + split; auto. intros q Hq. destruct (Hns _ Hq) as (H3 & n' & Hn'). split; auto.
      destruct (Nat.eq_dec (cnt q t') 0) as [Hz|Hz]; [|apply Hal; lia].
      assert (~ In q (ids ((k, p) :: present s))) as Hq'.
      { intros Hq'. apply (Permutation_in _ (Permutation_sym (Permutation_ids _ _ Hp'))) in Hq'.
        rewrite cnt_ids in Hz. apply (count_occ_In Nat.eq_dec) in Hq'. lia. }
      cbn in Hq'. exists n'. rewrite F''; auto. unfold ROOT; lia.
    + intros q. cbn. intros [<-|Hq]; auto.
    + intros q Hq. apply filter_In in Hq. destruct Hq as (Hq & Hpq).
      apply negb_true_iff, Nat.eqb_neq in Hpq.
      destruct (Hcl _ Hq) as (H1 & H2 & n' & H3 & H4). split; auto. split.
      * cbn. intros [H|H]; [congruence|auto].
      * exists n'. split; auto. rewrite F''; auto. destruct (Hns _ H1). unfold ROOT; lia.
    + intros q Q1 Q2 Q3. apply F''; auto. intros ->; auto.
  - (* Delete *)
    destruct (hasNode p s) eqn:Hc.
    + injection Hs as <-. apply hasNode_iff in Hc. pose proof (proj2 (inv_cnt _ _ _ _ _ HI) Hc) as Hcp.
      destruct (TreeDelete_ok h t fuel p Ht Hcp) as (h' & t' & a & b & k & E1 & Ht' & Ia & Ib & (np & Hnp) & F'); [lia|].
      assert (forall q, ~ In q (ids (present s)) -> q <> ROOT -> q <> EMPTY -> h' q = h q) as F''.
      { intros q Q1 Q2 Q3. apply F'; auto. eapply inv_cnt0; eauto. }
      assert (forall q, 1 <= cnt q t' -> exists n', h' q = Some n') as Hal.
      { intros q Q. destruct (find_node _ _ Q) as (cc & cx & l & kk & r & He').
        pose proof (ti_z _ _ Ht') as Hz'. rewrite He' in Hz'. rewrite <- (app_nil_r cc) in He'.
        rewrite <- repz_plug in Hz'. destruct (rz_t _ _ _ Hz') as (Hq & _). eauto. }
      assert (Permutation (inorder t') (filter (fun e => negb (Nat.eqb p (snd e))) (present s))) as Hp'.
      { rewrite Ib. rewrite <- (filter_app_mid p a b k).
        - apply Permutation_filter. rewrite <- Ia. exact Hp.
        - rewrite <- Ia. eapply repz_nodup, ti_z, Ht. }
      exists h', t'. split; [exact E1|]. split; [constructor; cbn [present clean]|].
      * exact Ht'.
      * exact Hp'.
      * split; auto. intros q Hq. destruct (Hns _ Hq) as (H3 & n' & Hn'). split; auto.
        destruct (Nat.eq_dec q p) as [->|Nq]; [eauto|].
        destruct (Nat.eq_dec (cnt q t') 0) as [Hz|Hz]; [|apply Hal; lia].
        exists n'. rewrite F'; auto; [|unfold ROOT; lia|unfold EMPTY; lia].
        rewrite cnt_ids in *. rewrite Ib in Hz. rewrite Ia. rewrite ids_app, count_occ_app in *.
        cbn [ids map snd count_occ]. destruct (Nat.eq_dec p q); [congruence|exact Hz].
      * intros q Hq. apply Hin. unfold ids in *. rewrite in_map_iff in *.
        destruct Hq as (e & He & Hq). apply filter_In in Hq. exists e. tauto.
      * intros q Hq. destruct (Hcl _ Hq) as (H1 & H2 & n' & H3 & H4).
        split; auto. destruct (Hns _ H1). split.
        -- intros Hq'. apply H2. unfold ids in *. rewrite in_map_iff in *.
           destruct Hq' as (e & He & Hq'). apply filter_In in Hq'. exists e. tauto.
        -- exists n'. split; auto. rewrite F''; auto; [unfold ROOT; lia|unfold EMPTY; lia].
      * intros q Q1 Q2 Q3. apply F''; auto.
    + destruct (isClean p s) eqn:Hc'; [|discriminate]. injection Hs as <-.
      apply isClean_iff in Hc'. destruct (Hcl _ Hc') as (H1 & H2 & n & H3 & H4).
      destruct (Hns _ H1) as (Hp3 & _).
      destruct (clean_delete_ok h t fuel p n Ht H3 H4) as (h' & E1 & Ht' & F').
      { unfold res. destruct (Nat.ltb_spec p 3); lia. } { unfold bound in *. lia. }
      exists h', t. split; [exact E1|]. split; [constructor; auto|].
      * split; auto. intros q Hq. destruct (Hns _ Hq) as (H5 & H6). split; auto.
        rewrite F'; auto. unfold EMPTY; lia.
      * intros q Hq. destruct (Hcl _ Hq) as (A1 & A2 & n' & A3 & A4).
        split; auto. split; auto. exists n'. split; auto. rewrite F'; auto.
        destruct (Hns _ A1). unfold EMPTY; lia.
      * intros q Q1 Q2 Q3. apply F'; auto.
  - (* Remove *)
    destruct (existsb (Nat.eqb p) ns && negb (hasNode p s)) eqn:Hc; [|discriminate].
    injection Hs as <-. rewrite !andb_true_iff, !negb_true_iff in Hc. destruct Hc as (Hc1 & Hc3).
    apply existsb_eqb in Hc1. destruct (Hns _ Hc1) as (Hp3 & n & Hn).
    assert (~ In p (ids (present s))) as Hnp by (rewrite <- hasNode_iff; congruence).
    pose proof (inv_cnt0 _ _ _ _ _ HI Hnp) as Hcp.
    destruct (nodeRemove_ok h p n Hn) as (h' & E1 & Hp' & F').
    exists h', t. split; [exact E1|]. split; [constructor; cbn [present clean]; auto|].
    + eapply tinv_frame; [|exact Ht]. intros q Q. apply F'. intros ->.
      destruct Q as [Q|[Q|Q]]; [lia| |]; subst; unfold ROOT, EMPTY in *; lia.
    + split; auto. intros q Hq. destruct (Hns _ Hq) as (H5 & H6). split; auto.
      destruct (Nat.eq_dec q p) as [->|Nq]; [eauto|]. rewrite F'; auto.
    + intros q [<-|Hq].
      * split; auto. split; auto. eexists; split; [exact Hp'|]. repeat split.
      * destruct (Hcl _ Hq) as (A1 & A2 & n' & A3 & A4). split; auto. split; auto.
        destruct (Nat.eq_dec q p) as [->|Nq].
        -- eexists; split; [exact Hp'|]. repeat split.
        -- exists n'. split; auto. rewrite F'; auto.
    + intros q Q1 Q2 Q3. apply F'; auto. intros ->; auto.
Qed.

Lemma steps_ok ns os : forall h s t s' fuel,
  inv ns h s t -> steps ns s os = Some s' -> bound (length ns) <= fuel ->
  exists h' t', runOps fuel os h = Some (tt, h') /\ inv ns h' s' t' /\
    (forall q, ~ In q ns -> q <> ROOT -> q <> EMPTY -> h' q = h q).
Proof.
  induction os as [|o os IH]; intros h s t s' fuel HI Hs Hf; cbn [steps runOps] in *.
  - injection Hs as <-. exists h, t. auto.
  - destruct (step ns s o) as [s1|] eqn:E1; [|discriminate].
    destruct (step_ok ns h s t o s1 fuel HI E1) as (h1 & t1 & E2 & HI1 & F1).
    { pose proof (inv_size _ _ _ _ HI) as (H1 & H2). pose proof (bound_mono (length (present s)) (length ns)). lia. }
    rewrite (bind_ok _ _ _ _ _ E2).
    destruct (IH h1 s1 t1 s' fuel HI1 Hs Hf) as (h' & t' & E' & HI' & F').
    exists h', t'. split; [exact E'|]. split; [exact HI'|].
    intros q Q1 Q2 Q3. rewrite F', F1; auto.
Qed.

Lemma initNodes_ok ns : forall h, NoDup ns -> (forall p, In p ns -> h p <> None) ->
  exists h', initNodes ns h = Some (tt, h') /\
    (forall p, In p ns -> h' p = Some (mk EMPTY EMPTY EMPTY false 0%Z)) /\
    (forall q, ~ In q ns -> h' q = h q).
Proof.
  induction ns as [|p ns IH]; intros h Hn Hp; cbn [initNodes].
  - exists h. repeat split; auto. intros p [].
  - inversion Hn as [|? ? Hnp Hn']; subst.
    destruct (h p) as [n|] eqn:Ep; [|exfalso; eapply Hp; [now left|exact Ep]].
    assert (exists h1, TreeNodeInit p h = Some (tt, h1) /\ h1 p = Some (mk EMPTY EMPTY EMPTY false 0%Z) /\
       forall q, q <> p -> h1 q = h q) as (h1 & E1 & H1 & F1).
    { unfold TreeNodeInit, set_key. rewrite (modn_bind _ _ _ _ _ Ep).
      edestruct nodeRemove_ok as (h1 & E1 & H1 & F1); [apply upd_eq|].
      exists h1. split; [exact E1|]. split; [exact H1|]. intros q Q. rewrite F1; auto. now apply upd_neq. }
    rewrite (bind_ok _ _ _ _ _ E1).
    destruct (IH h1 Hn') as (h' & E' & H' & F').
    { intros q Hq. rewrite F1; [apply Hp; now right|]. intros ->; auto. }
    exists h'. split; [exact E'|]. split.
    + intros q [<-|Hq]; auto. rewrite F'; auto.
    + intros q Hq. cbn in Hq. rewrite F', F1; auto.
Qed.

Lemma init_ok ns h : allocated ns h ->
  exists h', initTree ns h = Some (tt, h') /\ inv ns h' (mkspec [] ns) E /\
    (forall q, ~ In q ns -> q <> ROOT -> q <> EMPTY -> h' q = h q).
Proof.
  intros (Hn & H3 & Hal). unfold initTree, TreeRootInit.
  destruct (h EMPTY) as [ne|] eqn:Ee; [|exfalso; eapply Hal; [|exact Ee]; auto].
  destruct (h ROOT) as [nr|] eqn:Er; [|exfalso; eapply Hal; [|exact Er]; auto].
  unfold bind at 1. rewrite Ee, Er.
  set (h1 := upd ROOT _ _).
  assert (forall q, q <> ROOT -> q <> EMPTY -> h1 q = h q) as F1.
  { intros q Q1 Q2. unfold h1. now rewrite !upd_neq. }
  destruct (initNodes_ok ns h1 Hn) as (h' & E' & H' & F').
  { intros p Hp. rewrite F1; [apply Hal; auto| |]; specialize (H3 _ Hp); unfold ROOT, EMPTY; lia. }
  assert (~ In ROOT ns /\ ~ In EMPTY ns) as (NR & NE).
  { split; intros Hi; specialize (H3 _ Hi); unfold ROOT, EMPTY in H3; lia. }
  exists h'. split; [exact E'|]. split.
  - constructor; cbn [present clean].
    + constructor; cbn; auto.
      * constructor; cbn; auto.
        -- rewrite F'; auto.
        -- intros q. unfold res. destruct (q <? 3); lia.
      * exists NULLP. unfold emp. rewrite F'; auto.
      * eauto.
      * constructor.
    + constructor.
    + split; auto. intros p Hp. split; auto. rewrite H'; eauto.
    + intros p [].
    + intros p Hp. split; auto. split; [intros []|]. rewrite H'; auto. eexists; split; [reflexivity|]. repeat split.
  - intros q Q1 Q2 Q3. rewrite F', F1; auto.
Qed.

Lemma lookup_spec h t ns s k p : inv ns h s t ->
  (lookup k s = Some p <-> In (k, p) (inorder t)).
Proof.
  intros HI. rewrite (Permutation_in' eq_refl (i_p _ _ _ _ HI)).
  assert (NoDup (keys (present s))) as Hn.
  { eapply Permutation_NoDup; [apply Permutation_keys, HI|].
    pose proof (ti_s _ _ (i_t _ _ _ _ HI)) as Hs. unfold sorted in Hs.
    clear -Hs. induction Hs as [|a l Hs IH Hf]; constructor; auto.
    intros Hi. rewrite Forall_forall in Hf. apply Hf in Hi. lia. }
  unfold lookup. induction (present s) as [|[k' p'] l IH]; cbn [find option_map snd fst keys map] in *.
  - split; [discriminate|intros []].
  - inversion Hn as [|? ? Hk Hn']; subst. destruct (Z.eqb_spec k k') as [->|Hne]; cbn.
    + split.
      * intros H; injection H as ->; auto.
      * intros [H|H]; [congruence|]. exfalso. apply Hk. apply (in_map fst) in H. exact H.
    + rewrite IH by auto. split; [auto|]. intros [H|H]; [congruence|auto].
Qed.

Lemma only_tinv h t ps : tinv h t -> (forall q, 1 <= cnt q t -> In q ps) -> tinv (only ps h) t.
Proof.
  intros Ht Hq. eapply tinv_frame; [|exact Ht].
  intros q [Q|[-> | ->]]; unfold only.
  - assert (existsb (Nat.eqb q) ps = true) as -> by (apply existsb_eqb; auto).
    now rewrite orb_true_r.
  - reflexivity.
  - reflexivity.
Qed.

Lemma descend_empty h ep ds : emp h ep -> descend ds EMPTY h = Some (EMPTY, h).
Proof.
  intros He. induction ds as [|d ds IH]; cbn [descend]; [reflexivity|].
  destruct d; rewrite (ld_bind _ _ _ _ _ He); exact IH.
Qed.
Lemma descend_height h ep t : forall par ds q h', emp h ep -> rep h par t ->
  descend ds (rid t) h = Some (q, h') -> q <> EMPTY -> S (length ds) <= height t.
Proof.
  induction t as [|c l IHl x k r IHr]; intros par ds q h' He Hr Hd Hq; cbn [rid] in *.
  - rewrite (descend_empty _ _ _ He) in Hd. congruence.
  - destruct Hr as (Hx & Hl & Hr). destruct ds as [|d ds]; cbn [length height]; [lia|].
    cbn [descend] in Hd. destruct d; rewrite (ld_bind _ _ _ _ _ Hx) in Hd; cbn [left right] in Hd.
    + specialize (IHl _ _ _ _ He Hl Hd Hq). lia.
    + specialize (IHr _ _ _ _ He Hr Hd Hq). lia.
Qed.

Section Reached.
  Variables (ns : list ptr) (h0 : heap) (os : list op) (s : spec) (fuel : nat).
  Hypothesis Hal : allocated ns h0.
  Hypothesis Hst : steps ns (mkspec [] ns) os = Some s.
  Hypothesis Hf : bound (length ns) <= fuel.

  Lemma reached : exists h t, (initTree ns ;;; runOps fuel os) h0 = Some (tt, h) /\ inv ns h s t /\
    (forall q, ~ In q ns -> q <> ROOT -> q <> EMPTY -> h q = h0 q).
  Proof using Hal Hst Hf.
    destruct (init_ok ns h0 Hal) as (h1 & E1 & HI1 & F1).
    rewrite (bind_ok _ _ _ _ _ E1).
    destruct (steps_ok ns os h1 _ E s fuel HI1 Hst Hf) as (h & t & E2 & HI & F2).
    exists h, t. split; [exact E2|]. split; [exact HI|]. intros q Q1 Q2 Q3. rewrite F2, F1; auto.
  Qed.
End Reached.

Lemma find_inv ns h s t fuel k : inv ns h s t -> bound (length (present s)) <= fuel + 1 ->
  TreeFind fuel k h = Some (lookup k s, h).
Proof.
  intros HI Hf. pose proof (inv_height _ _ _ _ HI) as Hh.
  destruct (TreeFind_ok h t fuel k (i_t _ _ _ _ HI)) as (o & Ho & Hsp); [lia|].
  rewrite Ho. do 2 f_equal. destruct o as [p|].
  - symmetry. apply (lookup_spec _ _ _ _ _ _ HI). now apply Hsp.
  - destruct (lookup k s) as [p|] eqn:El; [|reflexivity].
    apply (lookup_spec _ _ _ _ _ _ HI) in El. apply Hsp in El. discriminate.
Qed.

Lemma length_present_le ns h s t fuel : inv ns h s t -> bound (length ns) <= fuel ->
  bound (length (present s)) <= fuel.
Proof.
  intros HI Hf. pose proof (inv_size _ _ _ _ HI) as (H1 & H2).
  pose proof (bound_mono (length (present s)) (length ns)). lia.
Qed.

Lemma only_in h ps q : In q ps -> only ps h q = h q.
Proof.
  intros Hq. unfold only. assert (existsb (Nat.eqb q) ps = true) as -> by (now apply existsb_eqb).
  now rewrite orb_true_r.
Qed.

Lemma op_only ns h s t o s' fuel :
  inv ns h s t -> step ns s o = Some s' -> bound (length (present s)) <= fuel ->
  exists h', runOp fuel o (only (opNode o :: map snd (present s)) h) = Some (tt, h').
Proof.
  intros HI Hs Hf. pose proof (inv_height _ _ _ _ HI) as Hh.
  pose proof HI as [Ht Hp (Hnd & Hns) Hin Hcl].
  set (ps := opNode o :: map snd (present s)).
  assert (tinv (only ps h) t) as Ht'.
  { apply only_tinv; auto. intros q Q. right. apply (inv_cnt _ _ _ _ _ HI). exact Q. }
  assert (only ps h (opNode o) = h (opNode o)) as Ho by (apply only_in; now left).
  destruct o as [p k|p|p]; cbn [step runOp opNode] in *.
  - destruct (existsb (Nat.eqb p) ns && negb (hasKey k s) && negb (hasNode p s)) eqn:Hc; [|discriminate].
    rewrite !andb_true_iff, !negb_true_iff in Hc. destruct Hc as ((Hc1 & Hc2) & Hc3).
    apply existsb_eqb in Hc1. destruct (Hns _ Hc1) as (Hp3 & n & Hn). rewrite Hn in Ho.
    unfold set_key. rewrite (modn_bind _ _ _ _ _ Ho).
    set (h1 := upd p (mk (parent n) (left n) (right n) (colour n) k) (only ps h)).
    assert (~ In p (ids (present s))) as Hnp by (rewrite <- hasNode_iff; congruence).
    assert (~ In k (keys (present s))) as Hnk by (rewrite <- hasKey_iff; congruence).
    pose proof (inv_cnt0 _ _ _ _ _ HI Hnp) as Hcp.
    assert (tinv h1 t) as Ht1.
    { eapply tinv_frame; [|exact Ht']. intros q Q. unfold h1. apply upd_neq. intros ->.
      destruct Q as [Q|[Q|Q]]; [lia| |]; subst; unfold ROOT, EMPTY in *; lia. }
    destruct (TreeInsert_ok h1 t fuel p (mk (parent n) (left n) (right n) (colour n) k)) as (h' & t' & a & b & E1 & _); auto.
    { apply upd_eq. }
    { unfold res. destruct (Nat.ltb_spec p 3); lia. }
    { cbn. intros Hk. apply Hnk. eapply Permutation_in; [apply Permutation_keys, Hp|exact Hk]. }
    { lia. }
    eauto.
  - destruct (hasNode p s) eqn:Hc.
    + apply hasNode_iff in Hc. pose proof (proj2 (inv_cnt _ _ _ _ _ HI) Hc) as Hcp.
      destruct (TreeDelete_ok (only ps h) t fuel p Ht' Hcp) as (h' & t' & a & b & k & E1 & _); [lia|]. eauto.
    + destruct (isClean p s) eqn:Hc'; [|discriminate].
      apply isClean_iff in Hc'. destruct (Hcl _ Hc') as (H1 & H2 & n & H3 & H4).
      destruct (Hns _ H1) as (Hp3 & _). rewrite H3 in Ho.
      destruct (clean_delete_ok (only ps h) t fuel p n Ht' Ho H4) as (h' & E1 & _).
      { unfold res. destruct (Nat.ltb_spec p 3); lia. } { unfold bound in *. lia. } eauto.
  - destruct (existsb (Nat.eqb p) ns && negb (hasNode p s)) eqn:Hc; [|discriminate].
    rewrite !andb_true_iff, !negb_true_iff in Hc. destruct Hc as (Hc1 & Hc3).
    apply existsb_eqb in Hc1. destruct (Hns _ Hc1) as (Hp3 & n & Hn). rewrite Hn in Ho.
    destruct (nodeRemove_ok _ p n Ho) as (h' & E1 & _). eauto.
Qed.

Lemma find_only ns h s t fuel k : inv ns h s t -> bound (length (present s)) <= fuel + 1 ->
  TreeFind fuel k (only (map snd (present s)) h) = Some (lookup k s, only (map snd (present s)) h).
Proof.
  intros HI Hf. pose proof (inv_height _ _ _ _ HI) as Hh.
  assert (tinv (only (map snd (present s)) h) t) as Ht.
  { apply only_tinv; [apply HI|]. intros q Q. apply (inv_cnt _ _ _ _ _ HI). exact Q. }
  destruct (TreeFind_ok _ t fuel k Ht) as (o & Ho & Hsp); [lia|].
  rewrite Ho. do 2 f_equal. destruct o as [p|].
  - symmetry. apply (lookup_spec _ _ _ _ _ _ HI). now apply Hsp.
  - destruct (lookup k s) as [p|] eqn:El; [|reflexivity].
    apply (lookup_spec _ _ _ _ _ _ HI) in El. apply Hsp in El. discriminate.
Qed.
