(* Repair after deletion. *)
From Verif Require Import TreeModel TreeRep TreeInsert.

Definition blk (t : tree) : tree :=
  match t with E => E | T _ l x k r => T false l x k r end.
Lemma blk_black t : isred t = false -> blk t = t.
Proof. destruct t as [|[] l x k r]; cbn; congruence. Qed.
Lemma blk_inorder t : inorder (blk t) = inorder t.
Proof. destruct t; reflexivity. Qed.
Lemma blk_isred t : isred (blk t) = false.
Proof. destruct t; reflexivity. Qed.
Lemma blk_cnt q t : cnt q (blk t) = cnt q t.
Proof. destruct t; reflexivity. Qed.
Lemma blk_bh_red t n : isred t = true -> bh t n -> bh (blk t) (S n).
Proof. destruct t as [|[] l x k r]; cbn; try discriminate; auto. Qed.
Lemma rr_blk t : rr t -> rr (blk t).
Proof. destruct t as [|c l x k r]; cbn; intuition congruence. Qed.

Lemma upd_same p n h : h p = Some n -> forall q, upd p n h q = h q.
Proof.
  intros H q. unfold upd. destruct (Nat.eqb_spec q p); congruence.
Qed.
Lemma repz_ext h h' c t : (forall q, h' q = h q) -> repz h c t -> repz h' c t.
Proof.
  intros He [Ht Hc HU]. constructor; auto.
  - eapply rep_frame; [|exact Ht]. auto.
  - eapply repc_frame; [| |exact Hc]; auto.
Qed.

(* colouring the focus black, the focus may be the sentinel *)
Lemma set_black_ok h c t ep :
  repz h c t -> emp h ep ->
  exists h', set_colour false (rid t) h = Some (tt, h') /\
    repz h' c (blk t) /\ same_out h h' c t.
Proof.
  intros Hz He. destruct t as [|ct l x k r]; cbn [rid blk].
  - unfold set_colour. rewrite (modn_ok _ _ _ _ He). cbn [parent left right colour key].
    eexists; split; [reflexivity|].
    pose proof (upd_same _ _ _ He) as Hs. split.
    + eapply repz_ext; eauto.
    + intros q _ _. apply Hs.
  - apply set_colour_ok. exact Hz.
Qed.

Lemma par_focus h c t ep :
  repz h c t -> emp h ep -> (t = E -> ep = cpar c) ->
  exists n, h (rid t) = Some n /\ parent n = cpar c.
Proof.
  intros [Ht _ _] He Hep. destruct t as [|ct l x k r]; cbn in *.
  - rewrite He. eexists; split; [reflexivity|]. cbn. auto.
  - destruct Ht as (Hx & _). rewrite Hx. eexists; split; [reflexivity|]. reflexivity.
Qed.

(* the first node of a whole tree *)
Lemma first_ok h t : repz h [] t -> h ROOT = Some (mk NULLP (rid t) EMPTY false 0%Z).
Proof. intros [_ Hc _]. exact Hc. Qed.
Lemma first_plug h c t : repz h c t ->
  h ROOT = Some (mk NULLP (rid (plug c t)) EMPTY false 0%Z).
Proof.
  intros Hz. apply first_ok. rewrite <- repz_plug, app_nil_r. exact Hz.
Qed.
Lemma rid_plug_cons f c t : exists f', In f' (f :: c) /\
  match f' with F _ _ x _ _ => rid (plug (f :: c) t) = x end.
Proof.
  revert f t; induction c as [|g c IH]; intros f t.
  - exists f. split; [now left|]. destruct f as [[] cc x k s]; reflexivity.
  - destruct (IH g (up f t)) as (f' & Hin & He). exists f'. split; [now right|].
    destruct f'. exact He.
Qed.
Lemma cntc_in c f : In f c -> match f with F _ _ x _ _ => 1 <= cntc x c end.
Proof.
  induction c as [|[d cc y k s] c IH]; [intros []|].
  intros [<-|Hin]; cbn.
  - rewrite one_refl; lia.
  - specialize (IH Hin). destruct f. lia.
Qed.
Lemma focus_not_first h f c t : repz h (f :: c) t -> rid t <> rid (plug (f :: c) t).
Proof.
  intros [_ _ HU]. destruct (rid_plug_cons f c t) as (f' & Hin & He).
  apply cntc_in in Hin. destruct f' as [d cc x k s]. rewrite He. intros Hx.
  pose proof (HU x) as HQ. destruct t as [|ct l y ky r]; cbn [rid] in Hx.
  - rewrite <- Hx in HQ, Hin. change (res EMPTY) with 1 in HQ. lia.
  - rewrite Hx in HQ. cbn in HQ, Hin. rewrite one_refl in HQ. lia.
Qed.

(* finishing at the first node *)
Lemma deleteRepair_first h t ep fuel :
  repz h [] t -> emp h ep -> 1 <= fuel ->
  exists h', deleteRepair fuel (rid t) h = Some (tt, h') /\
    repz h' [] (blk t) /\ same_out h h' [] t.
Proof.
  intros Hz He Hf. destruct fuel as [|fuel]; [lia|].
  destruct (ld_rid h ep ROOT t He (rz_t _ _ _ Hz)) as (n & Hn & _).
  cbn [deleteRepair]. rewrite (ld_bind _ _ _ _ _ Hn).
  rewrite (ld_bind _ _ _ _ _ (first_ok _ _ Hz)). cbn [left].
  rewrite Nat.eqb_refl, andb_false_r.
  eapply set_black_ok; eauto.
Qed.

Lemma deleteRepair_ok : forall fuel c t h ep n,
  (if isred t then 1 else length c + 2) <= fuel ->
  repz h c t -> emp h ep -> (t = E -> ep = cpar c) ->
  rr (blk t) -> bh t n -> bhc c (S n) -> rrc c false ->
  exists h' t', deleteRepair fuel (rid t) h = Some (tt, h') /\
    repz h' [] t' /\ same_out h h' c t /\
    inorder t' = inorder (plug c t) /\ rr t' /\ isred t' = false /\ (exists m, bh t' m).
Proof.
  induction fuel as [|fuel IH]; intros c t h ep n Hf Hz He Hep Hrr Hbh Hbc Hrc;
    [destruct (isred t); lia|].
  destruct (ld_rid h ep (cpar c) t He (rz_t _ _ _ Hz)) as (nt & Hnt & Hct).
  destruct (isred t) eqn:Hit.
  { (* red focus: coloured black *)
    cbn [deleteRepair]. rewrite (ld_bind _ _ _ _ _ Hnt), Hct.
    rewrite (ld_bind _ _ _ _ _ (first_plug _ _ _ Hz)). cbn [negb andb].
    destruct (set_black_ok _ _ _ _ Hz He) as (h' & E1 & R1 & S1).
    exists h', (plug c (blk t)). split; [exact E1|].
    split. { rewrite <- repz_plug, app_nil_r. exact R1. }
    split; [exact S1|].
    split. { rewrite !inorder_plug, blk_inorder. reflexivity. }
    rewrite <- (blk_isred t) in Hrc.
    destruct (rr_plug _ _ Hrr Hrc) as (H1 & H2). repeat split; auto.
    eapply bh_plug; [|exact Hbc]. now apply blk_bh_red. }
  rewrite (blk_black _ Hit) in Hrr.
  destruct c as [|[d cp p kp s] c].
  { destruct (deleteRepair_first h t ep (S fuel) Hz He ltac:(lia)) as (h' & E1 & R1 & S1).
    exists h', (blk t). split; [exact E1|]. split; [exact R1|]. split; [exact S1|].
    rewrite (blk_black _ Hit). cbn. eauto. }
  cbn [deleteRepair]. rewrite (ld_bind _ _ _ _ _ Hnt), Hct.
  rewrite (ld_bind _ _ _ _ _ (first_plug _ _ _ Hz)). cbn [left].
  rewrite (eqb_neq_f _ _ (focus_not_first _ _ _ _ Hz)). cbn [negb andb].
  destruct (par_focus _ _ _ _ Hz He Hep) as (np & Hnp & Hpp).
  rewrite (ld_bind _ _ _ _ _ Hnp), Hpp. cbn [cpar].
  pose proof (rz_c _ _ _ Hz) as Hc. cbn [repc] in Hc. destruct Hc as (Hp & Hs & Hc).
  rewrite (ld_bind _ _ _ _ _ Hp). cbn [left].
  cbn [bhc] in Hbc. destruct Hbc as (Hbs & Hbc).
  cbn [rrc] in Hrc. destruct Hrc as (Hpc & Hrs & Hrc).
  destruct s as [|cs sl sx sk sr]; [cbn in Hbs; lia|].
  pose proof (rz_u _ _ _ Hz) as HU.
  cbn [length] in Hf.
  destruct d.
  - rewrite Nat.eqb_refl.
    rewrite (ld_bind _ _ _ _ _ Hp). cbn [right rid].
    cbn [rep] in Hs. destruct Hs as (Hsx & Hs).
    rewrite (ld_bind _ _ _ _ _ Hsx). cbn [colour].
    assert (exists h1 cp1 a1 y1 k1 b1 c1,
      (if cs then
         set_colour false sx ;;;
         p1 <- ld parent (rid t) ;;
         set_colour true p1 ;;;
         rotateLeft p1 ;;;
         p2 <- ld parent (rid t) ;;
         ld right p2
       else ret sx) h = Some (y1, h1) /\
      repz h1 (F true cp1 p kp (T false a1 y1 k1 b1) :: c1) t /\
      rr a1 /\ rr b1 /\ bh a1 n /\ bh b1 n /\
      bhc c1 (if cp1 then S n else S (S n)) /\ rrc c1 cp1 /\
      (if cp1 then 2 else length c1 + 3) <= S fuel /\
      inorder (plug c1 (T cp1 t p kp (T false a1 y1 k1 b1))) =
        inorder (plug c (T cp t p kp (T cs sl sx sk sr))) /\
      (forall q, cntc q c1 + cnt q (T cp1 t p kp (T false a1 y1 k1 b1)) =
                 cntc q c + cnt q (T cp t p kp (T cs sl sx sk sr))) /\
      same_out h h1 c (T cp t p kp (T cs sl sx sk sr)))
      as (h1 & cp1 & a1 & y1 & k1 & b1 & c1 & E1 & R1 & Hra & Hrb & Hba & Hbb & Hbc1 & Hrc1 & Hf1 & I1 & C1 & S1).
    { destruct cs.
      - (* red sibling *)
        destruct cp; [destruct (Hpc eq_refl); discriminate|].
        cbn in Hbs, Hrs. destruct Hbs as (Hbsl & Hbsr), Hrs as (Hrsl & Hrsr & Hblk).
        destruct (Hblk eq_refl) as (Hil & Hir). clear Hblk.
        destruct sl as [|cn a1 y1 k1 b1]; [cbn in Hbsl; lia|].
        cbn in Hil. destruct cn; [discriminate|].
        cbn in Hbsl, Hrsl.
        apply repz_up in Hz. cbn [up] in Hz. apply down_r in Hz.
        destruct (set_colour_ok _ _ _ _ _ _ _ false Hz) as (h1 & E1 & R1 & S1).
        rewrite (bind_ok _ _ _ _ _ E1).
        apply repz_up in R1. cbn [up] in R1. apply down_l in R1.
        assert (emp h1 ep) as He1 by (eapply emp_same; [|exact S1|exact He]; intros q; apply Hz).
        destruct (par_focus _ _ _ _ R1 He1 Hep) as (n1 & Hn1 & Hp1).
        rewrite (ld_bind _ _ _ _ _ Hn1), Hp1. cbn [cpar].
        apply repz_up in R1. cbn [up] in R1.
        destruct (set_colour_ok _ _ _ _ _ _ _ true R1) as (h2 & E2 & R2 & S2).
        rewrite (bind_ok _ _ _ _ _ E2).
        destruct (rotateLeft_ok _ _ _ _ _ _ _ _ _ _ _ R2) as (h3 & E3 & R3 & S3).
        rewrite (bind_ok _ _ _ _ _ E3).
        assert (same_out h h3 c (T false t p kp (T true (T false a1 y1 k1 b1) sx sk sr))) as S13.
        { intros q Hq Hr. rewrite S3, S2, S1; auto; cbn in *; lia. }
        apply down_l in R3. apply down_l in R3.
        assert (emp h3 ep) as He3.
        { eapply emp_same; [|exact S13|exact He]. intros q. pose proof (HU q) as HQ. cbn in *; lia. }
        destruct (par_focus _ _ _ _ R3 He3 Hep) as (n3 & Hn3 & Hp3).
        rewrite (ld_bind _ _ _ _ _ Hn3), Hp3. cbn [cpar].
        pose proof (rz_c _ _ _ R3) as (Hp3' & _).
        rewrite (ld_ok _ _ _ _ Hp3'). cbn [right rid].
        exists h3, true, a1, y1, k1, b1, (F true false sx sk sr :: c).
        split; [reflexivity|]. split; [exact R3|].
        cbn. repeat split; try tauto; try lia.
        rewrite !inorder_plug. cbn. repeat (rewrite <- ?app_assoc; cbn). reflexivity.
      - (* black sibling *)
        cbn in Hbs, Hrs. exists h, cp, sl, sx, sk, sr, c. split; [reflexivity|].
        split; [exact Hz|]. repeat split; try tauto.
        destruct cp; lia. }
    rewrite (bind_ok _ _ _ _ _ E1). clear E1.
    assert (forall q, res q + cntc q c + cnt q (T cp t p kp (T cs sl sx sk sr)) <= 1) as HU'.
    { intros q. pose proof (HU q) as HQ. cbn in *. lia. }
    assert (emp h1 ep) as He1 by (eapply emp_same; [exact HU'|exact S1|exact He]).
    pose proof (rz_c _ _ _ R1) as (Hp1 & (Hy1 & Ha1 & Hb1) & _).
    destruct (ld_rid _ _ _ _ He1 Ha1) as (na & Hna & Hca).
    destruct (ld_rid _ _ _ _ He1 Hb1) as (nb & Hnb & Hcb).
    rewrite (ld_bind _ _ _ _ _ Hy1). cbn [right].
    rewrite (ld_bind _ _ _ _ _ Hnb), Hcb.
    rewrite (ld_bind _ _ _ _ _ Hy1). cbn [left].
    rewrite (ld_bind _ _ _ _ _ Hna), Hca.
    destruct (negb (isred b1) && negb (isred a1)) eqn:Hbb'.
    + (* both nephews black *)
      apply andb_prop in Hbb'. destruct Hbb' as (Hib & Hia).
      apply negb_true_iff in Hib, Hia.
      apply repz_up in R1. cbn [up] in R1. apply down_r in R1.
      destruct (set_colour_ok _ _ _ _ _ _ _ true R1) as (h2 & E2 & R2 & S2).
      rewrite (bind_ok _ _ _ _ _ E2).
      apply repz_up in R2. cbn [up] in R2. apply down_l in R2.
      assert (same_out h h2 c (T cp t p kp (T cs sl sx sk sr))) as S12.
      { intros q Hq Hr. rewrite S2, S1; auto. pose proof (C1 q) as HQ. cbn in *; lia. }
      assert (emp h2 ep) as He2 by (eapply emp_same; [exact HU'|exact S12|exact He]).
      destruct (par_focus _ _ _ _ R2 He2 Hep) as (n2 & Hn2 & Hp2).
      rewrite (ld_bind _ _ _ _ _ Hn2), Hp2. cbn [cpar].
      apply repz_up in R2. cbn [up] in R2.
      edestruct (fun H1 H2 H3 H4 => IH _ _ _ ep (if cp1 then n else S n) H1 R2 He2 H2 H3 H4)
        as (h' & t' & E' & R' & S' & I' & Hr' & Hi' & Hb').
      * cbn. destruct cp1; lia.
      * discriminate.
      * cbn. intuition congruence.
      * destruct cp1; cbn; auto.
      * destruct cp1; exact Hbc1.
      * destruct c1 as [|[d1 cc1 x1 kx1 s1] c1]; cbn in Hrc1 |- *; [reflexivity|intuition].
      * cbn [rid] in E'. exists h', t'. split; [exact E'|]. split; [exact R'|]. split.
        { intros q Hq Hr. assert (cntc q c + cnt q (T cp t p kp (T cs sl sx sk sr)) = 0) as Hq0 by (cbn in *; lia).
          rewrite S', S12; auto. pose proof (C1 q) as HQ. cbn in *; lia. }
        split; [|auto]. cbn [plug up]. rewrite I', <- I1, !inorder_plug. reflexivity.
    + (* a red nephew *)
      assert (exists h2 A y ky B z kz C,
        (if negb (isred b1) then
           set_colour false (rid a1) ;;;
           set_colour true y1 ;;;
           rotateRight y1 ;;;
           p4 <- ld parent (rid t) ;;
           ld right p4
         else ret y1) h1 = Some (y, h2) /\
        repz h2 (F true cp1 p kp (T false A y ky (T true B z kz C)) :: c1) t /\
        rr A /\ rr B /\ rr C /\ isred B = false /\ isred C = false /\
        bh A n /\ bh B n /\ bh C n /\
        inorder (T false A y ky (T true B z kz C)) = inorder (T false a1 y1 k1 b1) /\
        (forall q, cnt q (T false A y ky (T true B z kz C)) = cnt q (T false a1 y1 k1 b1)) /\
        same_out h1 h2 c1 (T cp1 t p kp (T false a1 y1 k1 b1)))
        as (h2 & A & y & ky & B & z & kz & C & E2 & R2 & HrA & HrB & HrC & HiB & HiC & HbA & HbB & HbC & I2 & C2 & S2).
      { destruct (isred b1) eqn:Hif; cbn [negb andb] in *.
        2:{
          destruct a1 as [|[] l3 x3 k3 r3]; cbn in Hbb'; try discriminate;
          cbn [rid];
          apply repz_up in R1; cbn [up] in R1; apply down_r in R1; apply down_l in R1;
          destruct (set_colour_ok _ _ _ _ _ _ _ false R1) as (h2 & E2 & R2 & S2);
          rewrite (bind_ok _ _ _ _ _ E2);
          apply repz_up in R2; cbn [up] in R2;
          destruct (set_colour_ok _ _ _ _ _ _ _ true R2) as (h3 & E3 & R3 & S3);
          rewrite (bind_ok _ _ _ _ _ E3);
          destruct (rotateRight_ok _ _ _ _ _ _ _ _ _ _ _ R3) as (h4 & E4 & R4 & S4);
          rewrite (bind_ok _ _ _ _ _ E4);
          apply repz_up in R4; cbn [up] in R4; apply down_l in R4;
          (assert (same_out h1 h4 c1 (T cp1 t p kp (T false (T true l3 x3 k3 r3) y1 k1 b1))) as S14;
           [intros q Hq Hr; rewrite S4, S3, S2; auto; cbn in *; lia|]);
          (assert (emp h4 ep) as He4;
           [eapply emp_same; [|exact S14|exact He1]; intros q; pose proof (HU' q) as HQ; pose proof (C1 q) as HQ'; cbn in *; lia|]);
          destruct (par_focus _ _ _ _ R4 He4 Hep) as (n4 & Hn4 & Hp4);
          rewrite (ld_bind _ _ _ _ _ Hn4), Hp4; cbn [cpar];
          pose proof (rz_c _ _ _ R4) as (Hp4' & _);
          rewrite (ld_ok _ _ _ _ Hp4'); cbn [right rid];
          cbn in Hra, Hrb, Hba, Hbb;
          exists h4, l3, x3, k3, r3, y1, k1, b1;
          (split; [reflexivity|]); (split; [exact R4|]);
          (split; [tauto|]); (split; [tauto|]); (split; [tauto|]); (split; [tauto|]);
          (split; [tauto|]); (split; [tauto|]); (split; [tauto|]); (split; [tauto|]);
          (split; [cbn; repeat (rewrite <- ?app_assoc; cbn); reflexivity|]);
          (split; [intros q; cbn; lia|]); exact S14. }
        destruct b1 as [|[] l2 x2 k2 r2]; try discriminate Hif.
        exists h1, a1, y1, k1, l2, x2, k2, r2.
        cbn [isred negb]. cbn in Hra, Hrb, Hba, Hbb.
        split; [reflexivity|]. split; [exact R1|]. repeat split; try tauto. }
      rewrite (bind_ok _ _ _ _ _ E2). clear E2.
      assert (same_out h h2 c (T cp t p kp (T cs sl sx sk sr))) as S12.
      { intros q Hq Hr. rewrite S2, S1; auto. pose proof (C1 q) as HQ. lia. }
      assert (emp h2 ep) as He2 by (eapply emp_same; [exact HU'|exact S12|exact He]).
      destruct (par_focus _ _ _ _ R2 He2 Hep) as (n2 & Hn2 & Hp2).
      rewrite (ld_bind _ _ _ _ _ Hn2), Hp2. cbn [cpar].
      pose proof (rz_c _ _ _ R2) as (Hp2' & _).
      rewrite (ld_bind _ _ _ _ _ Hp2'). cbn [colour].
      apply repz_up in R2. cbn [up] in R2. apply down_r in R2.
      destruct (set_colour_ok _ _ _ _ _ _ _ cp1 R2) as (h3 & E3 & R3 & S3).
      rewrite (bind_ok _ _ _ _ _ E3).
      apply repz_up in R3. cbn [up] in R3.
      destruct (set_colour_ok _ _ _ _ _ _ _ false R3) as (h4 & E4 & R4 & S4).
      rewrite (bind_ok _ _ _ _ _ E4).
      pose proof (rz_t _ _ _ R4) as Ht4. cbn [rep] in Ht4.
      apply down_r in R4.
      pose proof (rz_t _ _ _ R4) as (Hy4 & _).
      rewrite (ld_bind _ _ _ _ _ Hy4). cbn [right rid]. clear Ht4.
      apply down_r in R4.
      destruct (set_colour_ok _ _ _ _ _ _ _ false R4) as (h5 & E5 & R5 & S5).
      rewrite (bind_ok _ _ _ _ _ E5).
      apply repz_up in R5. cbn [up] in R5. apply repz_up in R5. cbn [up] in R5.
      destruct (rotateLeft_ok _ _ _ _ _ _ _ _ _ _ _ R5) as (h6 & E6 & R6 & S6).
      rewrite (bind_ok _ _ _ _ _ E6).
      assert (same_out h h6 c (T cp t p kp (T cs sl sx sk sr))) as S16.
      { intros q Hq Hr. pose proof (C1 q) as HQ1. pose proof (C2 q) as HQ2. cbn in HQ1, HQ2, Hq.
        rewrite S6, S5, S4, S3, S12; auto; cbn; lia. }
      rewrite (ld_bind _ _ _ _ _ (first_plug _ _ _ R6)). cbn [left].
      assert (repz h6 [] (plug c1 (T cp1 (T false t p kp A) y ky (T false B z kz C)))) as R6'.
      { rewrite <- repz_plug, app_nil_r. exact R6. }
      assert (emp h6 ep) as He6 by (eapply emp_same; [exact HU'|exact S16|exact He]).
      destruct (deleteRepair_first _ _ ep fuel R6' He6) as (h' & E' & R' & S').
      { destruct cp1; lia. }
      edestruct (rr_plug c1 (T cp1 (T false t p kp A) y ky (T false B z kz C)))
        as (Hr' & Hi').
      { cbn. intuition congruence. }
      { destruct cp1; exact Hrc1. }
      edestruct (bh_plug c1 (T cp1 (T false t p kp A) y ky (T false B z kz C)))
        as (m & Hm); [|exact Hbc1|].
      { destruct cp1; cbn; auto. }
      rewrite (blk_black _ Hi') in R'.
      eexists h', _. split; [exact E'|]. split; [exact R'|].
      split.
      { intros q Hq Hr. rewrite S', S16; auto.
        - cbn in *; lia.
        - pose proof (C1 q) as HQ1. pose proof (C2 q) as HQ2. rewrite cnt_plug. cbn in *; lia. }
      split.
      { cbn [plug up]. rewrite <- I1, !inorder_plug. cbn [inorder] in *. rewrite <- I2.
        repeat (rewrite <- ?app_assoc; cbn). reflexivity. }
      eauto.
  - assert (rid t <> rid (T cs sl sx sk sr)) as Hne.
    { apply not_eq_sym. apply rid_neq; [congruence|].
      intros q. pose proof (HU q) as HQ. cbn in HQ |- *. lia. }
    rewrite (eqb_neq_f _ _ Hne).
    rewrite (ld_bind _ _ _ _ _ Hp). cbn [left rid].
    cbn [rep] in Hs. destruct Hs as (Hsx & Hs).
    rewrite (ld_bind _ _ _ _ _ Hsx). cbn [colour].
    assert (exists h1 cp1 a1 y1 k1 b1 c1,
      (if cs then
         set_colour false sx ;;;
         p1 <- ld parent (rid t) ;;
         set_colour true p1 ;;;
         rotateRight p1 ;;;
         p2 <- ld parent (rid t) ;;
         ld left p2
       else ret sx) h = Some (y1, h1) /\
      repz h1 (F false cp1 p kp (T false a1 y1 k1 b1) :: c1) t /\
      rr a1 /\ rr b1 /\ bh a1 n /\ bh b1 n /\
      bhc c1 (if cp1 then S n else S (S n)) /\ rrc c1 cp1 /\
      (if cp1 then 2 else length c1 + 3) <= S fuel /\
      inorder (plug c1 (T cp1 (T false a1 y1 k1 b1) p kp t)) =
        inorder (plug c (T cp (T cs sl sx sk sr) p kp t)) /\
      (forall q, cntc q c1 + cnt q (T cp1 (T false a1 y1 k1 b1) p kp t) =
                 cntc q c + cnt q (T cp (T cs sl sx sk sr) p kp t)) /\
      same_out h h1 c (T cp (T cs sl sx sk sr) p kp t))
      as (h1 & cp1 & a1 & y1 & k1 & b1 & c1 & E1 & R1 & Hra & Hrb & Hba & Hbb & Hbc1 & Hrc1 & Hf1 & I1 & C1 & S1).
    { destruct cs.
      - (* red sibling *)
        destruct cp; [destruct (Hpc eq_refl); discriminate|].
        cbn in Hbs, Hrs. destruct Hbs as (Hbsl & Hbsr), Hrs as (Hrsl & Hrsr & Hblk).
        destruct (Hblk eq_refl) as (Hil & Hir). clear Hblk.
        destruct sr as [|cn a1 y1 k1 b1]; [cbn in Hbsr; lia|].
        cbn in Hir. destruct cn; [discriminate|].
        cbn in Hbsr, Hrsr.
        apply repz_up in Hz. cbn [up] in Hz. apply down_l in Hz.
        destruct (set_colour_ok _ _ _ _ _ _ _ false Hz) as (h1 & E1 & R1 & S1).
        rewrite (bind_ok _ _ _ _ _ E1).
        apply repz_up in R1. cbn [up] in R1. apply down_r in R1.
        assert (emp h1 ep) as He1 by (eapply emp_same; [|exact S1|exact He]; intros q; apply Hz).
        destruct (par_focus _ _ _ _ R1 He1 Hep) as (n1 & Hn1 & Hp1).
        rewrite (ld_bind _ _ _ _ _ Hn1), Hp1. cbn [cpar].
        apply repz_up in R1. cbn [up] in R1.
        destruct (set_colour_ok _ _ _ _ _ _ _ true R1) as (h2 & E2 & R2 & S2).
        rewrite (bind_ok _ _ _ _ _ E2).
        destruct (rotateRight_ok _ _ _ _ _ _ _ _ _ _ _ R2) as (h3 & E3 & R3 & S3).
        rewrite (bind_ok _ _ _ _ _ E3).
        assert (same_out h h3 c (T false (T true sl sx sk (T false a1 y1 k1 b1)) p kp t)) as S13.
        { intros q Hq Hr. rewrite S3, S2, S1; auto; cbn in *; lia. }
        apply down_r in R3. apply down_r in R3.
        assert (emp h3 ep) as He3.
        { eapply emp_same; [|exact S13|exact He]. intros q. pose proof (HU q) as HQ. cbn in *; lia. }
        destruct (par_focus _ _ _ _ R3 He3 Hep) as (n3 & Hn3 & Hp3).
        rewrite (ld_bind _ _ _ _ _ Hn3), Hp3. cbn [cpar].
        pose proof (rz_c _ _ _ R3) as (Hp3' & _).
        rewrite (ld_ok _ _ _ _ Hp3'). cbn [left rid].
        exists h3, true, a1, y1, k1, b1, (F false false sx sk sl :: c).
        split; [reflexivity|]. split; [exact R3|].
        cbn. repeat split; try tauto; try lia.
        rewrite !inorder_plug. cbn. repeat (rewrite <- ?app_assoc; cbn). reflexivity.
      - (* black sibling *)
        cbn in Hbs, Hrs. exists h, cp, sl, sx, sk, sr, c. split; [reflexivity|].
        split; [exact Hz|]. repeat split; try tauto.
        destruct cp; lia. }
    rewrite (bind_ok _ _ _ _ _ E1). clear E1.
    assert (forall q, res q + cntc q c + cnt q (T cp (T cs sl sx sk sr) p kp t) <= 1) as HU'.
    { intros q. pose proof (HU q) as HQ. cbn in *. lia. }
    assert (emp h1 ep) as He1 by (eapply emp_same; [exact HU'|exact S1|exact He]).
    pose proof (rz_c _ _ _ R1) as (Hp1 & (Hy1 & Ha1 & Hb1) & _).
    destruct (ld_rid _ _ _ _ He1 Ha1) as (na & Hna & Hca).
    destruct (ld_rid _ _ _ _ He1 Hb1) as (nb & Hnb & Hcb).
    rewrite (ld_bind _ _ _ _ _ Hy1). cbn [right].
    rewrite (ld_bind _ _ _ _ _ Hnb), Hcb.
    rewrite (ld_bind _ _ _ _ _ Hy1). cbn [left].
    rewrite (ld_bind _ _ _ _ _ Hna), Hca.
    destruct (negb (isred b1) && negb (isred a1)) eqn:Hbb'.
    + (* both nephews black *)
      apply andb_prop in Hbb'. destruct Hbb' as (Hib & Hia).
      apply negb_true_iff in Hib, Hia.
      apply repz_up in R1. cbn [up] in R1. apply down_l in R1.
      destruct (set_colour_ok _ _ _ _ _ _ _ true R1) as (h2 & E2 & R2 & S2).
      rewrite (bind_ok _ _ _ _ _ E2).
      apply repz_up in R2. cbn [up] in R2. apply down_r in R2.
      assert (same_out h h2 c (T cp (T cs sl sx sk sr) p kp t)) as S12.
      { intros q Hq Hr. rewrite S2, S1; auto. pose proof (C1 q) as HQ. cbn in *; lia. }
      assert (emp h2 ep) as He2 by (eapply emp_same; [exact HU'|exact S12|exact He]).
      destruct (par_focus _ _ _ _ R2 He2 Hep) as (n2 & Hn2 & Hp2).
      rewrite (ld_bind _ _ _ _ _ Hn2), Hp2. cbn [cpar].
      apply repz_up in R2. cbn [up] in R2.
      edestruct (fun H1 H2 H3 H4 => IH _ _ _ ep (if cp1 then n else S n) H1 R2 He2 H2 H3 H4)
        as (h' & t' & E' & R' & S' & I' & Hr' & Hi' & Hb').
      * cbn. destruct cp1; lia.
      * discriminate.
      * cbn. intuition congruence.
      * destruct cp1; cbn; auto.
      * destruct cp1; exact Hbc1.
      * destruct c1 as [|[d1 cc1 x1 kx1 s1] c1]; cbn in Hrc1 |- *; [reflexivity|intuition].
      * cbn [rid] in E'. exists h', t'. split; [exact E'|]. split; [exact R'|]. split.
        { intros q Hq Hr. assert (cntc q c + cnt q (T cp (T cs sl sx sk sr) p kp t) = 0) as Hq0 by (cbn in *; lia).
          rewrite S', S12; auto. pose proof (C1 q) as HQ. cbn in *; lia. }
        split; [|auto]. cbn [plug up]. rewrite I', <- I1, !inorder_plug. reflexivity.
    + (* a red nephew *)
      assert (exists h2 A y ky B z kz C,
        (if negb (isred a1) then
           set_colour false (rid b1) ;;;
           set_colour true y1 ;;;
           rotateLeft y1 ;;;
           p4 <- ld parent (rid t) ;;
           ld left p4
         else ret y1) h1 = Some (y, h2) /\
        repz h2 (F false cp1 p kp (T false (T true C z kz B) y ky A) :: c1) t /\
        rr A /\ rr B /\ rr C /\ isred B = false /\ isred C = false /\
        bh A n /\ bh B n /\ bh C n /\
        inorder (T false (T true C z kz B) y ky A) = inorder (T false a1 y1 k1 b1) /\
        (forall q, cnt q (T false (T true C z kz B) y ky A) = cnt q (T false a1 y1 k1 b1)) /\
        same_out h1 h2 c1 (T cp1 (T false a1 y1 k1 b1) p kp t))
        as (h2 & A & y & ky & B & z & kz & C & E2 & R2 & HrA & HrB & HrC & HiB & HiC & HbA & HbB & HbC & I2 & C2 & S2).
      { destruct (isred a1) eqn:Hif; cbn [negb andb] in *.
        2:{
          destruct b1 as [|[] l3 x3 k3 r3]; cbn in Hbb'; try discriminate;
          cbn [rid];
          apply repz_up in R1; cbn [up] in R1; apply down_l in R1; apply down_r in R1;
          destruct (set_colour_ok _ _ _ _ _ _ _ false R1) as (h2 & E2 & R2 & S2);
          rewrite (bind_ok _ _ _ _ _ E2);
          apply repz_up in R2; cbn [up] in R2;
          destruct (set_colour_ok _ _ _ _ _ _ _ true R2) as (h3 & E3 & R3 & S3);
          rewrite (bind_ok _ _ _ _ _ E3);
          destruct (rotateLeft_ok _ _ _ _ _ _ _ _ _ _ _ R3) as (h4 & E4 & R4 & S4);
          rewrite (bind_ok _ _ _ _ _ E4);
          apply repz_up in R4; cbn [up] in R4; apply down_r in R4;
          (assert (same_out h1 h4 c1 (T cp1 (T false a1 y1 k1 (T true l3 x3 k3 r3)) p kp t)) as S14;
           [intros q Hq Hr; rewrite S4, S3, S2; auto; cbn in *; lia|]);
          (assert (emp h4 ep) as He4;
           [eapply emp_same; [|exact S14|exact He1]; intros q; pose proof (HU' q) as HQ; pose proof (C1 q) as HQ'; cbn in *; lia|]);
          destruct (par_focus _ _ _ _ R4 He4 Hep) as (n4 & Hn4 & Hp4);
          rewrite (ld_bind _ _ _ _ _ Hn4), Hp4; cbn [cpar];
          pose proof (rz_c _ _ _ R4) as (Hp4' & _);
          rewrite (ld_ok _ _ _ _ Hp4'); cbn [left rid];
          cbn in Hra, Hrb, Hba, Hbb;
          exists h4, r3, x3, k3, l3, y1, k1, a1;
          (split; [reflexivity|]); (split; [exact R4|]);
          (split; [tauto|]); (split; [tauto|]); (split; [tauto|]); (split; [tauto|]);
          (split; [tauto|]); (split; [tauto|]); (split; [tauto|]); (split; [tauto|]);
          (split; [cbn; repeat (rewrite <- ?app_assoc; cbn); reflexivity|]);
          (split; [intros q; cbn; lia|]); exact S14. }
        destruct a1 as [|[] l2 x2 k2 r2]; try discriminate Hif.
        exists h1, b1, y1, k1, r2, x2, k2, l2.
        cbn [isred negb]. cbn in Hra, Hrb, Hba, Hbb.
        split; [reflexivity|]. split; [exact R1|]. repeat split; try tauto. }
      rewrite (bind_ok _ _ _ _ _ E2). clear E2.
      assert (same_out h h2 c (T cp (T cs sl sx sk sr) p kp t)) as S12.
      { intros q Hq Hr. rewrite S2, S1; auto. pose proof (C1 q) as HQ. lia. }
      assert (emp h2 ep) as He2 by (eapply emp_same; [exact HU'|exact S12|exact He]).
      destruct (par_focus _ _ _ _ R2 He2 Hep) as (n2 & Hn2 & Hp2).
      rewrite (ld_bind _ _ _ _ _ Hn2), Hp2. cbn [cpar].
      pose proof (rz_c _ _ _ R2) as (Hp2' & _).
      rewrite (ld_bind _ _ _ _ _ Hp2'). cbn [colour].
      apply repz_up in R2. cbn [up] in R2. apply down_l in R2.
      destruct (set_colour_ok _ _ _ _ _ _ _ cp1 R2) as (h3 & E3 & R3 & S3).
      rewrite (bind_ok _ _ _ _ _ E3).
      apply repz_up in R3. cbn [up] in R3.
      destruct (set_colour_ok _ _ _ _ _ _ _ false R3) as (h4 & E4 & R4 & S4).
      rewrite (bind_ok _ _ _ _ _ E4).
      pose proof (rz_t _ _ _ R4) as Ht4. cbn [rep] in Ht4.
      apply down_l in R4.
      pose proof (rz_t _ _ _ R4) as (Hy4 & _).
      rewrite (ld_bind _ _ _ _ _ Hy4). cbn [left rid]. clear Ht4.
      apply down_l in R4.
      destruct (set_colour_ok _ _ _ _ _ _ _ false R4) as (h5 & E5 & R5 & S5).
      rewrite (bind_ok _ _ _ _ _ E5).
      apply repz_up in R5. cbn [up] in R5. apply repz_up in R5. cbn [up] in R5.
      destruct (rotateRight_ok _ _ _ _ _ _ _ _ _ _ _ R5) as (h6 & E6 & R6 & S6).
      rewrite (bind_ok _ _ _ _ _ E6).
      assert (same_out h h6 c (T cp (T cs sl sx sk sr) p kp t)) as S16.
      { intros q Hq Hr. pose proof (C1 q) as HQ1. pose proof (C2 q) as HQ2. cbn in HQ1, HQ2, Hq.
        rewrite S6, S5, S4, S3, S12; auto; cbn; lia. }
      rewrite (ld_bind _ _ _ _ _ (first_plug _ _ _ R6)). cbn [left].
      assert (repz h6 [] (plug c1 (T cp1 (T false C z kz B) y ky (T false A p kp t)))) as R6'.
      { rewrite <- repz_plug, app_nil_r. exact R6. }
      assert (emp h6 ep) as He6 by (eapply emp_same; [exact HU'|exact S16|exact He]).
      destruct (deleteRepair_first _ _ ep fuel R6' He6) as (h' & E' & R' & S').
      { destruct cp1; lia. }
      edestruct (rr_plug c1 (T cp1 (T false C z kz B) y ky (T false A p kp t)))
        as (Hr' & Hi').
      { cbn. intuition congruence. }
      { destruct cp1; exact Hrc1. }
      edestruct (bh_plug c1 (T cp1 (T false C z kz B) y ky (T false A p kp t)))
        as (m & Hm); [|exact Hbc1|].
      { destruct cp1; cbn; auto. }
      rewrite (blk_black _ Hi') in R'.
      eexists h', _. split; [exact E'|]. split; [exact R'|].
      split.
      { intros q Hq Hr. rewrite S', S16; auto.
        - cbn in *; lia.
        - pose proof (C1 q) as HQ1. pose proof (C2 q) as HQ2. rewrite cnt_plug. cbn in *; lia. }
      split.
      { cbn [plug up]. rewrite <- I1, !inorder_plug. cbn [inorder] in *. rewrite <- I2.
        repeat (rewrite <- ?app_assoc; cbn). reflexivity. }
      eauto.
Qed.
