(* Insertion into the tree: functional and structural correctness. *)
From Verif Require Import TreeModel TreeRep.

Fixpoint bh (t : tree) (n : nat) : Prop :=
  match t with
  | E => n = 0
  | T true l _ _ r => bh l n /\ bh r n
  | T false l _ _ r => match n with 0 => False | S m => bh l m /\ bh r m end
  end.
Fixpoint rr (t : tree) : Prop :=
  match t with
  | E => True
  | T c l _ _ r => rr l /\ rr r /\ (c = true -> isred l = false /\ isred r = false)
  end.
Fixpoint bhc (c : ctx) (n : nat) : Prop :=
  match c with
  | [] => True
  | F _ col _ _ s :: c' => bh s n /\ bhc c' (if col then n else S n)
  end.
Fixpoint rrc (c : ctx) (hr : bool) : Prop :=
  match c with
  | [] => hr = false
  | F _ col _ _ s :: c' =>
    (col = true -> hr = false /\ isred s = false) /\ rr s /\ rrc c' col
  end.
(* context acceptable for a red hole that may clash with its parent *)
Definition octx (c : ctx) : Prop :=
  match c with
  | [] => True
  | F _ col _ _ s :: c' =>
    (col = true -> isred s = false) /\ rr s /\ rrc c' col
  end.

Fixpoint inorder (t : tree) : list (Z * ptr) :=
  match t with E => [] | T _ l x k r => inorder l ++ (k, x) :: inorder r end.
Fixpoint pre (c : ctx) : list (Z * ptr) :=
  match c with
  | [] => []
  | F true _ _ _ _ :: c' => pre c'
  | F false _ x k s :: c' => pre c' ++ inorder s ++ [(k, x)]
  end.
Fixpoint post (c : ctx) : list (Z * ptr) :=
  match c with
  | [] => []
  | F true _ x k s :: c' => (k, x) :: inorder s ++ post c'
  | F false _ _ _ _ :: c' => post c'
  end.
Lemma inorder_plug c t : inorder (plug c t) = pre c ++ inorder t ++ post c.
Proof.
  revert t; induction c as [|[d cc x k s] c IH]; intros t; cbn.
  - now rewrite app_nil_r.
  - rewrite IH. destruct d; cbn; rewrite <- ?app_assoc; cbn; rewrite <- ?app_assoc; reflexivity.
Qed.

Lemma bh_plug c t n : bh t n -> bhc c n -> exists m, bh (plug c t) m.
Proof.
  revert t n; induction c as [|[d cc x k s] c IH]; intros t n Ht Hc; cbn in *; eauto.
  destruct Hc as (Hs & Hc). eapply IH; [|exact Hc].
  destruct d, cc; cbn; auto.
Qed.
Lemma rr_plug c t : rr t -> rrc c (isred t) -> rr (plug c t) /\ isred (plug c t) = false.
Proof.
  revert t; induction c as [|[d cc x k s] c IH]; intros t Ht Hc; cbn in *; auto.
  destruct Hc as (H1 & Hs & Hc). apply IH.
  - destruct d; cbn; intuition.
  - destruct d, cc; cbn; auto.
Qed.
Lemma rrc_octx c : rrc c false -> octx c.
Proof. destruct c as [|[d cc x k s] c]; cbn; intuition. Qed.

Lemma cnt_plug q c t : cnt q (plug c t) = cntc q c + cnt q t.
Proof.
  revert t; induction c as [|[d cc x k s] c IH]; intros t; cbn; [lia|].
  rewrite IH. destruct d; cbn; lia.
Qed.

Lemma ld_rid h ep par t : emp h ep -> rep h par t ->
  exists n, h (rid t) = Some n /\ colour n = isred t.
Proof.
  intros He Hr. destruct t as [|c l x k r]; cbn in *.
  - rewrite He. eauto.
  - destruct Hr as (Hx & _). rewrite Hx. eexists; split; [reflexivity|]. cbn. now destruct c.
Qed.

Lemma repz_emp h c t : repz h c t -> forall h' ep, same_out h h' c t -> emp h ep -> emp h' ep.
Proof. intros [_ _ HU] h' ep Hs He. eapply emp_same; eauto. Qed.

(* moving the focus *)
Lemma down_l h c cx l x k r : repz h c (T cx l x k r) -> repz h (F true cx x k r :: c) l.
Proof. apply (repz_up h (F true cx x k r) c l). Qed.
Lemma down_r h c cx l x k r : repz h c (T cx l x k r) -> repz h (F false cx x k l :: c) r.
Proof. apply (repz_up h (F false cx x k l) c r). Qed.

Ltac same_ids := let q := fresh "q" in intros q; cbn; lia.

Lemma same_out_ids h h' c t c' t' :
  (forall q, cntc q c' + cnt q t' = cntc q c + cnt q t) ->
  same_out h h' c' t' -> same_out h h' c t.
Proof. intros He H q Hq Hr. apply H; auto. rewrite He; auto. Qed.

Lemma insertRepair_ok : forall fuel c t h ep n,
  length c + 2 <= fuel ->
  repz h c t -> emp h ep -> isred t = true -> rr t -> bh t n -> bhc c n -> octx c ->
  exists h' t', insertRepair fuel (rid t) h = Some (tt, h') /\
    repz h' [] t' /\ same_out h h' c t /\
    inorder t' = inorder (plug c t) /\ rr t' /\ (exists m, bh t' m) /\ t' <> E.
Proof.
  induction fuel as [|fuel IH]; intros c t h ep n Hf Hz He Hred Hrr Hbh Hbc Hoc; [lia|].
  destruct t as [|ct tl x k tr]; [discriminate|]. cbn in Hred.
  destruct ct; [|discriminate]. clear Hred.
  pose proof (rz_t _ _ _ Hz) as Ht. destruct Ht as (Hx & _).
  pose proof (rz_c _ _ _ Hz) as Hc.
  cbn [insertRepair rid]. rewrite (ld_bind _ _ _ _ _ Hx). cbn [parent].
  destruct c as [|[d1 cp p kp s1] c].
  { (* the focus is the first node *)
    cbn in Hc. cbn [cpar]. rewrite (ld_bind _ _ _ _ _ Hc). cbn [colour].
    do 2 eexists. split; [reflexivity|]. split; [exact Hz|]. repeat split.
    - exact (proj1 Hrr).
    - exact (proj1 (proj2 Hrr)).
    - exact (proj1 (proj2 (proj2 Hrr) H)).
    - exact (proj2 (proj2 (proj2 Hrr) H)).
    - eauto.
    - congruence. }
  cbn [cpar]. cbn [repc] in Hc. destruct Hc as (Hp & Hs1 & Hc).
  rewrite (ld_bind _ _ _ _ _ Hp). cbn [colour].
  cbn [octx] in Hoc. destruct Hoc as (Ho1 & Hrs1 & Hoc).
  destruct cp.
  2:{ (* parent black: done *)
    exists h, (plug (F d1 false p kp s1 :: c) (T true tl x k tr)).
    split; [reflexivity|].
    split. { rewrite <- repz_plug, app_nil_r. exact Hz. }
    split. { intros q _ _; reflexivity. }
    split; [reflexivity|].
    assert (rrc (F d1 false p kp s1 :: c) true) as Hrc by (cbn; intuition congruence).
    destruct (rr_plug (F d1 false p kp s1 :: c) (T true tl x k tr) Hrr Hrc) as (Hr1 & Hr2).
    split; [exact Hr1|]. split.
    - eapply bh_plug; eauto.
    - intros Habs. pose proof (inorder_plug (F d1 false p kp s1 :: c) (T true tl x k tr)) as Hi.
      rewrite Habs in Hi. apply (f_equal (@length _)) in Hi.
      rewrite !app_length in Hi. cbn in Hi. rewrite app_length in Hi. cbn in Hi. lia. }
  (* parent red: there is a black grandparent *)
  destruct c as [|[d2 cg g kg u] c]; [discriminate Hoc|].
  cbn [rrc] in Hoc. destruct Hoc as (Hgc & Hru & Hoc).
  destruct cg; [destruct (Hgc eq_refl); discriminate|]. clear Hgc.
  specialize (Ho1 eq_refl).
  cbn [repc] in Hc. destruct Hc as (Hg & Hu & Hc).
  cbn [cpar] in *. rewrite (ld_bind _ _ _ _ _ Hp). cbn [parent].
  rewrite (ld_bind _ _ _ _ _ Hg). cbn [left].
  cbn [bhc] in Hbc. destruct Hbc as (Hbs1 & Hbu & Hbc).
  pose proof Hbh as (Hbl & Hbr). pose proof Hrr as (Hrl & Hrr' & Hlr).
  destruct (Hlr eq_refl) as (Hil & Hir). clear Hlr.
  destruct (ld_rid h ep g u He Hu) as (nu & Hnu & Hcu).
  pose proof (rz_u _ _ _ Hz) as HU.
  destruct d2.
  - (* parent is the left child *)
    rewrite Nat.eqb_refl.
    rewrite (ld_bind _ _ _ _ _ Hg). cbn [right].
    rewrite (ld_bind _ _ _ _ _ Hnu), Hcu.
    destruct (isred u) eqn:Hiu.
    + (* red uncle *)
      destruct u as [|cu ul ux uk ur]; [discriminate|]. cbn in Hiu. destruct cu; [|discriminate].
      cbn [rid].
      apply repz_up in Hz.
      assert (exists pl pr, up (F d1 true p kp s1) (T true tl x k tr) = T true pl p kp pr /\
         rr pl /\ rr pr /\ bh pl n /\ bh pr n) as (pl & pr & Hup & Hrpl & Hrpr & Hbpl & Hbpr).
      { destruct d1; cbn; do 2 eexists; (split; [reflexivity|]); cbn; intuition congruence. }
      rewrite Hup in Hz.
      destruct (set_colour_ok _ _ _ _ _ _ _ false Hz) as (h1 & E1 & R1 & S1).
      rewrite (bind_ok _ _ _ _ _ E1).
      apply repz_up in R1. cbn [up] in R1. apply down_r in R1.
      destruct (set_colour_ok _ _ _ _ _ _ _ false R1) as (h2 & E2 & R2 & S2).
      rewrite (bind_ok _ _ _ _ _ E2). apply repz_up in R2. cbn [up] in R2.
      destruct (set_colour_ok _ _ _ _ _ _ _ true R2) as (h3 & E3 & R3 & S3).
      rewrite (bind_ok _ _ _ _ _ E3).
      assert (same_out h h3 (F d1 true p kp s1 :: F true false g kg (T true ul ux uk ur) :: c)
                (T true tl x k tr)) as S13.
      { intros q Hq Hr. rewrite S3, S2, S1; auto;
        assert (cnt q (up (F d1 true p kp s1) (T true tl x k tr)) = 0) as Hq0
          by (destruct d1; cbn in *; lia); rewrite Hup in Hq0; cbn in *; lia. }
      assert (emp h3 ep) as He3 by (eapply emp_same; eauto).
      destruct Hbu as (Hbul & Hbur). destruct Hru as (Hrul & Hrur & _).
      edestruct (IH c (T true (T false pl p kp pr) g kg (T false ul ux uk ur)) h3 ep (S n))
        as (h' & t' & E' & R' & S' & I' & Hr' & Hb' & HnE).
      * cbn in Hf. lia.
      * exact R3.
      * exact He3.
      * reflexivity.
      * cbn. intuition congruence.
      * cbn. auto.
      * exact Hbc.
      * apply rrc_octx. exact Hoc.
      * cbn [rid] in E'. exists h', t'. split; [exact E'|]. split; [exact R'|]. split.
        { intros q Hq Hr. rewrite S', S13; auto.
          assert (cnt q (up (F d1 true p kp s1) (T true tl x k tr)) = 0) as Hq0
            by (destruct d1; cbn in *; lia). rewrite Hup in Hq0; cbn in *; lia. }
        split; [|auto].
        rewrite I', !inorder_plug. cbn [plug]. 
        assert (inorder (T true tl x k tr) = inorder (T true tl x k tr)) by reflexivity.
        pose proof (inorder_plug [F d1 true p kp s1] (T true tl x k tr)) as Hi.
        cbn [plug] in Hi. rewrite Hup in Hi.
        destruct d1; cbn in Hup; injection Hup as <- <-; cbn;
          repeat (rewrite <- ?app_assoc; cbn); reflexivity.
    + (* black uncle *)
      rewrite (ld_bind _ _ _ _ _ Hp). cbn [right].
      (* establish the zipper after the optional first rotation *)
      assert (exists h1 A B C y ky z kz, 
        (if Nat.eqb x (if d1 then rid s1 else x)
         then rotateLeft p ;;; ret p else ret x) h = Some (z, h1) /\
        repz h1 (F true false g kg u :: c) (T true (T true A z kz B) y ky C) /\
        inorder A ++ (kz, z) :: inorder B ++ (ky, y) :: inorder C =
           inorder (up (F d1 true p kp s1) (T true tl x k tr)) /\
        (forall q, cnt q (T true (T true A z kz B) y ky C) =
                   cnt q (up (F d1 true p kp s1) (T true tl x k tr))) /\
        same_out h h1 (F d1 true p kp s1 :: F true false g kg u :: c) (T true tl x k tr) /\
        rr A /\ rr B /\ rr C /\ isred A = false /\ isred B = false /\ isred C = false /\
        bh A n /\ bh B n /\ bh C n)
        as (h1 & A & B & C & y & ky & z & kz & E1 & R1 & I1 & C1 & S1 & HrA & HrB & HrC & HiA & HiB & HiC & HbA & HbB & HbC).
      { destruct d1.
        - assert (x <> rid s1) as Hne.
          { apply (rid_neq (T true tl x k tr) s1); [congruence|].
            intros q. pose proof (HU q) as HQ. cbn in HQ |- *. lia. }
          rewrite (eqb_neq_f _ _ Hne).
          exists h, tl, tr, s1, p, kp, x, k. split; [reflexivity|].
          split. { apply repz_up in Hz. exact Hz. }
          split. { cbn. rewrite <- app_assoc. reflexivity. }
          split. { reflexivity. }
          split. { intros q _ _; reflexivity. }
          intuition.
        - rewrite Nat.eqb_refl. apply repz_up in Hz. cbn [up] in Hz.
          destruct (rotateLeft_ok _ _ _ _ _ _ _ _ _ _ _ Hz) as (h1 & E1 & R1 & S1).
          rewrite (bind_ok _ _ _ _ _ E1).
          exists h1, s1, tl, tr, x, k, p, kp. split; [reflexivity|].
          split; [exact R1|].
          split. { cbn. reflexivity. }
          split. { intros q; cbn; lia. }
          split. { eapply same_out_ids; [|exact S1]. same_ids. }
          intuition. }
      rewrite (bind_ok _ _ _ _ _ E1). clear E1.
      pose proof (rz_t _ _ _ R1) as (Hy1 & (Hz1 & _) & _).
      rewrite (ld_bind _ _ _ _ _ Hz1). cbn [parent].
      destruct (set_colour_ok _ _ _ _ _ _ _ false R1) as (h2 & E2 & R2 & S2).
      rewrite (bind_ok _ _ _ _ _ E2).
      pose proof (rz_t _ _ _ R2) as (Hy2 & _).
      rewrite (ld_bind _ _ _ _ _ Hy2). cbn [parent cpar].
      apply repz_up in R2. cbn [up] in R2.
      destruct (set_colour_ok _ _ _ _ _ _ _ true R2) as (h3 & E3 & R3 & S3).
      rewrite (bind_ok _ _ _ _ _ E3).
      destruct (rotateRight_ok _ _ _ _ _ _ _ _ _ _ _ R3) as (h4 & E4 & R4 & S4).
      rewrite (bind_ok _ _ _ _ _ E4).
      assert (same_out h h4 (F d1 true p kp s1 :: F true false g kg u :: c)
                (T true tl x k tr)) as S14.
      { intros q Hq Hr.
        assert (cnt q (up (F d1 true p kp s1) (T true tl x k tr)) = 0) as Hq0
          by (destruct d1; cbn in *; lia). rewrite <- C1 in Hq0.
        rewrite S4, S3, S2, S1; auto; cbn in *; lia. }
      assert (emp h4 ep) as He4 by (eapply emp_same; eauto).
      apply down_l in R4.
      edestruct (fun H1 H2 H3 => IH (F true false y ky (T true C g kg u) :: c) (T true A z kz B) h4 ep n H1 R4 He4 eq_refl H2 H3)
        as (h' & t' & E' & R' & S' & I' & Hr' & Hb' & HnE).
      * cbn in Hf |- *. lia.
      * cbn. intuition.
      * cbn. intuition.
      * cbn. intuition.
      * cbn. intuition; try congruence.
      * cbn [rid] in E'. exists h', t'. split; [exact E'|]. split; [exact R'|]. split.
        { intros q Hq Hr. rewrite S', S14; auto.
          assert (cnt q (up (F d1 true p kp s1) (T true tl x k tr)) = 0) as Hq0
            by (destruct d1; cbn in *; lia). rewrite <- C1 in Hq0; cbn in *; lia. }
        split; [|auto].
        rewrite I'. set (U := up (F d1 true p kp s1) (T true tl x k tr)) in *.
        change (plug (F d1 true p kp s1 :: F true false g kg u :: c) (T true tl x k tr))
          with (plug c (T false U g kg u)).
        cbn [plug up]. rewrite !inorder_plug. cbn [inorder]. rewrite <- I1.
        repeat (rewrite <- ?app_assoc; cbn). reflexivity.
  - (* parent is the right child *)
    assert (p <> rid u) as Hpu.
    { apply (rid_neq (T true E p kp E) u); [congruence|].
      intros q. pose proof (HU q) as HQ. cbn in HQ |- *. lia. }
    rewrite (eqb_neq_f _ _ Hpu).
    rewrite (ld_bind _ _ _ _ _ Hg). cbn [left].
    rewrite (ld_bind _ _ _ _ _ Hnu), Hcu.
    destruct (isred u) eqn:Hiu.
    + (* red uncle *)
      destruct u as [|cu ul ux uk ur]; [discriminate|]. cbn in Hiu. destruct cu; [|discriminate].
      cbn [rid].
      apply repz_up in Hz.
      assert (exists pl pr, up (F d1 true p kp s1) (T true tl x k tr) = T true pl p kp pr /\
         rr pl /\ rr pr /\ bh pl n /\ bh pr n) as (pl & pr & Hup & Hrpl & Hrpr & Hbpl & Hbpr).
      { destruct d1; cbn; do 2 eexists; (split; [reflexivity|]); cbn; intuition congruence. }
      rewrite Hup in Hz.
      destruct (set_colour_ok _ _ _ _ _ _ _ false Hz) as (h1 & E1 & R1 & S1).
      rewrite (bind_ok _ _ _ _ _ E1).
      apply repz_up in R1. cbn [up] in R1. apply down_l in R1.
      destruct (set_colour_ok _ _ _ _ _ _ _ false R1) as (h2 & E2 & R2 & S2).
      rewrite (bind_ok _ _ _ _ _ E2). apply repz_up in R2. cbn [up] in R2.
      destruct (set_colour_ok _ _ _ _ _ _ _ true R2) as (h3 & E3 & R3 & S3).
      rewrite (bind_ok _ _ _ _ _ E3).
      assert (same_out h h3 (F d1 true p kp s1 :: F false false g kg (T true ul ux uk ur) :: c)
                (T true tl x k tr)) as S13.
      { intros q Hq Hr. rewrite S3, S2, S1; auto;
        assert (cnt q (up (F d1 true p kp s1) (T true tl x k tr)) = 0) as Hq0
          by (destruct d1; cbn in *; lia); rewrite Hup in Hq0; cbn in *; lia. }
      assert (emp h3 ep) as He3 by (eapply emp_same; eauto).
      destruct Hbu as (Hbul & Hbur). destruct Hru as (Hrul & Hrur & _).
      edestruct (IH c (T true (T false ul ux uk ur) g kg (T false pl p kp pr)) h3 ep (S n))
        as (h' & t' & E' & R' & S' & I' & Hr' & Hb' & HnE).
      * cbn in Hf. lia.
      * exact R3.
      * exact He3.
      * reflexivity.
      * cbn. intuition congruence.
      * cbn. auto.
      * exact Hbc.
      * apply rrc_octx. exact Hoc.
      * cbn [rid] in E'. exists h', t'. split; [exact E'|]. split; [exact R'|]. split.
        { intros q Hq Hr. rewrite S', S13; auto.
          assert (cnt q (up (F d1 true p kp s1) (T true tl x k tr)) = 0) as Hq0
            by (destruct d1; cbn in *; lia). rewrite Hup in Hq0; cbn in *; lia. }
        split; [|auto].
        rewrite I', !inorder_plug. cbn [plug]. 
        destruct d1; cbn in Hup; injection Hup as <- <-; cbn;
          repeat (rewrite <- ?app_assoc; cbn); reflexivity.
    + (* black uncle *)
      rewrite (ld_bind _ _ _ _ _ Hp). cbn [left].
      assert (exists h1 A B C y ky z kz, 
        (if Nat.eqb x (if d1 then x else rid s1)
         then rotateRight p ;;; ret p else ret x) h = Some (z, h1) /\
        repz h1 (F false false g kg u :: c) (T true C y ky (T true A z kz B)) /\
        inorder C ++ (ky, y) :: inorder A ++ (kz, z) :: inorder B =
           inorder (up (F d1 true p kp s1) (T true tl x k tr)) /\
        (forall q, cnt q (T true C y ky (T true A z kz B)) =
                   cnt q (up (F d1 true p kp s1) (T true tl x k tr))) /\
        same_out h h1 (F d1 true p kp s1 :: F false false g kg u :: c) (T true tl x k tr) /\
        rr A /\ rr B /\ rr C /\ isred A = false /\ isred B = false /\ isred C = false /\
        bh A n /\ bh B n /\ bh C n)
        as (h1 & A & B & C & y & ky & z & kz & E1 & R1 & I1 & C1 & S1 & HrA & HrB & HrC & HiA & HiB & HiC & HbA & HbB & HbC).
      { destruct d1.
        - rewrite Nat.eqb_refl. apply repz_up in Hz. cbn [up] in Hz.
          destruct (rotateRight_ok _ _ _ _ _ _ _ _ _ _ _ Hz) as (h1 & E1 & R1 & S1).
          rewrite (bind_ok _ _ _ _ _ E1).
          exists h1, tr, s1, tl, x, k, p, kp. split; [reflexivity|].
          split; [exact R1|].
          split. { cbn. rewrite <- app_assoc. reflexivity. }
          split. { intros q; cbn; lia. }
          split. { eapply same_out_ids; [|exact S1]. same_ids. }
          intuition.
        - assert (x <> rid s1) as Hne.
          { apply (rid_neq (T true tl x k tr) s1); [congruence|].
            intros q. pose proof (HU q) as HQ. cbn in HQ |- *. lia. }
          rewrite (eqb_neq_f _ _ Hne).
          exists h, tl, tr, s1, p, kp, x, k. split; [reflexivity|].
          split. { apply repz_up in Hz. exact Hz. }
          split. { cbn. reflexivity. }
          split. { reflexivity. }
          split. { intros q _ _; reflexivity. }
          intuition. }
      rewrite (bind_ok _ _ _ _ _ E1). clear E1.
      pose proof (rz_t _ _ _ R1) as (Hy1 & _ & (Hz1 & _)).
      rewrite (ld_bind _ _ _ _ _ Hz1). cbn [parent].
      destruct (set_colour_ok _ _ _ _ _ _ _ false R1) as (h2 & E2 & R2 & S2).
      rewrite (bind_ok _ _ _ _ _ E2).
      pose proof (rz_t _ _ _ R2) as (Hy2 & _).
      rewrite (ld_bind _ _ _ _ _ Hy2). cbn [parent cpar].
      apply repz_up in R2. cbn [up] in R2.
      destruct (set_colour_ok _ _ _ _ _ _ _ true R2) as (h3 & E3 & R3 & S3).
      rewrite (bind_ok _ _ _ _ _ E3).
      destruct (rotateLeft_ok _ _ _ _ _ _ _ _ _ _ _ R3) as (h4 & E4 & R4 & S4).
      rewrite (bind_ok _ _ _ _ _ E4).
      assert (same_out h h4 (F d1 true p kp s1 :: F false false g kg u :: c)
                (T true tl x k tr)) as S14.
      { intros q Hq Hr.
        assert (cnt q (up (F d1 true p kp s1) (T true tl x k tr)) = 0) as Hq0
          by (destruct d1; cbn in *; lia). rewrite <- C1 in Hq0.
        rewrite S4, S3, S2, S1; auto; cbn in *; lia. }
      assert (emp h4 ep) as He4 by (eapply emp_same; eauto).
      apply down_r in R4.
      edestruct (fun H1 H2 H3 => IH (F false false y ky (T true u g kg C) :: c) (T true A z kz B) h4 ep n H1 R4 He4 eq_refl H2 H3)
        as (h' & t' & E' & R' & S' & I' & Hr' & Hb' & HnE).
      * cbn in Hf |- *. lia.
      * cbn. intuition.
      * cbn. intuition.
      * cbn. intuition.
      * cbn. intuition; try congruence.
      * cbn [rid] in E'. exists h', t'. split; [exact E'|]. split; [exact R'|]. split.
        { intros q Hq Hr. rewrite S', S14; auto.
          assert (cnt q (up (F d1 true p kp s1) (T true tl x k tr)) = 0) as Hq0
            by (destruct d1; cbn in *; lia). rewrite <- C1 in Hq0; cbn in *; lia. }
        split; [|auto].
        rewrite I'. set (U := up (F d1 true p kp s1) (T true tl x k tr)) in *.
        change (plug (F d1 true p kp s1 :: F false false g kg u :: c) (T true tl x k tr))
          with (plug c (T false u g kg U)).
        cbn [plug up]. rewrite !inorder_plug. cbn [inorder]. rewrite <- I1.
        repeat (rewrite <- ?app_assoc; cbn). reflexivity.
Qed.
