(* The doubly linked list of idle entries (cache.c 151-207). *)
From Coq Require Import List Arith ZArith Lia Bool.
Import ListNotations.
From Verif Require Import TreeModel CacheModel.

Section L.
  Context {D : Type}.
  Implicit Types (nx pv : nat -> option nat).

  Definition hdo (L : list nat) (q : option nat) := match L with [] => q | b :: _ => Some b end.
  Fixpoint lsto (p : option nat) (L : list nat) := match L with [] => p | a :: L' => lsto (Some a) L' end.
  Fixpoint lseg nx pv (p : option nat) (L : list nat) (q : option nat) : Prop :=
    match L with
    | [] => True
    | a :: L' => pv a = p /\ nx a = hdo L' q /\ lseg nx pv (Some a) L' q
    end.

  Lemma fupd_eq {A} (f : nat -> A) i v : fupd f i v i = v.
  Proof. unfold fupd. now rewrite Nat.eqb_refl. Qed.
  Lemma fupd_ne {A} (f : nat -> A) i v j : j <> i -> fupd f i v j = f j.
  Proof. intros H. unfold fupd. now rewrite (proj2 (Nat.eqb_neq j i) H). Qed.

  Lemma hdo_app L1 L2 q : hdo (L1 ++ L2) q = hdo L1 (hdo L2 q).
  Proof. now destruct L1. Qed.
  Lemma lsto_app L1 : forall p L2, lsto p (L1 ++ L2) = lsto (lsto p L1) L2.
  Proof. induction L1; cbn; auto. Qed.
  Lemma lseg_app nx pv L1 : forall p L2 q,
    lseg nx pv p (L1 ++ L2) q <-> lseg nx pv p L1 (hdo L2 q) /\ lseg nx pv (lsto p L1) L2 q.
  Proof.
    induction L1 as [|a L1 IH]; intros p L2 q; cbn [app lseg lsto]; [tauto|].
    rewrite IH, hdo_app. tauto.
  Qed.
  Lemma lseg_frame nx pv nx' pv' L : forall p q,
    (forall a, In a L -> nx' a = nx a /\ pv' a = pv a) ->
    lseg nx pv p L q -> lseg nx' pv' p L q.
  Proof.
    induction L as [|a L IH]; cbn [lseg]; auto. intros p q Hf (H1 & H2 & H3).
    destruct (Hf a) as (F1 & F2); [now left|]. rewrite F1, F2. repeat split; auto.
    apply IH; auto. intros b Hb. apply Hf. now right.
  Qed.
  Lemma lsto_in p L x : lsto p L = Some x -> In x L \/ p = Some x.
  Proof.
    revert p. induction L as [|a L IH]; cbn; intros p H; auto.
    destruct (IH _ H) as [H1|H1]; auto. injection H1 as ->. auto.
  Qed.
  Lemma lsto_snoc p L x : lsto p (L ++ [x]) = Some x.
  Proof. now rewrite lsto_app. Qed.

  Definition dll nx pv (fi la : option nat) (L : list nat) : Prop :=
    NoDup L /\ lseg nx pv None L None /\ fi = hdo L None /\ la = lsto None L /\
    (forall i, ~ In i L -> nx i = None /\ pv i = None).

  Definition sdll (s : shard D) L := dll (nxt s) (prv s) (first s) (last s) L.

  Lemma list_last_case (L : list nat) : L = [] \/ exists L' x, L = L' ++ [x].
  Proof. destruct L as [|a L]; auto. right. destruct (@exists_last _ (a :: L)) as (L' & x & H); [discriminate|]. eauto. Qed.

  Lemma remove_ok s L1 i L2 : sdll s (L1 ++ i :: L2) ->
    let s' := cacheRemoveFromList i s in
    sdll s' (L1 ++ L2) /\ tree s' = tree s /\ active s' = active s /\ data s' = data s /\
    allocated s' = allocated s /\ capacity s' = capacity s.
  Proof.
    intros (Hn & Hs & Hf & Hl & Ho) s'.
    pose proof (NoDup_remove _ _ _ Hn) as (Hn' & Hni). rewrite in_app_iff in Hni.
    apply lseg_app in Hs. destruct Hs as (Hs1 & Hs2). cbn [lseg] in Hs2.
    destruct Hs2 as (Hpi & Hni' & Hs2).
    rewrite hdo_app in Hf. cbn [hdo] in Hf.
    rewrite lsto_app in Hl. cbn [lsto] in Hl.
    split; [|subst s'; unfold cacheRemoveFromList; destruct (nxt s i); cbn;
             match goal with |- context [match ?x with Some _ => _ | None => _ end] => destruct x end; cbn; auto].
    subst s'. unfold cacheRemoveFromList, sdll. rewrite Hni'.
    destruct (list_last_case L1) as [-> | (L1' & p & ->)].
    - cbn [lsto hdo app] in *. destruct L2 as [|n L2]; cbn [hdo lsto lseg] in *.
      + cbn. rewrite Hpi. cbn. rewrite Hni'. repeat split; auto; try constructor.
        * unfold fupd. destruct (Nat.eqb i0 i) eqn:E; auto. apply Ho.
          apply Nat.eqb_neq in E. cbn; intuition congruence.
        * unfold fupd. destruct (Nat.eqb i0 i) eqn:E; auto. apply Ho.
          apply Nat.eqb_neq in E. cbn; intuition congruence.
      + assert (n <> i) as Nn by (intros ->; apply Hni; right; now left).
        cbn. rewrite fupd_ne by auto. rewrite Hpi. cbn. rewrite Hni'.
        split; [auto|]. split; [|split; [reflexivity|split; [auto|]]].
        * cbn [lseg]. destruct Hs2 as (A1 & A2 & A3). rewrite !(fupd_ne _ i) by auto. rewrite fupd_eq.
          repeat split; auto. eapply lseg_frame; [|exact A3]. intros a Ha.
          inversion Hn'; subst.
          assert (a <> i) by (intros ->; apply Hni; right; now right).
          assert (a <> n) by congruence.
          now rewrite !fupd_ne by auto.
        * intros a Ha. destruct (Nat.eq_dec a i) as [->|Na]; [now rewrite !fupd_eq|].
          assert (a <> n) by (intros ->; apply Ha; now left).
          rewrite !fupd_ne by auto. apply Ho. cbn in *. intuition.
    - rewrite lsto_snoc in *. rewrite hdo_app in Hf. cbn [hdo] in Hf.
      apply lseg_app in Hs1. destruct Hs1 as (Hs1 & Hp1). cbn [lseg hdo] in Hp1, Hs1. destruct Hp1 as (Hpp & Hnp & _).
      assert (p <> i) as Np by (intros ->; apply Hni; left; apply in_app_iff; right; now left).
      destruct L2 as [|n L2]; cbn [hdo lsto lseg] in *.
      + cbn. rewrite Hpi. cbn. rewrite Hni'. rewrite app_nil_r in *.
        split; [auto|]. split; [|split; [rewrite hdo_app; exact Hf|split; [now rewrite lsto_snoc|]]].
        * apply lseg_app. cbn [hdo lseg]. rewrite !(fupd_ne _ i) by auto. rewrite fupd_eq. repeat split; auto.
          eapply lseg_frame; [|exact Hs1]. intros a Ha.
          assert (a <> i) by (intros ->; apply Hni; left; apply in_app_iff; now left).
          assert (a <> p) by (intros ->; apply NoDup_remove_2 in Hn'; rewrite app_nil_r in Hn'; auto).
          now rewrite !fupd_ne by auto.
        * intros a Ha. destruct (Nat.eq_dec a i) as [->|Na]; [now rewrite !fupd_eq|].
          assert (a <> p) by (intros ->; apply Ha, in_app_iff; right; now left).
          rewrite !fupd_ne by auto. apply Ho. rewrite in_app_iff. cbn. intuition.
      + assert (n <> i) as Nn by (intros ->; apply Hni; right; now left).
        cbn. rewrite fupd_ne by auto. rewrite Hpi. cbn. rewrite Hni'.
        destruct Hs2 as (A1 & A2 & A3).
        assert (~ In n (L1' ++ [p])) as Nnp by (intros Q; apply NoDup_remove_2 in Hn'; apply Hn', in_app_iff; auto).
        assert (~ In n L2) as Nn2 by (intros Q; apply NoDup_remove_2 in Hn'; apply Hn', in_app_iff; auto).
        assert (n <> p) as Nnp' by (intros ->; apply Nnp, in_app_iff; right; now left).
        split; [auto|]. split; [|split; [rewrite !hdo_app; exact Hf|split; [rewrite lsto_app; cbn; exact Hl|]]].
        * apply lseg_app. split.
          { apply lseg_app. cbn [hdo lseg].
            rewrite !(fupd_ne _ i) by auto. rewrite fupd_eq. rewrite !fupd_ne by auto. repeat split; auto.
            eapply lseg_frame; [|exact Hs1]. intros a Ha.
            assert (a <> i) by (intros ->; apply Hni; left; apply in_app_iff; now left).
            assert (a <> n) by (intros ->; apply Nnp, in_app_iff; auto).
            assert (a <> p).
            { intros ->. rewrite <- app_assoc in Hn'. cbn in Hn'. apply NoDup_remove_2 in Hn'. apply Hn', in_app_iff; auto. }
            now rewrite !fupd_ne by auto. }
          { cbn [lseg]. rewrite lsto_snoc. rewrite !(fupd_ne _ i) by auto. rewrite fupd_eq, fupd_ne by auto.
            repeat split; auto. eapply lseg_frame; [|exact A3]. intros a Ha.
            assert (a <> i) by (intros ->; apply Hni; right; now right).
            assert (a <> n) by congruence.
            assert (a <> p).
            { intros ->. rewrite <- app_assoc in Hn'. cbn in Hn'. apply NoDup_remove_2 in Hn'. apply Hn', in_app_iff; right; now right. }
            now rewrite !fupd_ne by auto. }
        * intros a Ha. destruct (Nat.eq_dec a i) as [->|Na]; [now rewrite !fupd_eq|].
          rewrite !in_app_iff in Ha. cbn in Ha.
          assert (a <> p) by (intros ->; apply Ha; auto).
          assert (a <> n) by (intros ->; apply Ha; auto).
          rewrite !fupd_ne by auto. apply Ho. rewrite !in_app_iff. cbn. intuition.
  Qed.

  Lemma addhead_ok s i L : sdll s L -> ~ In i L ->
    exists s', cacheAddToHead i s = Some s' /\ sdll s' (i :: L) /\
    tree s' = tree s /\ active s' = active s /\ data s' = data s /\
    allocated s' = allocated s /\ capacity s' = capacity s.
  Proof.
    intros (Hn & Hs & Hf & Hl & Ho) Hi. destruct (Ho i Hi) as (Hx & Hp).
    unfold cacheAddToHead. rewrite Hx, Hp. cbn [set_nxt first]. rewrite Hf.
    destruct L as [|f L]; cbn [hdo lsto lseg] in *.
    - cbn. rewrite Hl. cbn. rewrite Hp, fupd_eq. eexists. split; [reflexivity|].
      cbn. split; [|auto 10]. unfold sdll. cbn. split; [constructor; auto|].
      cbn [lseg hdo lsto]. rewrite fupd_eq. repeat split; auto; unfold fupd; try destruct (Nat.eqb_spec i0 i); auto; apply Ho; auto.
    - cbn. assert (exists l, last s = Some l /\ In l (f :: L) /\ nxt s l = None) as (l & El & Il & Xl).
      { destruct (list_last_case (f :: L)) as [H|(L' & x & E)]; [discriminate|].
        assert (lseg (nxt s) (prv s) None (f :: L) None) as Hs' by exact Hs.
        change (lsto (Some f) L) with (lsto None (f :: L)) in Hl. rewrite E in *.
        rewrite lsto_snoc in Hl. exists x. split; auto. split; [apply in_app_iff; right; now left|].
        apply lseg_app in Hs'. cbn in Hs'. tauto. }
      rewrite El.
      assert (i <> f) as Nf by (intros ->; apply Hi; now left).
      assert (l <> i) as Nl by congruence.
      cbn. rewrite (fupd_ne _ f) by auto. rewrite Hp, El. rewrite (fupd_ne _ i) by auto. rewrite Xl.
      eexists. split; [reflexivity|]. cbn. split; [|auto 10].
      unfold sdll. cbn. split; [constructor; auto|]. cbn [lseg hdo lsto].
      rewrite !fupd_ne by auto. rewrite !fupd_eq. destruct Hs as (A1 & A2 & A3).
      split; [|split; [auto|split; [congruence|]]].
      + rewrite fupd_ne by auto. repeat split; auto. eapply lseg_frame; [|exact A3]. intros a Ha.
        assert (a <> i) by (intros ->; apply Hi; now right).
        assert (a <> f) by (inversion Hn; congruence).
        now rewrite !fupd_ne by auto.
      + intros a Ha. assert (a <> i /\ a <> f) as (N1 & N2) by (split; intros ->; apply Ha; cbn; auto).
        rewrite !fupd_ne by auto. apply Ho. cbn in *. intuition.
  Qed.
End L.
