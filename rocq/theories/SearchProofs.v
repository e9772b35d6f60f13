(* Proofs about SearchModel *)
From Verif Require Import SearchModel SearchSpec.

Section S.
  Context {A : Type} (get : Z -> option A * bool) (cmp : A -> Z -> Z * bool).

  Notation cmpAt := (cmpAt get cmp).
  Notation sortedFor := (sortedFor get cmp).

  Lemma half_bound a : (0 <= a)%Z -> (0 <= a / 2 /\ 2 * (a / 2) <= a < 2 * (a / 2) + 2)%Z.
  Proof. intros H. pose proof (Z.div_mod a 2 ltac:(lia)). pose proof (Z.mod_pos_bound a 2 ltac:(lia)). lia. Qed.

  Lemma search_step lo0 up0 : (0 <= lo0)%Z -> (up0 < 2 ^ 32 - 1)%Z -> sortedFor lo0 up0 ->
    (forall i, lo0 <= i <= up0 -> exists r, cmpAt i = Some r)%Z ->
    forall fuel lo up tr, (lo0 <= lo)%Z -> (up <= up0)%Z -> (lo <= up + 1)%Z -> (up - lo + 1 < 2 ^ Z.of_nat fuel)%Z ->
    (forall i r, lo0 <= i < lo -> cmpAt i = Some r -> r <> 0)%Z ->
    (forall i r, up < i <= up0 -> cmpAt i = Some r -> r <> 0)%Z ->
    paired tr = true -> (forall i, In (SGet i) tr \/ In (SRelease i) tr -> lo0 <= i <= up0)%Z ->
    exists res tr', search get cmp (S fuel) lo up tr = Some (res, true, tr') /\
      (forall i, In (SGet i) tr' \/ In (SRelease i) tr' -> lo0 <= i <= up0)%Z /\
      length tr' <= length tr + 2 * fuel /\
      ((res = -1 /\ paired tr' = true /\ forall i r, lo0 <= i <= up0 -> cmpAt i = Some r -> r <> 0)%Z \/
       ((lo0 <= res <= up0)%Z /\ cmpAt res = Some 0%Z /\ exists tr1, tr' = SGet res :: tr1 /\ paired tr1 = true)).
  Proof.
    intros Hlo0 Hup0 Hsort Htot fuel. induction fuel as [|fuel IH]; intros lo up tr H1 H2 H3 Hf Hb Ha Hp Ht.
    - cbn in Hf. cbn [search]. destruct (Z.leb_spec lo up); [lia|].
      exists (-1)%Z, tr. split; auto. split; auto. split; [lia|]. left. split; auto. split; auto.
      intros i r Hi. destruct (Z.lt_ge_cases i lo); [apply Hb; lia|apply Ha; lia].
    - remember (S fuel) as f1 eqn:Ef1. cbn [search]. destruct (Z.leb_spec lo up) as [Hle|Hgt].
      2:{ exists (-1)%Z, tr. split; auto. split; auto. split; [lia|]. left. split; auto. split; auto.
          intros i r Hi. destruct (Z.lt_ge_cases i lo); [apply Hb; lia|apply Ha; lia]. }
      pose proof (half_bound (up - lo) ltac:(lia)) as Hh. set (m := (lo + (up - lo) / 2)%Z).
      assert (lo <= m <= up)%Z as Hm by (unfold m; lia).
      destruct (Htot m ltac:(lia)) as (r & Er). pose proof Er as Er'. unfold cmpAt in Er'.
      destruct (get m) as ([a|], [|]) eqn:Eg; try discriminate. destruct (cmp a m) as (r', [|]) eqn:Ec; try discriminate.
      injection Er' as ->.
      assert (2 ^ Z.of_nat f1 = 2 * 2 ^ Z.of_nat fuel)%Z as Hpow.
      { subst f1. rewrite Nat2Z.inj_succ, Z.pow_succ_r; lia. }
      destruct (Z.eqb_spec r 0) as [Ez|Nz].
      + subst r. exists m, (SGet m :: tr). split; auto. split; [|split; [cbn [length]; lia|]].
        * intros i [[E|E]|[E|E]]; try discriminate; [injection E as <-; lia|apply Ht; auto|apply Ht; auto].
        * right. split; [lia|]. split; auto. exists tr. auto.
      + assert (paired (SRelease m :: SGet m :: tr) = true) as Hp' by (cbn; now rewrite Z.eqb_refl).
        assert (forall i, In (SGet i) (SRelease m :: SGet m :: tr) \/ In (SRelease i) (SRelease m :: SGet m :: tr) -> lo0 <= i <= up0)%Z as Ht'.
        { intros i Hi. cbn [In] in Hi. destruct Hi as [[E|[E|E]]|[E|[E|E]]]; try discriminate; try (injection E as <-; lia); apply Ht; auto. }
        assert (forall lo' up', (lo0 <= lo')%Z -> (up' <= up0)%Z -> (lo' <= up' + 1)%Z -> (2 * (up' - lo' + 1) <= up - lo + 1)%Z ->
          (forall i r, lo0 <= i < lo' -> cmpAt i = Some r -> r <> 0)%Z ->
          (forall i r, up' < i <= up0 -> cmpAt i = Some r -> r <> 0)%Z ->
          exists res tr', search get cmp f1 lo' up' (SRelease m :: SGet m :: tr) = Some (res, true, tr') /\
          (forall i, In (SGet i) tr' \/ In (SRelease i) tr' -> lo0 <= i <= up0)%Z /\
          length tr' <= length tr + 2 * f1 /\
          ((res = -1 /\ paired tr' = true /\ forall i r, lo0 <= i <= up0 -> cmpAt i = Some r -> r <> 0)%Z \/
          ((lo0 <= res <= up0)%Z /\ cmpAt res = Some 0%Z /\ exists tr1, tr' = SGet res :: tr1 /\ paired tr1 = true))) as HI.
        { intros lo' up' A1 A2 A3 A4 A5 A6. subst f1.
          destruct (IH lo' up' (SRelease m :: SGet m :: tr) A1 A2 A3 ltac:(lia) A5 A6 Hp' Ht') as (res & tr' & B1 & B2 & B3 & B4).
          exists res, tr'. split; auto. split; auto. split; [cbn [length] in B3; lia|auto]. }
        assert (0 < r -> forall i s, m <= i <= up0 -> cmpAt i = Some s -> s <> 0)%Z as Hpos.
        { intros Hr i s Hi Es. destruct (Z.eq_dec i m) as [->|Ni]; [congruence|].
          destruct (Hsort m i r s) as (Q & _); auto; lia. }
        assert (r < 0 -> forall i s, lo0 <= i <= m -> cmpAt i = Some s -> s <> 0)%Z as Hneg.
        { intros Hr i s Hi Es. destruct (Z.eq_dec i m) as [->|Ni]; [congruence|].
          destruct (Hsort i m s r) as (_ & Q); auto; lia. }
        destruct (Z.ltb_spec 0 r) as [Hr|Hr].
        * destruct (Z.eqb_spec m 0) as [Em|Em].
          -- (* lo = 0, up <= 1 *)
             rewrite Z.mod_small by lia. apply HI; try lia.
             ++ intros i s Hi Es. assert (i = m) by lia. subst i. congruence.
             ++ intros i s Hi Es. apply (Hpos Hr i s); auto. lia.
          -- apply HI; try lia; try (unfold m; lia).
             ++ intros i s Hi Es. eapply Hb; eauto.
             ++ intros i s Hi Es. apply (Hpos Hr i s); auto. lia.
        * rewrite Z.mod_small by lia. apply HI; try lia; try (unfold m; lia).
          -- intros i s Hi Es. apply (Hneg ltac:(lia) i s); auto. lia.
          -- intros i s Hi Es. eapply Ha; eauto.
  Qed.

  (* errors: whatever happens, a clear exception means the result can be
     trusted, provided a NULL item comes with an exception *)
  Lemma search_clear : (forall i, fst (get i) = None -> snd (get i) = false) ->
    forall fuel lo up tr res tr', (0 <= lo)%Z -> (up < 2 ^ 32 - 1)%Z -> search get cmp fuel lo up tr = Some (res, true, tr') ->
    res = (-1)%Z \/ (cmpAt res = Some 0%Z /\ (lo <= res <= up)%Z).
  Proof.
    intros Hg. induction fuel as [|fuel IH]; intros lo up tr res tr' Hlo Hup H; [discriminate|]. cbn [search] in H.
    destruct (Z.leb_spec lo up); [|injection H as <- <-; auto].
    pose proof (half_bound (up - lo) ltac:(lia)) as Hh. set (m := (lo + (up - lo) / 2)%Z) in *.
    assert (lo <= m <= up)%Z as Hm by (unfold m; lia).
    destruct (get m) as ([a|], [|]) eqn:Eg; try discriminate.
    - destruct (cmp a m) as (r, [|]) eqn:Ec; try discriminate.
      destruct (Z.eqb_spec r 0) as [->|].
      + injection H as <- _. right. split; [|lia]. unfold cmpAt. now rewrite Eg, Ec.
      + destruct (Z.ltb 0 r).
        * destruct (Z.eqb_spec m 0).
          -- rewrite Z.mod_small in H by lia. apply IH in H; try lia. destruct H as [|(? & ?)]; auto. right. split; auto. lia.
          -- apply IH in H; try lia. destruct H as [|(? & ?)]; auto. right. split; auto. lia.
        * rewrite Z.mod_small in H by lia. apply IH in H; try lia. destruct H as [|(? & ?)]; auto. right. split; auto. lia.
    - specialize (Hg m). rewrite Eg in Hg. discriminate (Hg eq_refl).
  Qed.

  Lemma search_failed fuel : forall lo up tr res tr', paired tr = true -> search get cmp fuel lo up tr = Some (res, false, tr') ->
    res = 0%Z /\ exists m tr1, tr' = SGet m :: tr1 /\ paired tr1 = true /\
      (snd (get m) = false \/ exists a, fst (get m) = Some a /\ snd (cmp a m) = false).
  Proof.
    induction fuel as [|fuel IH]; intros lo up tr res tr' Hp H; [discriminate|]. cbn [search] in H.
    destruct (Z.leb lo up); [|discriminate]. set (m := (lo + (up - lo) / 2)%Z) in *.
    destruct (get m) as [[a|] ok] eqn:Eg.
    - destruct ok.
      + destruct (cmp a m) as [r [|]] eqn:Ec.
        * assert (paired (SRelease m :: SGet m :: tr) = true) as Hp' by (cbn; now rewrite Z.eqb_refl).
          destruct (Z.eqb r 0); [discriminate|]. destruct (Z.ltb 0 r); [destruct (Z.eqb m 0)|]; eapply IH in H; eauto.
        * injection H as <- <-. split; auto. exists m, tr. split; auto. split; auto. right. exists a. rewrite Eg, Ec. auto.
      + injection H as <- <-. split; auto. exists m, tr. rewrite Eg. auto.
    - injection H as <- -> <-. split; auto. exists m, tr. rewrite Eg. auto.
  Qed.

  Lemma search_loops fuel : (forall i, exists a, get i = (Some a, true) /\ exists r, (r < 0)%Z /\ cmp a i = (r, true)) ->
    forall lo tr, (0 <= lo <= 2 ^ 32 - 1)%Z -> search get cmp fuel lo (2 ^ 32 - 1) tr = None.
  Proof.
    intros H. induction fuel as [|fuel IH]; intros lo tr Hl; [reflexivity|]. cbn [search].
    destruct (Z.leb_spec lo (2 ^ 32 - 1)); [|lia].
    set (m := (lo + (2 ^ 32 - 1 - lo) / 2)%Z). destruct (H m) as (a & -> & r & Hr & ->).
    destruct (Z.eqb_spec r 0); [lia|]. destruct (Z.ltb_spec 0 r); [lia|]. apply IH.
    pose proof (Z.mod_pos_bound (m + 1) (2 ^ 32) ltac:(lia)). lia.
  Qed.
End S.
