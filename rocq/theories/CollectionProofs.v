(* Proofs about CollectionModel *)
From Verif Require Import TreeModel CacheModel CacheSpec CacheProps PropertiesCache CollectionModel CollectionSpec.

Lemma concat_nth {A} (l : list (list A)) n it : nth_error l n = Some it ->
  concat l = concat (firstn n l) ++ it ++ concat (skipn (S n) l).
Proof.
  revert n. induction l as [|a l IH]; intros [|n] H; try discriminate.
  - cbn in H. injection H as ->. reflexivity.
  - cbn [nth_error] in H. cbn [concat firstn skipn]. rewrite (IH _ H) at 1. now rewrite app_assoc.
Qed.
Lemma skipn_skipn {A} x y (l : list A) : skipn x (skipn y l) = skipn (x + y) l.
Proof.
  revert l. induction y as [|y IH]; intros l; [now rewrite Nat.add_0_r|].
  rewrite Nat.add_succ_r. destruct l; cbn; [now rewrite skipn_nil|apply IH].
Qed.
Lemma firstn_snoc {A} n (l : list A) a : nth_error l n = Some a -> firstn (S n) l = firstn n l ++ [a].
Proof.
  revert l. induction n as [|n IH]; intros [|x l] H; try discriminate; cbn in H.
  - injection H as ->. reflexivity.
  - cbn [firstn app]. f_equal. now apply IH.
Qed.
Lemma slice_mid {A} (a b c : list A) : slice (a ++ b ++ c) (length a) (length b) = b.
Proof. unfold slice. rewrite skipn_app, Nat.sub_diag, skipn_all. cbn. rewrite firstn_app, Nat.sub_diag, firstn_all. cbn. apply app_nil_r. Qed.
Lemma slice_slice {A} (l : list A) s n a m : a + m <= n -> slice (slice l s n) a m = slice l (s + a) m.
Proof.
  intros H. unfold slice. rewrite skipn_firstn_comm, firstn_firstn, skipn_skipn.
  replace (Nat.min m (n - a)) with m by lia. f_equal. f_equal. lia.
Qed.
Lemma slice_split {A} (l : list A) s n m : s + n <= length l -> slice l s (n + m) = slice l s n ++ slice l (s + n) m.
Proof.
  intros H. unfold slice. rewrite <- (firstn_skipn n (skipn s l)) at 1.
  rewrite firstn_app, firstn_firstn, firstn_length, skipn_length, skipn_skipn.
  replace (Nat.min (n + m) n) with n by lia. f_equal. f_equal; [lia|]. f_equal. lia.
Qed.
Lemma length_slice {A} (l : list A) s n : s + n <= length l -> length (slice l s n) = n.
Proof. intros H. unfold slice. rewrite firstn_length, skipn_length. lia. Qed.
Lemma concat_fixed_len {A} (l : list (list A)) es : (forall it, In it l -> length it = es) -> length (concat l) = length l * es.
Proof.
  induction l as [|a l IH]; intros H; cbn; auto. rewrite app_length, IH by (intros; apply H; now right).
  rewrite (H a) by (now left). lia.
Qed.
Lemma in_firstn {A} (l : list A) n x : In x (firstn n l) -> In x l.
Proof. intros H. rewrite <- (firstn_skipn n l). apply in_or_app. now left. Qed.

Lemma toInt32_min i : (0 <= i < 2 ^ 32)%Z -> (toInt32 i = - 2 ^ 31 <-> i = 2 ^ 31)%Z.
Proof. intros H. unfold toInt32. rewrite Z.mod_small by lia. destruct (Z.ltb_spec i (2 ^ 31)); lia. Qed.
Lemma toInt32_id i : toInt32 (toInt32 i) = toInt32 i.
Proof.
  unfold toInt32. pose proof (Z.mod_pos_bound i (2 ^ 32) ltac:(lia)) as H. destruct (Z.ltb_spec (i mod 2 ^ 32) (2 ^ 31)).
  - rewrite Z.mod_small by lia. destruct (Z.ltb_spec (i mod 2 ^ 32) (2 ^ 31)); lia.
  - replace ((i mod 2 ^ 32 - 2 ^ 32) mod 2 ^ 32)%Z with (i mod 2 ^ 32)%Z.
    + destruct (Z.ltb_spec (i mod 2 ^ 32) (2 ^ 31)); lia.
    + replace (i mod 2 ^ 32 - 2 ^ 32)%Z with (i mod 2 ^ 32 + (-1) * 2 ^ 32)%Z by lia. rewrite Z.mod_add by lia. now rewrite Z.mod_mod by lia.
Qed.
Lemma toInt32_inj i j : (0 <= i < 2 ^ 32)%Z -> (0 <= j < 2 ^ 32)%Z -> toInt32 i = toInt32 j -> i = j.
Proof.
  intros Hi Hj. unfold toInt32. rewrite !Z.mod_small by lia.
  destruct (Z.ltb_spec i (2 ^ 31)), (Z.ltb_spec j (2 ^ 31)); lia.
Qed.

Section P.
  Context (file : list Z) (k : kind) (items : list (list Z)) (h : header) (fuel : nat) (HR : regionOK file k items h).
  Let ci := createCollection h.
  Let R := concat items.

  Lemma elemSize : match k with
    | Fixed => (items = [] /\ celem ci = 0%Z) \/ exists es, 0 < es /\ celem ci = Z.of_nat es /\ (forall it, In it items -> length it = es)
    | VarSize _ _ => celem ci = 0%Z
    end.
  Proof.
    pose proof HR as (Hi & Hl & Hb & Hc & Hf & Hs). unfold ci, createCollection. destruct k as [|init final].
    - destruct Hi as (es & He & Hi). destruct items as [|a l] eqn:E.
      + left. split; auto. cbn. rewrite Hc. reflexivity.
      + right. exists es. split; auto. split; auto. cbn [celem]. rewrite Hc, Hl.
        rewrite (concat_fixed_len _ es Hi). destruct (Z.eqb_spec (Z.of_nat (length (a :: l))) 0); [cbn in *; lia|].
        rewrite Nat2Z.inj_mul, Z.mul_comm, Z.div_mul; auto.
    - cbn. now rewrite Hc.
  Qed.

  Definition truth (i : Z) : option rd := fileRead file k (hstart h) ci IoOk i.

  Lemma size_region : csize ci = Z.of_nat (length R).
  Proof. apply HR. Qed.

  (* the bytes of the region *)
  Lemma read_region a n : a + n <= length R -> fread file (hstart h + a) n = Some (slice R a n).
  Proof.
    intros H. pose proof HR as (_ & _ & _ & _ & Hf & Hs). fold R in Hf, Hs. unfold fread.
    destruct (Nat.leb_spec (hstart h + a + n) (length file)); [|lia].
    rewrite <- Hs. now rewrite slice_slice by lia.
  Qed.

  Lemma position_bound n it : nth_error items n = Some it ->
    (0 <= position k items n < 2 ^ 32)%Z /\ 0 < length it /\
    match k with Fixed => (position k items n < ccount ci)%Z | VarSize _ _ => (position k items n < csize ci)%Z end.
  Proof.
    intros Hn. pose proof (concat_nth _ _ _ Hn) as Hc. pose proof HR as (Hi & Hl & Hb & Hcn & Hf & Hs).
    assert (0 < length it) as Hp.
    { destruct k; [destruct Hi as (es & He & Hi)|destruct Hi as (He & Hi)]; specialize (Hi it (nth_error_In _ _ Hn)); lia. }
    assert (n < length items) as Hlt by (apply nth_error_Some; congruence).
    assert (length (concat items) = length (concat (firstn n items)) + length it + length (concat (skipn (S n) items))) as Hle
      by (rewrite Hc at 1; rewrite !app_length; lia).
    split; [|split; auto].
    - unfold position. destruct k; [|lia].
      destruct Hi as (es & He & Hi). pose proof (concat_fixed_len _ _ Hi). nia.
    - unfold position, ci, createCollection. cbn [ccount csize]. rewrite Hcn, Hl. destruct k; lia.
  Qed.

  Lemma truth_item n it : nth_error items n = Some it -> truth (position k items n) = Some (ROk it).
  Proof.
    intros Hn. pose proof (concat_nth _ _ _ Hn) as Hc. pose proof elemSize as He. pose proof read_region as RR.
    destruct (position_bound _ _ Hn) as (Hp & Hpos & Hb). unfold truth, fileRead.
    pose proof (proj1 HR) as Hi.
    assert (n < length items) as Hlt by (apply nth_error_Some; congruence).
    pose proof size_region as Hsz.
    assert (length R = length (concat (firstn n items)) + length it + length (concat (skipn (S n) items))) as Hle
      by (unfold R; rewrite Hc at 1; rewrite !app_length; lia).
    assert (slice R (length (concat (firstn n items))) (length it) = it) as Hsl
      by (unfold R; rewrite Hc at 1; apply slice_mid).
    pose proof HR as (_ & Hl & Hb32 & _). fold R in Hl.
    unfold position in *. destruct k as [|init final].
    - destruct He as [(-> & _)|(es & He & Hes & Hall)]; [cbn in Hlt; lia|].
      f_equal. unfold ReadFileFixed. destruct (Z.ltb_spec (Z.of_nat n) (ccount ci)); [|lia]. rewrite Hes.
      pose proof (Hall it (nth_error_In _ _ Hn)) as Hit.
      assert (length (concat (firstn n items)) = n * es) as Hfn.
      { rewrite (concat_fixed_len _ es), firstn_length by (intros; apply Hall; eapply in_firstn; eauto).
        f_equal. lia. }
      rewrite Z.mod_small by nia. destruct (Z.ltb_spec (Z.of_nat n * Z.of_nat es) (csize ci)); [|nia].
      cbn [io_eqb orb]. destruct (Z.eqb_spec (Z.of_nat es) 0); [lia|].
      rewrite <- Nat2Z.inj_mul, !Nat2Z.id, <- Hfn, <- Hit. rewrite RR by lia. now rewrite Hsl.
    - unfold ReadFileVariable. set (a := length (concat (firstn n items))) in *.
      destruct (Z.ltb_spec (Z.of_nat a) (csize ci)); [|lia]. cbn [io_eqb]. rewrite Nat2Z.id.
      destruct Hi as (Hin & Hi). destruct (Hi it (nth_error_In _ _ Hn)) as (Hli & Hfi).
      rewrite RR by lia.
      assert (slice R a init = firstn init it) as Hsi.
      { rewrite <- Hsl. unfold slice. rewrite firstn_firstn. f_equal. lia. }
      rewrite Hsi, Hfi. rewrite Z.mod_small by lia. destruct (Z.ltb_spec (Z.of_nat (length it)) (Z.of_nat init)); [lia|].
      rewrite Nat2Z.id. rewrite <- Nat.add_assoc, RR by lia. f_equal. f_equal.
      rewrite <- Hsi. rewrite <- slice_split by lia. now replace (init + (length it - init)) with (length it) by lia.
  Qed.

  (* failures only turn a read into an error *)
  Lemma read_io f i b : fileRead file k (hstart h) ci f i = Some (ROk b) -> truth i = Some (ROk b).
  Proof.
    unfold truth, fileRead. destruct k as [|init final].
    - unfold ReadFileFixed. destruct (Z.ltb _ _); [|discriminate]. destruct (Z.ltb _ _); [|discriminate].
      destruct f; cbn [io_eqb orb]; try discriminate. auto.
    - unfold ReadFileVariable. destruct (Z.ltb _ _); [|discriminate].
      destruct f; cbn [io_eqb]; try discriminate; auto. destruct (fread _ _ _); discriminate.
  Qed.
  Lemma read_io_total f i r : truth i = Some r -> exists r', fileRead file k (hstart h) ci f i = Some r'.
  Proof.
    unfold truth, fileRead. destruct k as [|init final]; [eauto|].
    unfold ReadFileVariable. destruct (Z.ltb _ _); [|eauto].
    destruct f; cbn [io_eqb]; eauto. destruct (fread _ _ _); eauto.
  Qed.
  Lemma truth_nonempty i b : truth i = Some (ROk b) -> b <> [].
  Proof.
    unfold truth, fileRead. pose proof (proj1 HR) as Hi. destruct k as [|init final].
    - unfold ReadFileFixed. destruct (Z.ltb _ _); [|discriminate]. destruct (Z.ltb _ _); [|discriminate]. cbn [io_eqb orb].
      destruct (Z.eqb_spec (celem ci) 0) as [?|Hn]; [discriminate|]. unfold fread.
      destruct (Nat.leb_spec (hstart h + Z.to_nat ((i * celem ci) mod 2 ^ 32) + Z.to_nat (celem ci)) (length file)) as [Hl|]; [|discriminate].
      intros E. injection E as <-. intros E. apply (f_equal (@length Z)) in E. rewrite length_slice in E by exact Hl. change (length (@nil Z)) with 0 in E.
      assert (0 <= celem ci)%Z as Hnn; [|assert (Z.to_nat (celem ci) = 0) as E2 by exact E; clear E; lia]. unfold ci, createCollection. cbn. destruct (Z.eqb (hcount h) 0); [lia|].
      pose proof HR as (_ & Hlen & _ & Hc & _). rewrite Hc, Hlen. apply Z.div_pos; [lia|].
      destruct (Nat.eq_dec (length items) 0) as [E0|]; [|lia].
      exfalso. apply Hn. unfold ci, createCollection. cbn. now rewrite Hc, E0.
    - destruct Hi as (Hin & _). unfold ReadFileVariable. destruct (Z.ltb _ _); [|discriminate]. cbn [io_eqb].
      unfold fread at 1. destruct (Nat.leb_spec (hstart h + Z.to_nat i + init) (length file)) as [Hl|]; [|discriminate].
      destruct (Z.ltb _ _); [discriminate|]. destruct (fread _ _ _) as [rest|]; [|discriminate].
      intros E. injection E as <-. intros E. apply (f_equal (@length Z)) in E.
      rewrite app_length, length_slice in E by lia. cbn in E. lia.
  Qed.

  (* ---- items in memory *)
  Definition infoOK (c : cinfo) (m : nat) : Prop :=
    celem c = celem ci /\ csize c = Z.of_nat (length (concat (firstn m items))) /\
    (celem c <> 0%Z -> ccount c = Z.of_nat m).

  Lemma firstn_concat_split m : R = concat (firstn m items) ++ concat (skipn m items).
  Proof. unfold R. rewrite <- concat_app. now rewrite firstn_skipn. Qed.
  Lemma prefix_len m : length (concat (firstn m items)) <= length R.
  Proof. rewrite (firstn_concat_split m), app_length. lia. Qed.
  Lemma prefix_mono a b : a <= b -> length (concat (firstn a items)) <= length (concat (firstn b items)).
  Proof.
    intros H. rewrite <- (firstn_skipn a (firstn b items)), concat_app, app_length, firstn_firstn.
    replace (Nat.min a b) with a by lia. lia.
  Qed.

  Lemma memory_item c m n it : infoOK c m -> m <= length items -> nth_error items n = Some it ->
    match getMemory c (concat (firstn m items)) (position k items n) with
    | Some acc => firstn (length it) acc = it
    | None => m <= n
    end.
  Proof.
    intros (I1 & I2 & I3) Hm Hn. pose proof elemSize as He. destruct (position_bound _ _ Hn) as (Hp & Hpos & Hb).
    assert (n < length items) as Hlt by (apply nth_error_Some; congruence).
    assert (n < m -> forall p, p = length (concat (firstn n items)) ->
      firstn (length it) (skipn p (concat (firstn m items))) = it) as Hin.
    { intros Hnm p ->. assert (nth_error (firstn m items) n = Some it) as Hn'.
      { rewrite <- Hn. rewrite <- (firstn_skipn m items) at 2. rewrite nth_error_app1; auto. rewrite firstn_length. lia. }
      pose proof (concat_nth _ _ _ Hn') as Hc. rewrite firstn_firstn in Hc. replace (Nat.min n m) with n in Hc by lia.
      rewrite Hc. apply slice_mid. }
    unfold getMemory. rewrite I1. unfold position in *. destruct k as [|init final].
    - destruct He as [(-> & _)|(es & He & Hes & Hall)]; [cbn in Hlt; lia|]. rewrite Hes in *.
      destruct (Z.eqb_spec (Z.of_nat es) 0); [lia|]. rewrite I3 by lia.
      destruct (Z.ltb_spec (Z.of_nat n) (Z.of_nat m)); [|lia]. apply Hin; [lia|].
      rewrite <- Nat2Z.inj_mul, Nat2Z.id. rewrite (concat_fixed_len _ es), firstn_length by (intros; apply Hall; eapply in_firstn; eauto).
      f_equal. lia.
    - rewrite He, Z.eqb_refl. rewrite I2.
      assert (n < m <-> length (concat (firstn n items)) < length (concat (firstn m items))) as Hiff.
      { split; intros H.
        - pose proof (prefix_mono (S n) m H) as Hq. rewrite (firstn_snoc _ _ _ Hn) in Hq.
          rewrite concat_app, app_length in Hq. cbn [concat] in Hq. rewrite app_nil_r in Hq.
          lia.
        - destruct (Nat.lt_ge_cases n m) as [|Hge]; auto. pose proof (prefix_mono m n Hge). lia. }
      destruct (Z.ltb_spec (Z.of_nat (length (concat (firstn n items)))) (Z.of_nat (length (concat (firstn m items))))).
      + apply Hin; [lia|]. now rewrite Nat2Z.id.
      + lia.
  Qed.
End P.
