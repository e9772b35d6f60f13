(* Created collections satisfy the invariant *)
From Verif Require Import TreeModel CacheModel CacheSpec CacheRun CacheProps PropertiesCache CollectionModel CollectionSpec CollectionProofs CollectionRun.

Section C.
  Context (file : list Z) (k : kind) (items : list (list Z)) (h : header) (fuel : nat) (HR : regionOK file k items h).
  Notation ci := (createCollection h).
  Notation L m := (Z.of_nat (length (concat (firstn m items)))).

  Lemma full_info : infoOK items h ci (length items).
  Proof.
    split; [reflexivity|]. rewrite firstn_all. pose proof HR as (_ & Hl & _ & Hc & _). split; [exact Hl|].
    intros Hn. pose proof (elemSize _ _ _ _ HR) as He. cbn [createCollection ccount] in *. rewrite Hc. destruct k; [reflexivity|]. congruence.
  Qed.

  Lemma base_created capacity conc treeMem c :
    (0 <= capacity < 2 ^ 32)%Z -> (0 <= conc < 2 ^ 16)%Z ->
    (forall slots, createShardCapacity capacity conc = Some (Z.of_nat slots) -> shardMemory slots treeMem /\ TreeSpec.bound slots <= fuel) ->
    createSecond treeMem h capacity conc = Some (Some c) ->
    base file k h fuel capacity conc (match createShardCapacity capacity conc with Some z => Z.to_nat z | None => 0 end) [] c.
  Proof.
    intros Hcap Hconc Hm. unfold createSecond.
    destruct (Z.ltb 0 capacity && Z.ltb 0 conc).
    - destruct (cacheCreate treeMem capacity conc []) as [[cc|]|] eqn:E; try discriminate. intros Hc. injection Hc as <-.
      cbn. split; auto. split; auto.
      assert (exists z, createShardCapacity capacity conc = Some z /\ (0 <= z)%Z) as (z & Ez & Hz).
      { unfold cacheCreate in E. destruct (createShardCapacity capacity conc) as [z|] eqn:Ez; [|discriminate].
        exists z. split; auto. unfold createShardCapacity in Ez. destruct (Z.eqb conc 0 || Z.ltb (capacity / conc) conc); [discriminate|].
        injection Ez as <-. apply Z.mod_pos_bound. lia. }
      rewrite Ez. exists cc, []. split; [|split; [constructor|split; [reflexivity|intros ? ? ? []]]].
      assert (createShardCapacity capacity conc = Some (Z.of_nat (Z.to_nat z))) as Ez' by (rewrite Z2Nat.id; auto).
      destruct (Hm _ Ez') as (M1 & M2).
      unfold setup. split; [auto|]. split; [auto|]. split; [auto|]. split; [auto|]. split; [|auto]. exists treeMem, []. auto.
    - intros Hc. injection Hc as <-. cbn. auto.
  Qed.

  Lemma iterate_ok init final : k = VarSize init final -> forall n m, m <= length items ->
    iterateLoaded file k n ci (hstart h) (L m) (Z.of_nat m) (L m) =
      Some (Some (Z.of_nat (Nat.min (m + n) (length items)), L (Nat.min (m + n) (length items)))).
  Proof.
    intros Ek. induction n as [|n IH]; intros m Hm.
    - cbn. now replace (Nat.min (m + 0) (length items)) with m by lia.
    - cbn [iterateLoaded]. pose proof HR as (Hi & Hl & Hb & Hc & _).
      assert (csize ci = Z.of_nat (length (concat items))) as -> by exact Hl.
      destruct (nth_error items m) as [it|] eqn:Em.
      + assert (m < length items) as Hlt by (apply nth_error_Some; congruence).
        pose proof (truth_item _ _ _ _ HR _ _ Em) as T. unfold truth in T. rewrite Ek in T. cbn [position] in T. rewrite <- Ek in T.
        destruct (position_bound _ _ _ _ HR _ _ Em) as (P1 & P2 & P3). rewrite Ek in P1, P3. cbn [position] in P1, P3.
        change (csize ci) with (hlength h) in P3.
        destruct (Z.ltb_spec (L m) (Z.of_nat (length (concat items)))); [|lia].
        rewrite T. pose proof (prefix_len items (S m)) as Hle. rewrite (firstn_snoc _ _ _ Em), concat_app, app_length in Hle.
        cbn [concat] in Hle. rewrite app_nil_r in Hle.
        rewrite Z.mod_small by lia.
        replace (L m + Z.of_nat (length it))%Z with (L (S m)).
        2:{ rewrite (firstn_snoc _ _ _ Em), concat_app, app_length. cbn [concat]. rewrite app_nil_r. lia. }
        replace (Z.of_nat m + 1)%Z with (Z.of_nat (S m)) by lia. rewrite IH by lia.
        now replace (S m + n) with (m + S n) by lia.
      + apply nth_error_None in Em. assert (m = length items) as -> by lia.
        rewrite firstn_all. rewrite Z.ltb_irrefl.
        replace (Nat.min (length items + S n) (length items)) with (length items) by lia. now rewrite firstn_all.
  Qed.

  (* the loaded head is a whole number of items *)
  Lemma loaded_ok loaded : (0 < loaded < 2 ^ 32)%Z ->
    exists count m, calculateLoadedSize file k ci (hstart h) loaded = Some (Some (count, L m)) /\ m <= length items /\
    (celem ci <> 0%Z -> count = Z.of_nat m) /\
    (count = loaded \/ m = length items).
  Proof.
    intros Hl. unfold calculateLoadedSize. pose proof HR as (Hi & Hlen & Hb & Hc & _).
    pose proof (elemSize _ _ _ _ HR) as He. pose proof iterate_ok as IT.
    destruct (Z.eqb_spec (celem ci) 0) as [Hz|Hz]; cbn [negb].
    - destruct (Z.ltb_spec (csize ci) loaded).
      + exists 0%Z, (length items). rewrite firstn_all. split; [|split; [lia|split; [congruence|auto]]].
        f_equal. f_equal. f_equal. exact Hlen.
      + destruct k as [|init final].
        * destruct He as [(-> & _)|(es & He & Hes & _)]; [|lia]. exists 0%Z, 0. cbn in Hlen. cbn in *. lia.
        * pose proof (IT init final eq_refl (Z.to_nat loaded) 0 ltac:(lia)) as HI. cbn [firstn concat length] in HI.
          change (Z.of_nat 0) with 0%Z in HI. rewrite HI. cbn [Nat.add].
          do 2 eexists. split; [reflexivity|]. split; [lia|]. split; [congruence|]. lia.
    - destruct k as [|init final]; [|congruence].
      destruct He as [(-> & H0)|(es & He & Hes & Hall)]; [congruence|].
      assert (ccount ci = Z.of_nat (length items)) as -> by exact Hc.
      pose proof (concat_fixed_len _ _ Hall) as Hfl.
      assert (exists m, m <= length items /\ (if Z.ltb (Z.of_nat (length items)) loaded then Z.of_nat (length items) else loaded) = Z.of_nat m /\
        (Z.of_nat m = loaded \/ m = length items)) as (m & Hm & -> & Hor).
      { destruct (Z.ltb_spec (Z.of_nat (length items)) loaded); [exists (length items)|exists (Z.to_nat loaded)]; lia. }
      exists (Z.of_nat m), m. split; [|auto]. f_equal. f_equal. f_equal.
      rewrite Hes. rewrite (concat_fixed_len (firstn m items) es), firstn_length by (intros; apply Hall; eapply in_firstn; eauto).
      replace (Nat.min m (length items)) with m by lia. rewrite Nat2Z.inj_mul. apply Z.mod_small. nia.
  Qed.

  Lemma created_cinv treeMem cfg c : configOK treeMem fuel cfg -> created file k treeMem h cfg c ->
    cinv file k items h fuel (capOf cfg) (concOf cfg) (slotsOf cfg) [] c.
  Proof.
    intros HC Hcr. pose proof HR as (Hi & Hl & Hb & Hc & Hf & Hs). destruct cfg as [|loaded capacity conc].
    - cbn [created] in Hcr. unfold CreateFromMemory in Hcr. cbv zeta in Hcr. destruct (Z.leb _ _); [|discriminate].
      pose proof full_info as (F1 & F2 & F3).
      assert (firstn (Z.to_nat (hlength h)) (skipn (hstart h) file) = concat items) as Eb by (rewrite Hl, Nat2Z.id; exact Hs).
      destruct (Z.eqb_spec (celem ci) 0) as [E|E]; injection Hcr as <-; (split; [exact Eb|]); [repeat split; auto|].
      split; [reflexivity|]. split; [exact F2|]. intros _. cbn [ccount].
      change (csize ci / celem ci = Z.of_nat (length items))%Z. rewrite F2, firstn_all. pose proof (elemSize _ _ _ _ HR) as He. destruct k as [|init final]; [|congruence].
      destruct He as [(-> & _)|(es & He & Hes & Hall)].
      + exfalso. apply E. cbn. now rewrite Hc.
      + rewrite Hes, (concat_fixed_len _ _ Hall), Nat2Z.inj_mul, Z.div_mul; lia.
    - destruct HC as (H1 & H2 & H3 & H4). cbn [created] in Hcr. unfold CreateFromFile in Hcr.
      cbn [capOf concOf]. unfold slotsOf. cbn [capOf concOf].
      destruct (Z.ltb_spec 0 loaded).
      + destruct (loaded_ok loaded ltac:(lia)) as (count & m & E & Hm & Hcm & Hor). rewrite E in Hcr.
        destruct (fread file (hstart h) (Z.to_nat (L m))) as [block|] eqn:Eb; [|discriminate].
        assert (block = concat (firstn m items)) as Hblk.
        { rewrite Nat2Z.id in Eb. replace (hstart h) with (hstart h + 0) in Eb by lia.
          rewrite (read_region _ _ _ _ HR) in Eb by (pose proof (prefix_len items m); lia). injection Eb as <-.
          rewrite (firstn_concat_split items m). unfold slice. cbn. now rewrite firstn_app, firstn_all, Nat.sub_diag, app_nil_r. }
        assert (infoOK items h (mkC count (celem ci) (L m)) m) as HI by (repeat split; auto).
        pose proof (prefix_len items m) as Hpl.
        assert ((csize ci - L m) mod 2 ^ 32 = csize ci - L m)%Z as Hmod.
        { apply Z.mod_small. change (csize ci) with (hlength h). lia. }
        rewrite Hmod in Hcr.
        destruct (Z.eqb_spec count loaded) as [E1|E1]; cbn [andb] in Hcr.
        * destruct (Z.ltb_spec (L m) (L m + (csize ci - L m))).
          -- destruct (createSecond treeMem h capacity conc) as [[n|]|] eqn:En; try discriminate. injection Hcr as <-. cbn [cinv].
             exists m. split; auto. split; auto. split; auto. eapply base_created; eauto.
          -- injection Hcr as <-. cbn [cinv]. change (csize ci) with (hlength h) in *.
             assert (L m = Z.of_nat (length (concat items)))%Z as EL by lia.
             assert (m = length items) as ->.
             { destruct (nth_error items m) as [it|] eqn:Em.
               - destruct (position_bound _ _ _ _ HR _ _ Em) as (_ & P2 & _). pose proof (concat_nth _ _ _ Em) as Hcc.
                 apply (f_equal (@length Z)) in Hcc. rewrite !app_length in Hcc. lia.
               - apply nth_error_None in Em. lia. }
             rewrite firstn_all in *. auto.
        * injection Hcr as <-. cbn [cinv]. destruct Hor as [->| ->]; [congruence|]. rewrite firstn_all in *. auto.
      + pose proof (base_created capacity conc treeMem c H2 H3 H4 Hcr) as HB. destruct c; try contradiction; exact HB.
  Qed.

  Lemma create_total treeMem cfg : configOK treeMem fuel cfg ->
    (0 < capOf cfg -> 0 < concOf cfg -> concOf cfg * concOf cfg <= capOf cfg /\
       (capOf cfg mod concOf cfg + capOf cfg / concOf cfg) * concOf cfg < 2 ^ 31)%Z ->
    exists c, created file k treeMem h cfg c.
  Proof.
    intros HC Hk. pose proof HR as (Hi & Hl & Hb & Hc & Hf & Hs). destruct cfg as [|loaded capacity conc].
    - cbn. unfold CreateFromMemory. rewrite skipn_length, Hl. destruct (Z.leb_spec (Z.of_nat (length (concat items))) (Z.of_nat (length file - hstart h))); [|lia]. eauto.
    - cbn [capOf concOf created] in *. destruct HC as (H1 & H2 & H3 & H4).
      assert (exists n, createSecond treeMem h capacity conc = Some (Some n)) as (n & En).
      { unfold createSecond. destruct (Z.ltb_spec 0 capacity) as [Q1|]; cbn [andb]; [|eauto].
        destruct (Z.ltb_spec 0 conc) as [Q2|]; [|eauto]. destruct (Hk Q1 Q2) as (K1 & K2).
        assert (conc <= capacity / conc)%Z as Hd by (apply Z.div_le_lower_bound; lia).
        destruct (create_ok capacity conc H2 ltac:(lia) Hd K2) as (C1 & C2).
        assert (0 <= capacity mod conc + capacity / conc)%Z as Hnn by (pose proof (Z.mod_pos_bound capacity conc); lia).
        destruct (H4 (Z.to_nat (capacity mod conc + capacity / conc))) as (M1 & M2); [rewrite Z2Nat.id; auto|].
        destruct (initShards_ok _ treeMem (@nil Z) M1 (Z.to_nat conc)) as (l & L1 & _).
        unfold cacheCreate. rewrite C1, C2. rewrite Z.ltb_irrefl, L1. eauto. }
      unfold CreateFromFile. destruct (Z.ltb_spec 0 loaded); [|eauto].
      destruct (loaded_ok loaded ltac:(lia)) as (count & m & E & Hm & _). rewrite E.
      pose proof (prefix_len items m) as Hpl.
      assert (exists b, fread file (hstart h) (Z.to_nat (L m)) = Some b) as (b & ->).
      { rewrite Nat2Z.id. unfold fread. destruct (Nat.leb_spec (hstart h + length (concat (firstn m items))) (length file)); [eauto|lia]. }
      destruct (Z.eqb count loaded && Z.ltb (L m) (L m + (csize ci - L m) mod 2 ^ 32)); [rewrite En|]; eauto.
  Qed.
End C.
