(* The invariant of a collection under gets and releases *)
From Verif Require Import TreeModel CacheModel CacheSpec CacheRun CacheProps PropertiesCache CollectionModel CollectionSpec CollectionProofs.

Section R.
  Context (file : list Z) (k : kind) (items : list (list Z)) (h : header) (fuel : nat) (HR : regionOK file k items h).
  Context (capacity conc : Z) (slots : nat).
  Notation ci := (createCollection h).
  Notation truth := (truth file k h).
  Notation hash := (fun z : Z => z).

  Definition cacheInv (tr : list cev) (cc : cache (list Z)) : Prop :=
    exists c0 ctr, setup capacity conc slots hash fuel c0 /\ CacheSpec.exec hash fuel c0 ctr cc /\
    (forall s, held ctr s = holding tr s + leaked tr s) /\
    (forall key s d, In (Load key s true d) ctr -> exists i, (0 <= i < 2 ^ 32)%Z /\ key = toInt32 i /\ truth i = Some (ROk d)).

  Notation shardFull := (shardFull conc slots).

  Definition evOK (tr : list cev) (f : io) (i : Z) (e : cev) : Prop :=
    (exists b s, e = EGot i b (Some s) /\ truth i = Some (ROk b)) \/
    (exists st s, e = ENull i (Some st) (Some s) /\ fileRead file k (hstart h) ci f i = Some (RErr st)) \/
    (e = ENull i None None /\ shardFull tr i).



  Lemma cached_get tr cc f i : cacheInv tr cc -> (0 <= i < 2 ^ 32)%Z -> i <> (2 ^ 31)%Z ->
    (forall s, (Z.of_nat (holding tr s + leaked tr s) < INT_MAX)%Z) ->
    (forall e cc', getFromCache file k fuel ci (hstart h) cc f i = Some (e, cc') -> cacheInv (e :: tr) cc' /\ evOK tr f i e) /\
    ((exists r, fileRead file k (hstart h) ci f i = Some r) ->
      exists e cc', getFromCache file k fuel ci (hstart h) cc f i = Some (e, cc')).
  Proof.
    intros (c0 & ctr & HS & He & Hh & Ht) Hi Hn Hm.
    unfold getFromCache.
    set (rr := fileRead file k (hstart h) ci f i).
    destruct (match rr with Some r => loaderCache r | None => (false, []) end) as (ok, d) eqn:Er.
    assert (CacheSpec.wellUsed (D := list Z) hash ctr (CacheSpec.Get (toInt32 i) ok d)) as Hw.
    { split; [rewrite toInt32_id|].
      - now rewrite toInt32_min.
      - intros s. now rewrite Hh. }
    destruct (cache_get_returns_loaded_data _ _ _ _ _ _ _ _ _ _ _ _ HS He Hw) as (e & cc' & Hr & HE).
    destruct (cache_refuses_iff_shard_fully_held _ _ _ _ _ _ _ _ _ _ _ _ HS He Hw) as (e2 & cc2 & j2 & Hr2 & Hks & Hrf & _).
    rewrite Hr in Hr2. injection Hr2 as <- <-.
    assert (CacheSpec.exec hash fuel c0 (e :: ctr) cc') as He'.
    { eapply CacheSpec.exec_cons; eauto. }
    cbn [runCop] in Hr.
    destruct (cacheGet fuel (toInt32 i) ok d cc) as [((j, o), cc3)|]; [|discriminate].
    injection Hr as <- ->.
    assert (forall b, rr = Some (ROk b) -> ok = true /\ d = b) as Hok.
    { intros b E. rewrite E in Er. cbn in Er. injection Er as <- <-. auto. }
    assert (forall b, rr = Some (ROk b) -> truth i = Some (ROk b)) as Htr by (intros b E; eapply read_io; eauto).
    assert (forall st, rr = Some (RErr st) -> ok = false /\ d = []) as Hko.
    { intros st E. rewrite E in Er. cbn in Er. injection Er as <- <-. auto. }
    assert (rr = None -> ok = false /\ d = []) as Hno.
    { intros E. rewrite E in Er. injection Er as <- <-. auto. }
    (* data of a hit *)
    assert (forall s d', lastLoad ctr (toInt32 i) = Some (s, d') -> truth i = Some (ROk d')) as Hlast.
    { intros s d' E. apply lastLoad_in in E. destruct (Ht _ _ _ E) as (i' & Hi' & Ek & T).
      apply toInt32_inj in Ek; auto. now subst i'. }
    assert (forall s d', eventOf (toInt32 i) j o = Hit (toInt32 i) s d' -> truth i = Some (ROk d')) as Hhit.
    { intros s d' E. destruct HE as [(s1 & E1)|[(s1 & d1 & E1 & L & _)|E1]]; try congruence.
      rewrite E in E1. injection E1 as <- <-. eauto. }
    assert (forall e', (forall s, held (eventOf (toInt32 i) j o :: ctr) s = holding (e' :: tr) s + leaked (e' :: tr) s) ->
       (forall s d', eventOf (toInt32 i) j o = Load (toInt32 i) s true d' -> truth i = Some (ROk d')) ->
       cacheInv (e' :: tr) cc') as Hinv.
    { intros e' H1 H2. exists c0, (eventOf (toInt32 i) j o :: ctr). split; auto. split; auto. split; auto.
      intros key s d' [E|E]; [|eauto]. exists i. split; auto.
      destruct HE as [(s1 & E1)|[(s1 & d1 & E1 & _)|E1]]; try congruence.
      assert (key = toInt32 i) as -> by congruence. split; auto. eapply H2. exact E. }
    split.
    - intros e cc'' HG. destruct o as [|n d'|n d'|n d']; cbn [eventOf] in *.
      + injection HG as <- <-. split; [apply Hinv; [|discriminate]|].
        * intros s. cbn [held holding leaked]. auto.
        * right. right. split; auto. exists j2. split; [exact Hks|]. intros n Hl. rewrite <- Hh. apply Hrf; auto.
      + assert (truth i = Some (ROk d')) as T by (eapply Hhit; reflexivity).
        pose proof (truth_nonempty _ _ _ _ HR _ _ T) as Hne.
        destruct d' as [|b d']; [congruence|]. injection HG as <- <-. split.
        * apply Hinv; [|discriminate]. intros s. cbn [held holding leaked]. rewrite Hh. destruct (slot_eqb s (j, n)); lia.
        * left. eauto.
      + destruct rr as [r|] eqn:Err; [|discriminate].
        assert (truth i = Some (ROk d')) as T.
        { destruct HE as [(s1 & E1)|[(s1 & d1 & E1 & _)|E1]]; try discriminate. injection E1 as _ Eok Ed. subst ok d'.
          destruct r as [b|st].
          - destruct (Hok b eq_refl) as (_ & ->). auto.
          - destruct (Hko st eq_refl). discriminate. }
        pose proof (truth_nonempty _ _ _ _ HR _ _ T) as Hne.
        destruct d' as [|b d']; [congruence|]. injection HG as <- <-. split.
        * apply Hinv; [|intros s d1 E; injection E as _ <-; auto].
          intros s. cbn [held holding leaked]. rewrite Hh. destruct (slot_eqb s (j, n)); lia.
        * left. eauto.
      + destruct rr as [[b|st]|] eqn:Err; try discriminate. injection HG as <- <-. split.
        * apply Hinv; [|discriminate]. intros s. cbn [held holding leaked]. rewrite Hh. destruct (slot_eqb s (j, n)); lia.
        * right. left. eauto.
    - intros (r & Er2). fold rr in Er2. rewrite Er2 in *.
      destruct o as [|n d'|n d'|n d']; [eauto|eauto|eauto|].
      destruct r as [b|st]; [|eauto]. exfalso. destruct (Hok b eq_refl) as (-> & ->).
      destruct HE as [(s1 & E1)|[(s1 & d1 & E1 & _)|E1]]; try discriminate.
  Qed.

  Definition base (tr : list cev) (c : coll) : Prop :=
    match c with
    | File c s => c = ci /\ s = hstart h
    | Cached c s cc => c = ci /\ s = hstart h /\ cacheInv tr cc
    | _ => False
    end.
  Definition cinv (tr : list cev) (c : coll) : Prop :=
    match c with
    | Mem c b | Partial c b None => b = concat items /\ infoOK items h c (length items)
    | Partial c b (Some n) => exists m, m <= length items /\ b = concat (firstn m items) /\ infoOK items h c m /\ base tr n
    | c => base tr c
    end.

  Lemma base_get tr c f i e c' : base tr c -> wellUsed tr c (Get i f) -> collGet file k fuel c f i = Some (e, c') ->
    base (e :: tr) c' /\ hasCache c' = hasCache c /\
    (if hasCache c then evOK tr f i e
     else (exists b, e = EGot i b None /\ truth i = Some (ROk b)) \/
          (exists st, e = ENull i (Some st) None /\ fileRead file k (hstart h) ci f i = Some (RErr st))).
  Proof.
    intros Hb (Hi & Hw) HG. destruct c as [c b|c s|c s cc|c b n]; cbn [base hasCache] in *; try contradiction.
    - destruct Hb as (-> & ->). cbn [collGet] in HG. unfold getFile in HG.
      destruct (fileRead file k (hstart h) ci f i) as [[b|st]|] eqn:E; try discriminate; injection HG as <- <-.
      + split; [cbn; auto|]. split; auto. left. exists b. split; auto. eapply read_io; eauto.
      + split; [cbn; auto|]. split; auto. right. eauto.
    - destruct Hb as (-> & -> & Hc). destruct (Hw eq_refl) as (Hn & Hm). cbn [collGet] in HG.
      destruct (cached_get _ _ f i Hc Hi Hn Hm) as (G1 & _).
      destruct (getFromCache file k fuel ci (hstart h) cc f i) as [(e1, cc')|]; [|discriminate]. injection HG as <- <-.
      destruct (G1 _ _ eq_refl). cbn. auto.
  Qed.
  Lemma base_get_total tr c f i : base tr c -> wellUsed tr c (Get i f) ->
    (exists r, fileRead file k (hstart h) ci f i = Some r) -> exists e c', collGet file k fuel c f i = Some (e, c').
  Proof.
    intros Hb (Hi & Hw) Hr. destruct c as [c b|c s|c s cc|c b n]; cbn [base hasCache] in *; try contradiction.
    - destruct Hb as (-> & ->). cbn [collGet]. unfold getFile. destruct Hr as ([b|st] & ->); eauto.
    - destruct Hb as (-> & -> & Hc). destruct (Hw eq_refl) as (Hn & Hm). cbn [collGet].
      destruct (cached_get _ _ f i Hc Hi Hn Hm) as (_ & G). destruct (G Hr) as (e & cc' & ->). eauto.
  Qed.
  Lemma base_rel tr c s c' : base tr c -> 0 < holding tr s -> collRelease c s = Some c' ->
    base (ERel s :: tr) c' /\ hasCache c' = hasCache c.
  Proof.
    intros Hb Hp HG. destruct c as [c b|c s'|c s' cc|c b n]; cbn [base] in *; try contradiction; [discriminate|].
    destruct Hb as (-> & -> & (c0 & ctr & HS & He & Hh & Ht)). cbn [collRelease] in HG.
    destruct (cacheRelease (fst s) (snd s) cc) as [cc'|] eqn:E; [|discriminate]. injection HG as <-.
    split; [|reflexivity]. cbn. split; auto. split; auto. exists c0, (Rel s :: ctr). split; auto. split; [|split].
    - eapply (CacheSpec.exec_cons hash fuel c0 ctr cc (CacheSpec.Release s)); [exact He|cbn; rewrite Hh; lia|].
      destruct s as (j, n). cbn in *. now rewrite E.
    - intros s1. cbn [held holding leaked]. rewrite Hh. destruct (slot_eqb_spec s1 s) as [->|]; lia.
    - intros key s1 d [E1|E1]; [discriminate|eauto].
  Qed.

  Lemma wellUsed_next tr ci0 b n f i : wellUsed tr (Partial ci0 b (Some n)) (Get i f) -> wellUsed tr n (Get i f).
  Proof. exact (fun H => H). Qed.

  Definition plain (c : coll) : coll := match c with Partial _ _ (Some n) => n | c => c end.

  Lemma base_nocache e tr c : base tr c -> hasCache c = false -> base (e :: tr) c.
  Proof. destruct c; cbn; auto. discriminate. Qed.

  Lemma base_got_none tr c i acc : base tr c -> base (EGot i acc None :: tr) c.
  Proof. destruct c; cbn; auto. Qed.

  Lemma cinv_step tr c o e c' : cinv tr c -> wellUsed tr c o -> cstep file k fuel o c = Some (e, c') ->
    cinv (e :: tr) c' /\ hasCache c' = hasCache c.
  Proof.
    intros Hc Hw Hs. destruct o as [i f|s]; cbn [cstep] in Hs.
    - destruct c as [c b|c s|c s cc|c b [n|]].
      + cbn [collGet] in Hs. destruct (getMemory c b i); injection Hs as <- <-; split; auto; exact Hc.
      + destruct (base_get tr (File c s) f i e c' Hc Hw Hs) as (A & B & _). split; auto. destruct c'; auto; contradiction.
      + destruct (base_get tr (Cached c s cc) f i e c' Hc Hw Hs) as (A & B & _). split; auto. destruct c'; auto; contradiction.
      + destruct Hc as (m & Hm & Eb & HI & Hb). cbn [collGet] in Hs. destruct (getMemory c b i) eqn:Eg.
        * injection Hs as <- <-. split; auto. cbn. exists m. auto using base_got_none.
        * destruct (collGet file k fuel n f i) as [(e1, n')|] eqn:En; [|discriminate]. injection Hs as <- <-.
          destruct (base_get tr n f i e1 n' Hb Hw En) as (A & B & _). split; auto. cbn. exists m. auto.
      + cbn [collGet] in Hs. destruct (getMemory c b i); injection Hs as <- <-; split; auto; exact Hc.
    - cbn in Hw. destruct (collRelease c s) as [c1|] eqn:Er; [|discriminate]. injection Hs as <- <-.
      destruct c as [c b|c s'|c s' cc|c b [n|]]; try discriminate.
      + destruct (base_rel tr (Cached c s' cc) s c1 Hc Hw Er) as (A & B). split; auto. destruct c1; auto; contradiction.
      + destruct Hc as (m & Hm & Eb & HI & Hb). cbn [collRelease] in Er.
        destruct (collRelease n s) as [n'|] eqn:En; [|discriminate]. injection Er as <-.
        destruct (base_rel tr n s n' Hb Hw En) as (A & B). split; auto. cbn. exists m. auto.
  Qed.

  Lemma exec_cinv c0 tr c : cinv [] c0 -> exec file k fuel c0 tr c -> cinv tr c /\ hasCache c = hasCache c0.
  Proof.
    intros H0 He. induction He as [|tr c o e c' He (IH1 & IH2) Hw Hs]; [auto|].
    destruct (cinv_step _ _ _ _ _ IH1 Hw Hs). split; auto. congruence.
  Qed.

  (* the n-th item *)
  Lemma get_item tr c f n it : cinv tr c -> nth_error items n = Some it ->
    wellUsed tr c (Get (position k items n) f) ->
    exists e c', cstep file k fuel (Get (position k items n) f) c = Some (e, c') /\
    (forall acc s, e = EGot (position k items n) acc s -> firstn (length it) acc = it) /\
    (f = IoOk -> (exists acc s, e = EGot (position k items n) acc s) \/
       (e = ENull (position k items n) None None /\ hasCache c = true /\ shardFull tr (position k items n))).
  Proof.
    intros Hc Hn Hw. set (i := position k items n) in *. pose proof (truth_item _ _ _ _ HR _ _ Hn) as T. fold i in T.
    assert (forall m c b, m <= length items -> b = concat (firstn m items) -> infoOK items h c m ->
      match getMemory c b i with Some acc => firstn (length it) acc = it | None => m <= n end) as HM.
    { intros m c1 b Hm -> HI. eapply (memory_item file); eauto. }
    assert (n < length items) as Hlt by (apply nth_error_Some; congruence).
    assert (forall c, base tr c -> wellUsed tr c (Get i f) -> exists e c', collGet file k fuel c f i = Some (e, c') /\
      (forall acc s, e = EGot i acc s -> firstn (length it) acc = it) /\
      (f = IoOk -> (exists acc s, e = EGot i acc s) \/ (e = ENull i None None /\ hasCache c = true /\ shardFull tr i))) as HB.
    { intros c1 Hb Hw1. destruct (base_get_total tr c1 f i Hb Hw1) as (e & c' & HG).
      { eapply read_io_total; eauto. }
      exists e, c'. split; auto. destruct (base_get _ _ _ _ _ _ Hb Hw1 HG) as (_ & _ & HE).
      assert (forall b, truth i = Some (ROk b) -> b = it) as Tu by (intros b; rewrite T; congruence).
      assert (forall st, fileRead file k (hstart h) ci IoOk i = Some (RErr st) -> False) as Te.
      { intros st E. unfold CollectionProofs.truth in T. congruence. }
      destruct (hasCache c1).
      - destruct HE as [(b & s & -> & Eb)|[(st & s & -> & Es)|(-> & Hf)]].
        + apply Tu in Eb. subst b. split; [intros acc s' E; injection E as <- _; apply firstn_all|eauto].
        + split; [discriminate|]. intros ->. exfalso. eauto.
        + split; [discriminate|]. auto.
      - destruct HE as [(b & -> & Eb)|(st & -> & Es)].
        + apply Tu in Eb. subst b. split; [intros acc s' E; injection E as <- _; apply firstn_all|eauto].
        + split; [discriminate|]. intros ->. exfalso. eauto. }
    cbn [cstep]. destruct c as [c b|c s|c s cc|c b [n1|]].
    - destruct Hc as (Eb & HI). specialize (HM (length items) c b (le_n _)). rewrite firstn_all in HM. specialize (HM Eb HI).
      cbn [collGet]. destruct (getMemory c b i) as [acc|]; [|lia]. do 2 eexists. split; [reflexivity|].
      split; [intros acc' s E; injection E as <- _; auto|eauto].
    - apply (HB (File c s)); auto.
    - apply (HB (Cached c s cc)); auto.
    - destruct Hc as (m & Hm & Eb & HI & Hb). specialize (HM m c b Hm Eb HI). cbn [collGet].
      destruct (getMemory c b i) as [acc|].
      + do 2 eexists. split; [reflexivity|]. split; [intros acc' s E; injection E as <- _; auto|eauto].
      + destruct (HB n1 Hb Hw) as (e & n' & -> & G). eauto.
    - destruct Hc as (Eb & HI). specialize (HM (length items) c b (le_n _)). rewrite firstn_all in HM. specialize (HM Eb HI).
      cbn [collGet]. destruct (getMemory c b i) as [acc|]; [|lia]. do 2 eexists. split; [reflexivity|].
      split; [intros acc' s E; injection E as <- _; auto|eauto].
  Qed.
End R.
