(* Lemmas for the collection properties *)
From Verif Require Import TreeModel CacheModel CacheSpec CacheRun CacheProps PropertiesCache CollectionModel CollectionSpec CollectionProofs CollectionRun CollectionCreate.

Section O.
  Context (file : list Z) (k : kind) (items : list (list Z)) (h : header) (fuel : nat) (HR : regionOK file k items h).
  Context (capacity conc : Z) (slots : nat).
  Notation ci := (createCollection h).
  Notation cinv := (cinv file k items h fuel capacity conc slots).

  Lemma out_read f i : (0 <= i < 2 ^ 32)%Z -> outOfRange k items i ->
    fileRead file k (hstart h) ci f i = Some (RErr (match k with Fixed => INDEX_RANGE | VarSize _ _ => OFFSET_RANGE end)).
  Proof.
    intros Hi Ho. pose proof HR as (_ & Hl & _ & Hc & _). destruct k as [|init final]; cbn [fileRead outOfRange] in *.
    - unfold ReadFileFixed. change (ccount ci) with (hcount h). rewrite Hc. destruct (Z.ltb_spec i (Z.of_nat (length items))); [lia|reflexivity].
    - unfold ReadFileVariable. change (csize ci) with (hlength h). rewrite Hl. destruct (Z.ltb_spec i (Z.of_nat (length (concat items)))); [lia|reflexivity].
  Qed.
  Lemma out_memory c m i : (0 <= i)%Z -> m <= length items -> infoOK items h c m -> outOfRange k items i ->
    getMemory c (concat (firstn m items)) i = None.
  Proof.
    intros Hi Hm (I1 & I2 & I3) Ho. unfold getMemory. pose proof (elemSize _ _ _ _ HR) as He. pose proof (prefix_len items m) as Hp.
    rewrite I1 in *. destruct (Z.eqb_spec (celem ci) 0) as [E|E].
    - rewrite I2. destruct (Z.ltb_spec i (Z.of_nat (length (concat (firstn m items))))); auto. exfalso.
      destruct k as [|init final]; cbn [outOfRange] in Ho; [|lia].
      destruct He as [(-> & _)|(es & He & Hes & Hall)]; [rewrite firstn_nil in *; cbn in *; lia|lia].
    - rewrite I3 by auto. destruct (Z.ltb_spec i (Z.of_nat m)); auto. exfalso.
      destruct k as [|init final]; cbn [outOfRange] in Ho; [lia|congruence].
  Qed.

  Lemma get_out tr c f i : cinv tr c -> outOfRange k items i -> wellUsed tr c (Get i f) ->
    exists st leak c', cstep file k fuel (Get i f) c = Some (ENull i st leak, c') /\
    (st = Some (rangeCode k) \/ (st = Some OFFSET_RANGE /\ items = []) \/ (st = None /\ hasCache c = true /\ shardFull conc slots tr i)).
  Proof.
    intros Hc Ho Hw. pose proof (out_read f i (proj1 Hw) Ho) as Hrd.
    assert (exists st, fileRead file k (hstart h) ci f i = Some (RErr st) /\ st = rangeCode k) as (st0 & Er & Hst0).
    { rewrite Hrd. destruct k; eauto. }
    assert (forall c, base file k h fuel capacity conc slots tr c -> wellUsed tr c (Get i f) -> exists st leak c', collGet file k fuel c f i = Some (ENull i st leak, c') /\
      (st = Some (rangeCode k) \/ (st = Some OFFSET_RANGE /\ items = []) \/ (st = None /\ hasCache c = true /\ shardFull conc slots tr i))) as HB.
    { intros c1 Hb Hw1. destruct (base_get_total _ _ _ _ _ HR _ _ _ tr c1 f i Hb Hw1) as (e & c' & HG); [eauto|].
      destruct (base_get _ _ _ _ _ HR _ _ _ _ _ _ _ _ _ Hb Hw1 HG) as (_ & _ & HE).
      assert (forall b, truth file k h i = Some (ROk b) -> False) as Tn.
      { intros b T. unfold truth in T. rewrite (out_read IoOk i (proj1 Hw) Ho) in T. discriminate. }
      assert (forall st, fileRead file k (hstart h) ci f i = Some (RErr st) -> Some st = Some (rangeCode k)) as Hst.
      { intros st E. rewrite Er in E. injection E as <-. now rewrite Hst0. }
      destruct (hasCache c1).
      - destruct HE as [(b & s & -> & T)|[(st & s & -> & Es)|(-> & Hf)]]; [destruct (Tn _ T)| |].
        + do 3 eexists. split; [exact HG|]. rewrite (Hst _ Es); auto.
        + do 3 eexists. split; [exact HG|]. auto.
      - destruct HE as [(b & -> & T)|(st & -> & Es)]; [destruct (Tn _ T)|].
        do 3 eexists. split; [exact HG|]. rewrite (Hst _ Es); auto. }
    assert (forall c m, infoOK items h c m -> rangeStatus c = rangeCode k \/ (rangeStatus c = OFFSET_RANGE /\ items = [])) as Hrs.
    { intros c1 m (I1 & _). unfold rangeStatus. rewrite I1. pose proof (elemSize _ _ _ _ HR) as He. unfold rangeCode.
      destruct k as [|init final].
      - destruct He as [(-> & _)|(es & Hes & -> & Hall)].
        + destruct (Z.eqb (celem ci) 0); auto.
        + destruct (Z.eqb_spec (Z.of_nat es) 0); [lia|auto].
      - rewrite He. auto. }
    assert (forall c m, m <= length items -> infoOK items h c m -> getMemory c (concat (firstn m items)) i = None) as HM.
    { intros. apply out_memory; auto. apply Hw. }
    cbn [cstep]. destruct c as [c b|c s|c s cc|c b [n1|]].
    - destruct Hc as (-> & HI). cbn [collGet]. specialize (HM c (length items) (le_n _) HI). rewrite firstn_all in HM. rewrite HM.
      do 3 eexists. split; [reflexivity|]. destruct (Hrs c _ HI) as [-> | (-> & ->)]; auto.
    - apply (HB (File c s)); auto.
    - apply (HB (Cached c s cc)); auto.
    - destruct Hc as (m & Hm & -> & HI & Hb). cbn [collGet]. rewrite (HM c m Hm HI).
      destruct (HB n1 Hb Hw) as (st & lk & n' & -> & G). do 3 eexists. split; [reflexivity|]. exact G.
    - destruct Hc as (-> & HI). cbn [collGet]. specialize (HM c (length items) (le_n _) HI). rewrite firstn_all in HM. rewrite HM.
      do 3 eexists. split; [reflexivity|]. destruct (Hrs c _ HI) as [-> | (-> & ->)]; auto.
  Qed.

  Lemma inside_slice a n : a + n <= length (concat items) -> inside items (slice (concat items) a n).
  Proof.
    intros H. exists (firstn a (concat items)), (skipn n (skipn a (concat items))). unfold slice.
    now rewrite !firstn_skipn.
  Qed.
  Lemma inside_skipn a m : inside items (skipn a (concat (firstn m items))).
  Proof.
    exists (firstn a (concat (firstn m items))), (concat (skipn m items)).
    rewrite app_assoc, firstn_skipn, <- concat_app. now rewrite firstn_skipn.
  Qed.
  Lemma fixed_inside i b : k = Fixed -> (0 <= i)%Z -> truth file k h i = Some (ROk b) -> inside items b.
  Proof.
    intros Ek Hi T. pose proof (elemSize _ _ _ _ HR) as He. pose proof (size_region _ _ _ _ HR) as Hsz.
    pose proof (read_region _ _ _ _ HR) as RR. pose proof HR as (_ & Hl & Hb & Hc & _). rewrite Ek in He, Hc.
    unfold truth in T. rewrite Ek in T. cbn [fileRead] in T. injection T as T. unfold ReadFileFixed in T.
    change (ccount ci) with (hcount h) in T. rewrite Hc in T.
    destruct (Z.ltb_spec i (Z.of_nat (length items))); [|discriminate].
    destruct He as [(-> & E0)|(es & He & Hes & Hall)]; [cbn in *; lia|]. rewrite Hes in T.
    pose proof (concat_fixed_len _ _ Hall) as Hfl.
    rewrite Z.mod_small in T by nia. destruct (Z.ltb _ _); [|discriminate]. cbn [io_eqb orb] in T.
    destruct (Z.eqb_spec (Z.of_nat es) 0); [lia|]. rewrite RR in T by nia. injection T as <-.
    apply inside_slice. nia.
  Qed.

  Lemma get_inside tr c f i acc s c' : cinv tr c -> wellUsed tr c (Get i f) ->
    k = Fixed \/ (exists n it, nth_error items n = Some it /\ i = position k items n) ->
    cstep file k fuel (Get i f) c = Some (EGot i acc s, c') -> inside items acc.
  Proof.
    intros Hc Hw Hk HG.
    assert (forall b, truth file k h i = Some (ROk b) -> inside items b) as HT.
    { intros b T. destruct Hk as [Hk|(n & it & Hn & ->)]; [eapply fixed_inside; eauto; apply Hw|].
      rewrite (truth_item _ _ _ _ HR _ _ Hn) in T. injection T as <-.
      exists (concat (firstn n items)), (concat (skipn (S n) items)). now apply concat_nth. }
    assert (forall c c', base file k h fuel capacity conc slots tr c -> wellUsed tr c (Get i f) -> collGet file k fuel c f i = Some (EGot i acc s, c') -> inside items acc) as HB.
    { intros c1 c1' Hb Hw1 HG1. destruct (base_get _ _ _ _ _ HR _ _ _ _ _ _ _ _ _ Hb Hw1 HG1) as (_ & _ & HE).
      destruct (hasCache c1).
      - destruct HE as [(b & s1 & E & T)|[(st & s1 & E & Es)|(E & Hf)]]; try discriminate. injection E as -> _. auto.
      - destruct HE as [(b & E & T)|(st & E & Es)]; try discriminate. injection E as -> _. auto. }
    assert (forall c m, getMemory c (concat (firstn m items)) i = Some acc -> inside items acc) as HM.
    { intros c1 m. unfold getMemory. destruct (Z.eqb _ _); destruct (Z.ltb _ _); try discriminate; intros E; injection E as <-; apply inside_skipn. }
    cbn [cstep] in HG. destruct c as [c b|c s1|c s1 cc|c b [n1|]].
    - destruct Hc as (-> & HI). cbn [collGet] in HG. destruct (getMemory c (concat items) i) as [acc'|] eqn:E; [|discriminate].
      injection HG as <- _ _. apply (HM c (length items)). now rewrite firstn_all.
    - eapply (HB (File c s1)); eauto.
    - eapply (HB (Cached c s1 cc)); eauto.
    - destruct Hc as (m & Hm & -> & HI & Hb). cbn [collGet] in HG. destruct (getMemory c _ i) as [acc'|] eqn:E.
      + injection HG as <- _ _. eauto.
      + destruct (collGet file k fuel n1 f i) as [(e1, n')|] eqn:En; [|discriminate]. injection HG as -> _. eapply HB; eauto.
    - destruct Hc as (-> & HI). cbn [collGet] in HG. destruct (getMemory c (concat items) i) as [acc'|] eqn:E; [|discriminate].
      injection HG as <- _ _. apply (HM c (length items)). now rewrite firstn_all.
  Qed.
End O.

(* ---- counting *)
Definition inUse (tr : list cev) (s : slot) : nat := holding tr s + leaked tr s.
Definition slot_dec (a b : slot) : {a = b} + {a <> b}.
Proof. decide equality; apply Nat.eq_dec. Defined.
Lemma sum_upd (f g : slot -> nat) s l : NoDup l -> (forall x, x <> s -> g x = f x) ->
  list_sum (map g l) + (if in_dec slot_dec s l then f s else 0)
  = list_sum (map f l) + (if in_dec slot_dec s l then g s else 0).
Proof.
  intros Hd Hg. induction l as [|a l IH]; [reflexivity|]. inversion Hd as [|? ? Hn Hd']; subst. specialize (IH Hd').
  unfold list_sum in *. cbn [map fold_right].
  destruct (in_dec _ s (a :: l)) as [Hi|Hi]; destruct (in_dec _ s l) as [Hi'|Hi'].
  - assert (a <> s) by congruence. rewrite (Hg a) by auto. lia.
  - destruct Hi as [->|]; [|contradiction].
    assert (map g l = map f l) as -> by (apply map_ext_in; intros x Hx; apply Hg; congruence). lia.
  - exfalso. apply Hi. now right.
  - assert (a <> s) by (intros ->; apply Hi; now left). rewrite (Hg a) by auto. lia.
Qed.

Lemma outstanding_sum file k fuel c0 tr c : exec file k fuel c0 tr c ->
  forall l, NoDup l -> list_sum (map (inUse tr) l) <= outstanding tr.
Proof.
  induction 1 as [|tr c o e c' He IH Hw Hs]; intros l Hd.
  - cbn. unfold list_sum. induction l; cbn; auto. inversion Hd; subst. auto.
  - destruct e as [i acc [s|]|i st [s|]|s].
    + pose proof (sum_upd (inUse tr) (inUse (EGot i acc (Some s) :: tr)) s l Hd) as HU.
      cbn [outstanding]. specialize (IH l Hd).
      assert (forall x, x <> s -> inUse (EGot i acc (Some s) :: tr) x = inUse tr x) as Hx.
      { intros x Nx. unfold inUse. cbn [holding leaked]. now rewrite slot_eqb_ne. }
      specialize (HU Hx). assert (inUse (EGot i acc (Some s) :: tr) s = S (inUse tr s)) as Es.
      { unfold inUse. cbn [holding leaked]. rewrite slot_eqb_refl. lia. }
      destruct (in_dec _ s l); lia.
    + exact (IH l Hd).
    + pose proof (sum_upd (inUse tr) (inUse (ENull i st (Some s) :: tr)) s l Hd) as HU.
      cbn [outstanding]. specialize (IH l Hd).
      assert (forall x, x <> s -> inUse (ENull i st (Some s) :: tr) x = inUse tr x) as Hx.
      { intros x Nx. unfold inUse. cbn [holding leaked]. now rewrite slot_eqb_ne. }
      specialize (HU Hx). assert (inUse (ENull i st (Some s) :: tr) s = S (inUse tr s)) as Es.
      { unfold inUse. cbn [holding leaked]. rewrite slot_eqb_refl. lia. }
      destruct (in_dec _ s l); lia.
    + exact (IH l Hd).
    + assert (0 < holding tr s) as Hp.
      { destruct o as [i f|s']; cbn [cstep] in Hs.
        - exfalso. clear -Hs.
          assert (forall c c', collGet file k fuel c f i = Some (ERel s, c') -> False) as HG.
          { fix HG 1. intros c1 c1'. destruct c1 as [c1 b|c1 st|c1 st cc|c1 b [n|]]; cbn [collGet].
            - destruct (getMemory _ _ _); discriminate.
            - unfold getFile. destruct (fileRead _ _ _ _ _ _) as [[]|]; discriminate.
            - unfold getFromCache. destruct (match fileRead _ _ _ _ _ _ with Some r => loaderCache r | None => _ end) as (ok, d).
              destruct (cacheGet _ _ _ _ _) as [((j, o), cc')|]; [|discriminate].
              destruct o as [|n d'|n d'|n d']; try discriminate.
              + destruct d'; discriminate.
              + destruct (fileRead _ _ _ _ _ _); [|discriminate]. destruct d'; discriminate.
              + destruct (fileRead _ _ _ _ _ _) as [[]|]; discriminate.
            - destruct (getMemory _ _ _); [discriminate|]. destruct (collGet file k fuel n f i) as [(e, n')|] eqn:E; [|discriminate].
              intros H. injection H as -> _. exact (HG n n' E).
            - destruct (getMemory _ _ _); discriminate. }
          eapply HG. exact Hs.
        - cbn in Hw. destruct (collRelease c s'); [|discriminate]. injection Hs as -> _. exact Hw. }
      assert (inUse (ERel s :: tr) s = pred (inUse tr s)) as Es.
      { unfold inUse. cbn [holding leaked]. rewrite slot_eqb_refl. lia. }
      assert (forall x, x <> s -> inUse (ERel s :: tr) x = inUse tr x) as Hx.
      { intros x Nx. unfold inUse. cbn [holding leaked]. now rewrite slot_eqb_ne. }
      pose proof (sum_upd _ _ s l Hd Hx) as HU. cbn [outstanding].
      assert (0 < inUse tr s) by (unfold inUse; lia).
      destruct (in_dec _ s l) as [Hi|Hi].
      * specialize (IH l Hd). lia.
      * assert (NoDup (s :: l)) as Hd' by (constructor; auto). specialize (IH _ Hd'). unfold list_sum in *. cbn [map fold_right] in IH. lia.
Qed.

Lemma not_full file k fuel c0 tr c conc slots i : exec file k fuel c0 tr c -> (0 < conc)%Z -> (conc <= Z.of_nat slots)%Z ->
  (Z.of_nat (outstanding tr) < conc)%Z -> ~ shardFull conc slots tr i.
Proof.
  intros He Hc Hs Ho (j & _ & Hf).
  assert (NoDup (map (fun n => (j, n)) (seq 0 slots))) as Hd.
  { apply FinFun.Injective_map_NoDup; [|apply seq_NoDup]. intros x y E. congruence. }
  pose proof (outstanding_sum _ _ _ _ _ _ He _ Hd) as Hle.
  assert (slots <= list_sum (map (inUse tr) (map (fun n => (j, n)) (seq 0 slots)))) as Hge.
  { rewrite <- (seq_length slots 0) at 1. rewrite <- (map_length (fun n => (j, n))). apply sum_pos.
    intros x Hx. apply in_map_iff in Hx. destruct Hx as (n & <- & Hx). apply in_seq in Hx. apply Hf. lia. }
  lia.
Qed.

(* ---- running a list of calls *)
Fixpoint runC (file : list Z) (k : kind) (fuel : nat) (os : list op) (tr : list cev) (c : coll) : option (list cev * coll) :=
  match os with
  | [] => Some (tr, c)
  | o :: os' =>
    if match o with
       | Get i _ => Z.leb 0 i && Z.ltb i (2 ^ 32) && negb (Z.eqb i (2 ^ 31)) && Z.ltb (Z.of_nat (length tr)) INT_MAX
       | Release s => Nat.ltb 0 (holding tr s)
       end
    then match cstep file k fuel o c with Some (e, c') => runC file k fuel os' (e :: tr) c' | None => None end
    else None
  end.
Lemma inUse_length tr s : holding tr s + leaked tr s <= length tr.
Proof.
  induction tr as [|[i acc [s'|]|i st [s'|]|s'] tr IH]; cbn [holding leaked length]; try lia; destruct (slot_eqb s s'); lia.
Qed.
Lemma runC_exec file k fuel c0 os : forall tr c tr' c', exec file k fuel c0 tr c -> runC file k fuel os tr c = Some (tr', c') -> exec file k fuel c0 tr' c'.
Proof.
  induction os as [|o os IH]; intros tr c tr' c' He H; cbn [runC] in H; [now injection H as <- <-|].
  destruct (match o with Get _ _ => _ | Release _ => _ end) eqn:Ew; [|discriminate].
  destruct (cstep file k fuel o c) as [(e, c1)|] eqn:Es; [|discriminate].
  eapply IH; [|exact H]. eapply exec_cons; [exact He| |exact Es]. destruct o as [i f|s]; cbn.
  - rewrite !andb_true_iff, negb_true_iff in Ew. destruct Ew as (((A & B) & C) & D).
    apply Z.leb_le in A. apply Z.ltb_lt in B. apply Z.eqb_neq in C. apply Z.ltb_lt in D. split; [lia|]. intros _. split; auto.
    intros s. pose proof (inUse_length tr s). unfold INT_MAX in *; lia.
  - now apply Nat.ltb_lt.
Qed.
