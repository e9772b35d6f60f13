(* C109 - C112: data sets read from the bytes of a file (collection.c, string.c,
   property.c, value.c, profile.c together) *)
From Verif Require Import TreeModel CacheModel CollectionModel CollectionSpec CollectionProofs CollectionRun CollectionCreate CollectionProps PropertiesCollection ProfileModel ProfileSpec ProfileProofs PropertiesProfile.
From Verif Require Import DbModel DbSpec DbProofs DbFound.
Local Open Scope Z_scope.

(* C109: the header of a collection describes what is stored after it *)
Theorem header_describes : forall file pos k elementSize isCount items,
  storedAt file pos isCount items -> small items -> sizesOK k items elementSize isCount ->
  exists h, HeaderFrom file pos elementSize isCount = Some h /\ regionOK file k items h /\ hstart h = (pos + 4)%nat.
Proof. exact region. Qed.
Print Assumptions header_describes.
(* the count is that of the items stored, in every configuration and at all times *)
Theorem collection_count : forall file pos elementSize isCount items u tr c,
  storedAt file pos isCount items -> small items -> sizesOK Fixed items elementSize isCount -> opened file Fixed pos elementSize isCount u ->
  exec file Fixed (ufuel u) (ucoll u) tr c -> CollectionGetCount c = Z.of_nat (length items).
Proof. exact count_stored. Qed.
Print Assumptions collection_count.
(* C109 refuted: nothing is done about a file that ends before the header, a collection
   behind the first 4 gigabytes, or a count that is too large: the length wraps and what
   is a collection of items of 8 bytes is read as one of items of any size *)
Theorem header_end_refuted : forall file pos elementSize isCount, (length file < pos + 4)%nat -> HeaderFrom file pos elementSize isCount = None.
Proof.
  intros file pos es isCount L. unfold HeaderFrom, member, ComponentModel.member. pose proof (skipn_length pos file) as X. set (l := skipn pos file) in *. clearbody l.
  destruct l as [|a [|b [|c [|e l]]]]; try reflexivity. cbn [length] in X. lia.
Qed.
Print Assumptions header_end_refuted.
Theorem header_position_refuted : forall file pos elementSize isCount h, 2 ^ 32 <= Z.of_nat pos + 4 -> HeaderFrom file pos elementSize isCount = Some h -> hstart h <> (pos + 4)%nat.
Proof.
  intros file pos es isCount h L E. unfold HeaderFrom in E. destruct (member pos 4 file) as [n|]; [|discriminate]. cbn [option_map] in E.
  assert (hstart h = Z.to_nat (Z.of_nat (pos + 4) mod 2 ^ 32)) as ->.
  { set (s := Z.to_nat (Z.of_nat (pos + 4) mod 2 ^ 32)) in *. clearbody s. injection E as <-. unfold headerFrom. now destruct isCount. }
  intros X. pose proof (Z.mod_pos_bound (Z.of_nat (pos + 4)) (2 ^ 32) ltac:(lia)) as B. apply (f_equal Z.of_nat) in X. rewrite Z2Nat.id in X by lia. lia.
Qed.
Print Assumptions header_position_refuted.
Definition wrapFile : list Z := enc 4 (2 ^ 29 + 1) ++ [1; 2; 3; 4; 5; 6; 7; 8].
Theorem header_count_refuted : exists h c, HeaderFrom wrapFile 0 sizeofOffset true = Some h /\ hcount h * sizeofOffset > Z.of_nat (length wrapFile) /\
  created wrapFile Fixed exMem h InMemory c /\ CollectionGetCount c = 2 ^ 29 + 1 /\ cstep wrapFile Fixed 20 (Get 3 IoOk) c = Some (EGot 3 [4; 5; 6; 7; 8] None, c).
Proof.
  exists (mkHd 4 8 (2 ^ 29 + 1)), (Mem (mkC (2 ^ 29 + 1) 0 8) [1; 2; 3; 4; 5; 6; 7; 8]). split; [vm_compute; reflexivity|]. split; [vm_compute; reflexivity|].
  split; [vm_compute; reflexivity|]. split; vm_compute; reflexivity.
Qed.
Print Assumptions header_count_refuted.

(* C110: what is read from the file is what is stored in it, in every configuration and
   at all times *)
Theorem db_strings : forall file w d u n s r, dbOK d -> stored file w d -> allOpened file w u ->
  nth_error (texts d) n = Some s -> answers file stringKind (tuse u) textOf (textAt d n) r -> r = (Some s, true).
Proof. intros file w d u n s r D St Op. apply (text_answer file w d u D St Op). Qed.
Print Assumptions db_strings.
Theorem db_property : forall file w d u getString n p r, dbOK d -> stored file w d -> allOpened file w u ->
  (forall n, (n < length (texts d))%nat -> answers file stringKind (tuse u) textOf (textAt d n) (getString (textAt d n))) ->
  nth_error (props d) n = Some p -> answers file Fixed (puse u) (@Some (list Z)) (Z.of_nat n) r ->
  exists bytes, r = (Some bytes, true) /\
    PropertyGetName getString bytes = Some (nth_error (texts d) (pname p), true) /\ PropertyGetDescription getString bytes = Some (nth_error (texts d) (pdesc p), true) /\
    PropertyGetCategory getString bytes = Some (nth_error (texts d) (pcat p), true) /\ PropertyGetUrl getString bytes = Some (nth_error (texts d) (purl p), true) /\
    firstValue bytes = Some (pfirst p) /\ lastValue bytes = Some (plast p) /\ defaultValueIndex bytes = Some (pdefault p) /\
    forall getProperty, getProperty (Z.of_nat n) = r -> PropertyGetValueType getProperty (Z.of_nat n) = Some (ptype p, true, [Got Properties (Z.of_nat n); Released Properties Properties (Z.of_nat n)]).
Proof.
  intros file w d u getString n p r D St Op Gs N A.
  assert (T : forall m, (m < length (texts d))%nat -> getString (textAt d m) = (nth_error (texts d) m, true)).
  { intros m L. destruct (nth_error (texts d) m) as [s|] eqn:E; [exact (text_answer file w d u D St Op m s _ E (Gs m L))|]. apply nth_error_None in E. lia. }
  destruct (prop_answer file w d u D St Op (@Some (list Z)) (fun b => exists rest, b = encProp d p ++ rest) n p r N A) as (b & -> & (rest & ->)); [eauto|].
  pose proof (prop_in d D n p N) as Po. destruct (prop_members d p rest D Po) as (E1 & E2 & E3 & E4 & E5 & E6 & E7 & E8). destruct Po as (_ & _ & _ & _ & _ & L1 & L2 & L3 & L4).
  exists (encProp d p ++ rest). unfold PropertyGetName, PropertyGetDescription, PropertyGetCategory, PropertyGetUrl. rewrite E2, E3, E4, E5. cbn [option_map]. rewrite !T by assumption.
  do 8 (split; [first [reflexivity|assumption]|]). intros gp G. unfold PropertyGetValueType. rewrite G, E1. reflexivity.
Qed.
Print Assumptions db_property.
(* without the property the type is 0, and the exception as it is *)
Theorem value_type_missing : forall getProperty index, fst (getProperty index) = None \/ snd (getProperty index) = false ->
  exists t, PropertyGetValueType getProperty index = Some (0, snd (getProperty index), t).
Proof. intros getProperty index H. unfold PropertyGetValueType. destruct (getProperty index) as ([b|] & [|]); cbn in *; [destruct H; discriminate|eauto..]. Qed.
Print Assumptions value_type_missing.
Example value_type_missing_case : PropertyGetValueType (fun _ => (None, false)) 4 = Some (0, false, []).
Proof. reflexivity. Qed.
Theorem db_value : forall file w d u getString n v r, dbOK d -> stored file w d -> allOpened file w u ->
  (forall n, (n < length (texts d))%nat -> answers file stringKind (tuse u) textOf (textAt d n) (getString (textAt d n))) ->
  nth_error (vals d) n = Some v -> answers file Fixed (vuse u) (@Some (list Z)) (Z.of_nat n) r ->
  exists bytes, r = (Some bytes, true) /\
    ValueGetName getString bytes = Some (nth_error (texts d) (vname v), true) /\ ValueGetDescription getString bytes = Some (nth_error (texts d) (vdesc v), true) /\
    ValueGetUrl getString bytes = Some (nth_error (texts d) (vurl v), true).
Proof.
  intros file w d u getString n v r D St Op Gs N A.
  assert (T : forall m, (m < length (texts d))%nat -> getString (textAt d m) = (nth_error (texts d) m, true)).
  { intros m L. destruct (nth_error (texts d) m) as [s|] eqn:E; [exact (text_answer file w d u D St Op m s _ E (Gs m L))|]. apply nth_error_None in E. lia. }
  destruct (val_answer file w d u D St Op (@Some (list Z)) (fun b => exists rest, b = encVal d v ++ rest) n v r N A) as (b & -> & (rest & ->)); [eauto|].
  destruct (val_members d v rest D) as (E1 & E2 & E3). assert (valOK d v) as (L1 & L2 & L3) by (pose proof D as (_ & _ & F & _); rewrite Forall_forall in F; apply F; exact (nth_error_In _ _ N)).
  exists (encVal d v ++ rest). unfold ValueGetName, ValueGetDescription, ValueGetUrl. rewrite E1, E2, E3. cbn [option_map]. rewrite !T by assumption. auto.
Qed.
Print Assumptions db_value.
Theorem db_profile : forall file w d u i n p ro rp, dbOK d -> stored file w d -> allOpened file w u ->
  nth_error (order d) i = Some n -> nth_error (profs d) n = Some p ->
  answers file Fixed (ouse u) offsetOf (Z.of_nat i) ro -> answers file profileKind (fuse u) profileOf (startOf (map encProf (profs d)) n) rp ->
  ro = (Some (mkOffset (prid p) (startOf (map encProf (profs d)) n)), true) /\ exists after, rp = (Some (mkProfile (prvalues p) after), true).
Proof.
  intros file w d u i n p ro rp D St Op N P A B. split; [exact (offset_answer file w d u D St Op i n p ro N P A)|exact (profile_answer file w d u D St Op n p rp P B)].
Qed.
Print Assumptions db_profile.
Theorem db_profile_id : forall file w d u n p r, dbOK d -> stored file w d -> allOpened file w u -> nth_error (profs d) n = Some p ->
  answers file profileKind (fuse u) profileIdOf (startOf (map encProf (profs d)) n) r -> r = (Some (prid p), true).
Proof. intros file w d u n p r D St Op. exact (profile_id_answer file w d u D St Op n p r). Qed.
Print Assumptions db_profile_id.

(* C111: properties of the file are found by name, its profiles by id and by a value; the
   values of a profile are found *)
(* the first property with the name; it is still to be released *)
Theorem db_property_by_name : forall file w d u getString getProperty getValue getOffset getProfile j p s,
  dbOK d -> stored file w d -> allOpened file w u -> readers file d u getString getProperty getValue getOffset getProfile ->
  nth_error (props d) j = Some p -> nth_error (texts d) (pname p) = Some s -> (forall i, (i < j)%nat -> ~ nameOfProp d i s) ->
  exists t, PropertyGetByName getString getProperty (Z.to_nat (CollectionGetCount (ucoll (puse u)))) 0 s = (Some (Z.of_nat j, decoded d p), true, t) /\ releases t [] = Some [(Properties, Z.of_nat j)].
Proof. intros file w d u getString getProperty getValue getOffset getProfile j p s D St Op R. exact (db_property_by_name_found file w d u getString getProperty getValue getOffset getProfile D St Op R j p s). Qed.
Print Assumptions db_property_by_name.
(* the profiles that have the value, in order; everything is released *)
Theorem db_profiles_with_value : forall file w d u getString getProperty getValue getOffset getProfile compareOther j p propertyName valueName,
  dbOK d -> stored file w d -> allOpened file w u -> readers file d u getString getProperty getValue getOffset getProfile ->
  nth_error (props d) j = Some p -> nth_error (texts d) (pname p) = Some propertyName ->
  (forall i, (i < j)%nat -> ~ nameOfProp d i propertyName) -> namesSorted d p -> notLast d p -> bytes valueName ->
  exists called t, ProfileIterateProfilesForPropertyAndValue getString getProperty getValue getOffset getProfile compareOther
      (Z.to_nat (CollectionGetCount (ucoll (puse u)))) (Z.to_nat (CollectionGetCount (ucoll (ouse u)))) propertyName valueName = Some (called, true, t) /\
    balanced t /\ StronglySorted Z.lt called /\
    forall i, In i called <-> 0 <= i /\ exists n f v, nth_error (order d) (Z.to_nat i) = Some n /\ nth_error (profs d) n = Some f /\ In v (prvalues f) /\ pfirst p <= v <= plast p /\ nameOfVal d v valueName.
Proof. intros file w d u getString getProperty getValue getOffset getProfile compareOther j p propertyName valueName D St Op R. exact (db_profiles_found file w d u getString getProperty getValue getOffset getProfile D St Op R compareOther j p propertyName valueName). Qed.
Print Assumptions db_profiles_with_value.
(* none for a name that is not that of a property *)
Theorem db_profiles_unknown : forall file w d u getString getProperty getValue getOffset getProfile compareOther propertyName valueName,
  dbOK d -> stored file w d -> allOpened file w u -> readers file d u getString getProperty getValue getOffset getProfile ->
  bytes propertyName -> (forall i, ~ nameOfProp d i propertyName) ->
  exists t, ProfileIterateProfilesForPropertyAndValue getString getProperty getValue getOffset getProfile compareOther
      (Z.to_nat (CollectionGetCount (ucoll (puse u)))) (Z.to_nat (CollectionGetCount (ucoll (ouse u)))) propertyName valueName = Some ([], true, t) /\ balanced t.
Proof. intros file w d u getString getProperty getValue getOffset getProfile compareOther propertyName valueName D St Op R. exact (db_unknown_found file w d u getString getProperty getValue getOffset getProfile D St Op R compareOther propertyName valueName). Qed.
Print Assumptions db_profiles_unknown.
(* the profile with the id *)
Theorem db_profile_by_id : forall file w d u getString getProperty getValue getOffset getProfile id,
  dbOK d -> stored file w d -> allOpened file w u -> readers file d u getString getProperty getValue getOffset getProfile ->
  id <> 0 -> order d <> [] ->
  (forall i j n m f g, (i < j)%nat -> nth_error (order d) i = Some n -> nth_error (order d) j = Some m -> nth_error (profs d) n = Some f -> nth_error (profs d) m = Some g -> prid f < prid g) ->
  exists r, ProfileGetByProfileId getOffset getProfile (Z.to_nat (CollectionGetCount (ucoll (ouse u)))) id = Some (r, true) /\
    match r with
    | Some p => exists i n f, nth_error (order d) i = Some n /\ nth_error (profs d) n = Some f /\ prid f = id /\ values p = prvalues f
    | None => forall i n f, nth_error (order d) i = Some n -> nth_error (profs d) n = Some f -> prid f <> id
    end.
Proof. intros file w d u getString getProperty getValue getOffset getProfile id D St Op R. exact (db_by_id_found file w d u getString getProperty getValue getOffset getProfile D St Op R id). Qed.
Print Assumptions db_profile_by_id.
(* the values of a profile for a property, with their names *)
Theorem db_profile_values : forall file w d u getString getProperty getValue getOffset getProfile j p n f r,
  dbOK d -> stored file w d -> allOpened file w u -> readers file d u getString getProperty getValue getOffset getProfile ->
  nth_error (props d) j = Some p -> plast p < Z.of_nat (length (vals d)) -> nth_error (profs d) n = Some f ->
  (forall l v, prvalues f = l ++ [v] -> ~ pfirst p <= v <= plast p) ->
  getProfile (startOf (map encProf (profs d)) n) = (Some r, true) ->
  exists called, ProfileIterateValuesForProperty getValue (fun _ => true) r (decoded d p) = Some (called, Z.of_nat (length called)) /\
    Forall2 (fun o v => exists s, nameOfVal d v s /\ getString o = (Some s, true)) called (filter (fun v => (pfirst p <=? v) && (v <=? plast p))%bool (prvalues f)).
Proof. intros file w d u getString getProperty getValue getOffset getProfile j p n f r D St Op R. exact (db_values_found file w d u getString getProperty getValue getOffset getProfile D St Op R j p n f r). Qed.
Print Assumptions db_profile_values.

(* ---- a data set: the property A with the values a and b, the property B with the
   value c, three profiles ---- *)
Definition someProp (name : nat) (first last : Z) : prop := mkProp [1; 2; 3; 4; 5; 6; 7] 3 first name 5 5 6 first last 0 0.
Definition someDb : db := mkDb [[65]; [66]; [97]; [98]; [99]; []; [120; 121]]
  [someProp 0 0 1; someProp 1 2 2] [mkVal 0 2 5 5; mkVal 0 3 6 5; mkVal 1 4 5 6]
  [mkProf 0 11 [0; 1; 2]; mkProf 0 12 [2]; mkProf 0 10 [1; 2]] [2; 0; 1]%nat.
Definition part (isCount : bool) (items : list (list Z)) : list Z := enc 4 (if isCount then Z.of_nat (length items) else Z.of_nat (length (concat items))) ++ concat items.
Definition part1 := part false (map encText (texts someDb)).
Definition part2 := part true (map (encProp someDb) (props someDb)).
Definition part3 := part false (map (encVal someDb) (vals someDb)).
Definition part4 := part false (map encProf (profs someDb)).
Definition part5 := part true (map (encOffset someDb) (order someDb)).
Definition someDbFile : list Z := [7; 7; 7] ++ part1 ++ part2 ++ part3 ++ part4 ++ part5 ++ [8].
Definition somePlaces : places :=
  mkPlaces 3 (3 + length part1) (3 + length part1 + length part2) (3 + length part1 + length part2 + length part3)
    (3 + length part1 + length part2 + length part3 + length part4) true false true.
Example someDb_ok : dbOK someDb.
Proof.
  unfold dbOK, small. split; [|split; [|split; [|split; [|split; [|do 4 (split; [vm_compute; reflexivity|]); vm_compute; reflexivity]]]]].
  - repeat (constructor; [split; [repeat constructor; lia|vm_compute; reflexivity]|]). constructor.
  - do 2 (constructor; [unfold propOK, fits; cbn; repeat split; lia|]). constructor.
  - do 3 (constructor; [unfold valOK; cbn; repeat split; lia|]). constructor.
  - do 3 (constructor; [unfold profOK, fits; cbn; repeat split; try lia; repeat constructor; lia|]). constructor.
  - do 3 (constructor; [cbn; lia|]). constructor.
Qed.
Example someDb_stored : stored someDbFile somePlaces someDb.
Proof. unfold stored, storedAt. do 4 (split; [split; [vm_compute; reflexivity|eexists; vm_compute; reflexivity]|]). split; [vm_compute; reflexivity|eexists; vm_compute; reflexivity]. Qed.
(* in memory; two properties loaded and a cache; a cache of one; the file; two loaded
   and the rest from the file *)
Definition anyColl : coll := Mem (mkC 0 0 0) [].
Definition openWith (k : kind) (pos : nat) (elementSize : Z) (isCount : bool) (cfg : config) : coll :=
  match HeaderFrom someDbFile pos elementSize isCount with
  | None => anyColl
  | Some h =>
    match cfg with
    | InMemory => match CreateFromMemory h (skipn (hstart h) someDbFile) with Some c => c | None => anyColl end
    | FromFile loaded capacity conc => match CreateFromFile someDbFile k exMem h loaded capacity conc with Some (Some c) => c | _ => anyColl end
    end
  end.
Definition useWith (k : kind) (pos : nat) (elementSize : Z) (isCount : bool) (cfg : config) : use := mkUse exMem 20 cfg (openWith k pos elementSize isCount cfg).
Definition someUses : uses :=
  mkUses (useWith stringKind (tpos somePlaces) 0 false InMemory) (useWith Fixed (ppos somePlaces) sizeofProperty true (FromFile 1 4 2))
    (useWith Fixed (vpos somePlaces) sizeofValue false (FromFile 0 1 1)) (useWith profileKind (fpos somePlaces) 0 false (FromFile 0 0 0))
    (useWith Fixed (opos somePlaces) sizeofOffset true (FromFile 2 0 0)).
Lemma opened_file k pos es isCount loaded cap conc slots : 0 <= loaded < 2 ^ 32 -> 0 <= cap < 2 ^ 32 -> 0 <= conc < 2 ^ 16 ->
  (createShardCapacity cap conc = Some (Z.of_nat slots) /\ (TreeSpec.bound slots <= 20)%nat /\ 0 < conc <= Z.of_nat slots) ->
  (exists h c, HeaderFrom someDbFile pos es isCount = Some h /\ CreateFromFile someDbFile k exMem h loaded cap conc = Some (Some c)) ->
  opened someDbFile k pos es isCount (useWith k pos es isCount (FromFile loaded cap conc)).
Proof.
  intros H1 H2 H3 (Es & Hb & Hc) (h & c & Eh & Ec). exists h. split; [exact Eh|]. cbn [useWith umem ufuel ucfg ucoll]. split; [exact (ex_config loaded cap conc slots H1 H2 H3 Es Hb)|].
  split; [unfold openWith; rewrite Eh; cbn [created]; rewrite Ec; reflexivity|]. intros _. unfold slotsOf. cbn [capOf concOf]. rewrite Es, Nat2Z.id. exact Hc.
Qed.
Lemma opened_plain k pos es isCount loaded : 0 <= loaded < 2 ^ 32 ->
  (exists h c, HeaderFrom someDbFile pos es isCount = Some h /\ CreateFromFile someDbFile k exMem h loaded 0 0 = Some (Some c) /\ hasCache c = false) ->
  opened someDbFile k pos es isCount (useWith k pos es isCount (FromFile loaded 0 0)).
Proof.
  intros H1 (h & c & Eh & Ec & Hc). exists h. split; [exact Eh|]. cbn [useWith umem ufuel ucfg ucoll]. split; [repeat split; try lia; discriminate|].
  assert (openWith k pos es isCount (FromFile loaded 0 0) = c) as -> by (unfold openWith; rewrite Eh; cbn [created]; rewrite Ec; reflexivity).
  split; [exact Ec|]. rewrite Hc. discriminate.
Qed.
Example someDb_opened : allOpened someDbFile somePlaces someUses.
Proof.
  unfold allOpened, someUses. cbn [tuse puse vuse fuse ouse pcount vcount ocount somePlaces]. split; [|split; [|split; [|split]]].
  - exists (mkHd 7 28 0). split; [vm_compute; reflexivity|]. split; [exact Logic.I|]. split; [vm_compute; reflexivity|]. vm_compute. discriminate.
  - apply (opened_file _ _ _ _ 1 4 2 2); try lia; [split; [reflexivity|split; [vm_compute; lia|lia]]|]. do 2 eexists. split; [vm_compute; reflexivity|]. vm_compute. reflexivity.
  - apply (opened_file _ _ _ _ 0 1 1 1); try lia; [split; [reflexivity|split; [vm_compute; lia|lia]]|]. do 2 eexists. split; [vm_compute; reflexivity|]. vm_compute. reflexivity.
  - apply opened_plain; [lia|]. do 2 eexists. split; [vm_compute; reflexivity|]. split; vm_compute; reflexivity.
  - apply opened_plain; [lia|]. do 2 eexists. split; [vm_compute; reflexivity|]. split; vm_compute; reflexivity.
Qed.
(* the answers when everything is new *)
Definition firstGet {A} (k : kind) (u : use) (decode : list Z -> option A) (i : Z) : option A * bool :=
  match cstep someDbFile k (ufuel u) (Get i IoOk) (ucoll u) with
  | Some (EGot _ b _, _) => (decode b, true)
  | Some (ENull _ st _, _) => (None, match st with None => true | Some _ => false end)
  | _ => (None, false)
  end.
Lemma firstGet_answers {A} k u (decode : list Z -> option A) i : 0 <= i < 2 ^ 31 -> (hasCache (ucoll u) = true -> 0 < concOf (ucfg u)) -> answers someDbFile k u decode i (firstGet k u decode i).
Proof.
  intros Hi Hc. exists [], (ucoll u). split; [constructor|]. split; [split; [lia|]; intros _; split; [lia|]; intros s; cbn; lia|]. split; [intros X; specialize (Hc X); cbn; lia|].
  intros e c' E. unfold firstGet. rewrite E. destruct e as [i' b s|i' st s|s]; [|reflexivity|exact Logic.I]. intros a ->. reflexivity.
Qed.
Definition getString1 := firstGet stringKind (tuse someUses) textOf.
Definition getProperty1 := firstGet Fixed (puse someUses) propertyOf.
Definition getValue1 := firstGet Fixed (vuse someUses) valueNameOffset.
Definition getOffset1 := firstGet Fixed (ouse someUses) offsetOf.
Definition getProfile1 := firstGet profileKind (fuse someUses) profileOf.
Example someDb_readers : readers someDbFile someDb someUses getString1 getProperty1 getValue1 getOffset1 getProfile1.
Proof.
  assert (T : forall n, 0 <= textAt someDb n < 2 ^ 31).
  { intros n. unfold textAt, startOf. pose proof (startOf_le (map encText (texts someDb)) n) as L. change (length (concat (map encText (texts someDb)))) with 28%nat in L. lia. }
  assert (P : forall n, 0 <= startOf (map encProf (profs someDb)) n < 2 ^ 31).
  { intros n. unfold startOf. pose proof (startOf_le (map encProf (profs someDb)) n) as L. change (length (concat (map encProf (profs someDb)))) with 51%nat in L. lia. }
  split; [|split; [|split; [|split]]]; intros n L; apply firstGet_answers; auto; try (intros _; vm_compute; reflexivity); cbn in L; try lia; vm_compute; discriminate.
Qed.
Definition find1 := ProfileIterateProfilesForPropertyAndValue getString1 getProperty1 getValue1 getOffset1 getProfile1 (fun _ _ => 0)
  (Z.to_nat (CollectionGetCount (ucoll (puse someUses)))) (Z.to_nat (CollectionGetCount (ucoll (ouse someUses)))).
Example someDb_found : exists t1 t2 t3, find1 [65] [98] = Some ([0; 1], true, t1) /\ find1 [65] [97] = Some ([1], true, t2) /\ find1 [67] [97] = Some ([], true, t3) /\
  option_map (fun r => option_map values (fst r)) (ProfileGetByProfileId getOffset1 getProfile1 3 11) = Some (Some [0; 1; 2]) /\
  ProfileGetByProfileId getOffset1 getProfile1 3 13 = Some (None, true).
Proof. do 3 eexists. split; [vm_compute; reflexivity|]. split; [vm_compute; reflexivity|]. split; [vm_compute; reflexivity|]. split; vm_compute; reflexivity. Qed.
(* the hypotheses hold for the property A and all profiles *)
Example someDb_hypotheses : namesSorted someDb (someProp 0 0 1) /\ notLast someDb (someProp 0 0 1) /\ nth_error (props someDb) 0 = Some (someProp 0 0 1) /\
  (forall i j n m f g, (i < j)%nat -> nth_error (order someDb) i = Some n -> nth_error (order someDb) j = Some m -> nth_error (profs someDb) n = Some f -> nth_error (profs someDb) m = Some g -> prid f < prid g) /\
  nameOfVal someDb 1 [98] /\ nameOfProp someDb 1 [66] /\ ~ nameOfProp someDb 0 [66].
Proof.
  assert (V0 : forall s, nameOfVal someDb 0 s -> s = [97]) by (intros s (_ & x & E1 & E2); cbn in E1; injection E1 as <-; cbn in E2; congruence).
  assert (V1 : forall s, nameOfVal someDb 1 s -> s = [98]) by (intros s (_ & x & E1 & E2); cbn in E1; injection E1 as <-; cbn in E2; congruence).
  split; [|split; [|split; [|split; [|split; [|split]]]]].
  - cbn [pfirst plast someProp namesSorted]. split; [cbn; lia|]. split.
    + cbn [pfirst plast someProp]. intros v s Hv N c r ->. assert (v = 0 \/ v = 1) as [-> | ->] by lia; [apply V0 in N|apply V1 in N]; injection N as -> _; lia.
    + cbn [pfirst plast someProp]. intros v w s t H1 H2 H3 N M. assert (v = 0) as -> by lia. assert (w = 1) as -> by lia. apply V0 in N. apply V1 in M. subst.
      exists [], [97], [98]. split; [reflexivity|]. split; [reflexivity|]. right. exists 97, 98, [], []. repeat split; lia.
  - intros n f l v E El. cbn [pfirst plast someProp]. destruct n as [|[|[|n]]]; cbn in E; [injection E as <-..|destruct n; discriminate]; cbn [prvalues] in El.
    + change [0; 1; 2] with ([0; 1] ++ [2]) in El. apply app_inj_tail in El. destruct El as (_ & <-). lia.
    + change [2] with ([] ++ [2]) in El. apply app_inj_tail in El. destruct El as (_ & <-). lia.
    + change [1; 2] with ([1] ++ [2]) in El. apply app_inj_tail in El. destruct El as (_ & <-). lia.
  - reflexivity.
  - intros i j n m f g L En Em Ef Eg. destruct i as [|[|[|i]]]; cbn in En; [injection En as <-..|destruct i; discriminate];
      (destruct j as [|[|[|j]]]; cbn in Em; [injection Em as <-..|destruct j; discriminate]); try lia; cbn in Ef, Eg; injection Ef as <-; injection Eg as <-; cbn [prid]; lia.
  - split; [lia|]. eexists. split; reflexivity.
  - eexists. split; reflexivity.
  - intros (p & E1 & E2). cbn in E1. injection E1 as <-. cbn in E2. discriminate.
Qed.
(* what is read of the property, the value and the profile of someDb *)
Example someDb_items :
  (let r := firstGet Fixed (puse someUses) (@Some (list Z)) 1 in answers someDbFile Fixed (puse someUses) (@Some (list Z)) (Z.of_nat 1) r /\
   match fst r with Some b => PropertyGetName getString1 b = Some (Some [66], true) /\ PropertyGetUrl getString1 b = Some (Some [120; 121], true) | None => False end) /\
  (let r := firstGet Fixed (vuse someUses) (@Some (list Z)) 2 in answers someDbFile Fixed (vuse someUses) (@Some (list Z)) (Z.of_nat 2) r /\
   match fst r with Some b => ValueGetName getString1 b = Some (Some [99], true) | None => False end) /\
  PropertyGetValueType (firstGet Fixed (puse someUses) (@Some (list Z))) 1 = Some (3, true, [Got Properties 1; Released Properties Properties 1]) /\
  ProfileIterateValuesForProperty getValue1 (fun _ => true) (mkProfile [0; 1; 2] []) (decoded someDb (someProp 0 0 1)) = Some ([8; 12], 2).
Proof.
  split; [|split; [|split]].
  - cbv zeta. split; [apply firstGet_answers; [lia|vm_compute; reflexivity]|]. vm_compute. auto.
  - cbv zeta. split; [apply firstGet_answers; [lia|vm_compute; reflexivity]|]. vm_compute. auto.
  - vm_compute. reflexivity.
  - vm_compute. reflexivity.
Qed.

(* C112 refuted: whether the values of a profile can be read depends on the configuration.
   The last value of the profile is one of the property: with the profiles in memory the
   value after it is that of the next profile; from the file it is outside of the memory *)
Definition profilesIn (cfg : config) : use := useWith profileKind (fpos somePlaces) 0 false cfg.
Theorem db_configurations_refuted : exists r1 r2,
  answers someDbFile profileKind (profilesIn InMemory) profileOf (startOf (map encProf (profs someDb)) 1) (Some r1, true) /\
  answers someDbFile profileKind (profilesIn (FromFile 0 0 0)) profileOf (startOf (map encProf (profs someDb)) 1) (Some r2, true) /\
  opened someDbFile profileKind (fpos somePlaces) 0 false (profilesIn InMemory) /\ opened someDbFile profileKind (fpos somePlaces) 0 false (profilesIn (FromFile 0 0 0)) /\
  values r1 = values r2 /\ ProfileIterateValuesForProperty getValue1 (fun _ => true) r1 (decoded someDb (someProp 1 2 2)) = Some ([16], 1) /\
  ProfileIterateValuesForProperty getValue1 (fun _ => true) r2 (decoded someDb (someProp 1 2 2)) = None.
Proof.
  exists (mkProfile [2] [2560; 512; 256; 512]), (mkProfile [2] []). split; [|split; [|split; [|split; [|split; [|split]]]]].
  - change (startOf (map encProf (profs someDb)) 1) with 21. replace (Some (mkProfile [2] [2560; 512; 256; 512]), true) with (firstGet profileKind (profilesIn InMemory) profileOf 21) by (vm_compute; reflexivity).
    apply firstGet_answers; [lia|]. vm_compute. discriminate.
  - change (startOf (map encProf (profs someDb)) 1) with 21. replace (Some (mkProfile [2] []), true) with (firstGet profileKind (profilesIn (FromFile 0 0 0)) profileOf 21) by (vm_compute; reflexivity).
    apply firstGet_answers; [lia|]. vm_compute. discriminate.
  - exists (mkHd (fpos somePlaces + 4) 51 0). split; [vm_compute; reflexivity|]. split; [exact Logic.I|]. split; [vm_compute; reflexivity|]. vm_compute. discriminate.
  - apply opened_plain; [lia|]. do 2 eexists. split; [vm_compute; reflexivity|]. split; vm_compute; reflexivity.
  - reflexivity.
  - vm_compute. reflexivity.
  - vm_compute. reflexivity.
Qed.
Print Assumptions db_configurations_refuted.
Example header_position_case : forall pos, exists h, HeaderFrom (repeat 0 pos ++ [5; 0; 0; 0]) pos 1 true = Some h.
Proof.
  intros pos. unfold HeaderFrom, member, ComponentModel.member. rewrite skipn_app, skipn_all2 by (now rewrite repeat_length). rewrite repeat_length, Nat.sub_diag. cbn [skipn app ComponentModel.le option_map]. eauto.
Qed.
