(* C113 - C115: the functions of property.c, value.c and profile.c on collections that
   change (collection.c, cache.c): what they return and what they give back *)
From Verif Require Import TreeModel CacheModel CacheSpec CollectionModel CollectionSpec CollectionProps PropertiesCollection.
From Verif Require ItemModel.
From Verif Require Import SearchModel ProfileModel ProfileSpec ProfileProofs PropertiesProfile DbModel DbSpec DbProofs DbFound PropertiesDb.
From Verif Require Import CallsModel CallsSpec CallsGet CallsWorld CallsProofs.
Local Open Scope Z_scope.

(* C113: an item released with a method that fits its collection is given back *)
Theorem release_fits : forall file pl d u w s n itm it m, dbOK d -> stored file pl d -> allOpened file pl u -> ready file d u w ->
  nth_error (itemsOf d s) n = Some itm -> ItemModel.allocated (idata it) = 0 -> fits_method m (ucoll (useOf u s)) = true ->
  exists rest it1 w1 it2 w2, get file (fuelOf u) s (position (kindOf s) (itemsOf d s) n) true it w = Some (Some (itm ++ rest), true, it1, w1) /\
    release m it1 w1 = Some (it2, w2) /\ restored w w2.
Proof.
  intros file pl d u w s n itm it m D St Op Rd N Hi Hf. destruct (start file d u w Rd) as (use0 & out0 & room & HI & Hh).
  destruct (get_there file pl d u D St Op use0 out0 _ _ room Hh (@Some (list Z)) [] w s n itm it HI Hi N eq_refl) as (b & it' & w' & r & G & I' & Hd & _ & (rest & ->) & _).
  destruct (release_step file pl d u D St Op use0 out0 _ _ [] w' s it' r m I' Hd Hf) as (it2 & w2 & R & I2 & _).
  exists rest, it', w', it2, w2. split; [exact G|]. split; [exact R|]. exact (finish file pl d u D St Op _ _ _ _ _ _ HI I2).
Qed.
Print Assumptions release_fits.
(* refuted for other methods: it is undefined or something is kept *)
Theorem release_unfit_refuted : forall file pl d u w s n itm m, dbOK d -> stored file pl d -> allOpened file pl u -> ready file d u w ->
  nth_error (itemsOf d s) n = Some itm -> fits_method m (ucoll (useOf u s)) = false -> fromLast (colls w s) (position (kindOf s) (itemsOf d s) n) = true ->
  exists rest it1 w1, get file (fuelOf u) s (position (kindOf s) (itemsOf d s) n) true newItem w = Some (Some (itm ++ rest), true, it1, w1) /\
    forall it2 w2, release m it1 w1 = Some (it2, w2) -> ~ restored w w2.
Proof.
  intros file pl d u w s n itm m D St Op Rd N Hf Fl. destruct (start file d u w Rd) as (use0 & out0 & room & HI & Hh).
  destruct (get_step file pl d u D St Op use0 out0 _ _ room [] w s n itm newItem HI Hh eq_refl N eq_refl) as (b & it' & w' & r & G & _ & F & I' & Hd & _ & Last).
  assert (b = itm ++ skipn (length itm) b) as Eb by (rewrite <- F at 1; symmetry; apply firstn_skipn).
  exists (skipn (length itm) b), it', w'. rewrite <- Eb. split; [exact G|]. specialize (Last Fl). rewrite app_nil_r in I'. intros it2 w2 R.
  assert (w2 = w' -> r <> [] -> ~ restored w w2) as K by (intros -> Hr; exact (kept file pl d u D St Op _ _ _ _ _ _ _ _ _ HI I' Hd Hr)).
  unfold fits_method in Hf. destruct Hd as [dt hd Ha L|l L|dt p z L|k L].
  - rewrite L in Hf. destruct (Last eq_refl) as [X|(_ & X)]; [congruence|]. cbn [ihandle newItem] in X. subst hd. destruct m; try discriminate; cbn [release releaseWith ihandle] in R; discriminate.
  - destruct (Last eq_refl) as [X|(X & _)]; [|congruence]. rewrite X in Hf. destruct m; discriminate.
  - apply K; [|discriminate]. destruct L as [L|L]; rewrite L in Hf; destruct m; try discriminate; cbn [release releaseWith ihandle] in R; try discriminate; now injection R as _ <-.
  - apply K; [|discriminate]. destruct L as [L|L]; rewrite L in Hf; destruct m; try discriminate; cbn [release releaseWith ihandle] in R; try discriminate; now injection R as _ <-.
Qed.
Print Assumptions release_unfit_refuted.

(* C114: with collections whose items can be released in this way, the functions return what
   the data set says, whatever was done with the collections before, and keep nothing but the
   item they return *)
Theorem calls_property_by_name : forall file pl d u w it j p s, dbOK d -> stored file pl d -> allOpened file pl u -> ready file d u w -> compatible u -> ItemModel.allocated (idata it) = 0 ->
  nth_error (props d) j = Some p -> nth_error (texts d) (pname p) = Some s -> (forall i, (i < j)%nat -> ~ nameOfProp d i s) ->
  exists it1 w1, CallsModel.PropertyGetByName file (fuelOf u) s it w = Some (Some (Z.of_nat j, decoded d p), true, it1, w1) /\ givesBack w Props it1 w1.
Proof.
  intros file pl d u w it j p s D St Op Rd (C1 & _) Hi Np Nt First. destruct (start file d u w Rd) as (use0 & out0 & room & HI & Hh).
  destruct (by_name_refines file pl d u D St Op use0 out0 _ _ room Hh C1 s [] it w HI eq_refl eq_refl Hi) as (r & it1 & w1 & rs & t & E & I1 & P & _ & Hr).
  destruct (db_property_by_name_found file pl d u _ _ _ _ _ D St Op (plain_readers file pl d u D St Op out0 room) j p s Np Nt First) as (t' & P' & _). cbn [useOf] in P. rewrite P in P'. injection P' as -> _.
  exists it1, w1. split; [exact E|]. destruct (released file pl d u D St Op use0 out0 _ _ [] w1 Props it1 rs Props I1 Hr (own file pl d u D St Op Props)) as (it2 & w2 & R & I2 & _).
  exists it2, w2. split; [exact R|]. exact (finish file pl d u D St Op _ _ _ _ _ _ HI I2).
Qed.
Print Assumptions calls_property_by_name.
Theorem calls_property_unknown : forall file pl d u w it s, dbOK d -> stored file pl d -> allOpened file pl u -> ready file d u w -> compatible u -> ItemModel.allocated (idata it) = 0 ->
  bytes s -> (forall i, ~ nameOfProp d i s) -> exists it1 w1, CallsModel.PropertyGetByName file (fuelOf u) s it w = Some (None, true, it1, w1) /\ restored w w1.
Proof.
  intros file pl d u w it s D St Op Rd (C1 & _) Hi B No. destruct (start file d u w Rd) as (use0 & out0 & room & HI & Hh).
  destruct (by_name_refines file pl d u D St Op use0 out0 _ _ room Hh C1 s [] it w HI eq_refl eq_refl Hi) as (r & it1 & w1 & rs & t & E & I1 & P & _ & Hr).
  assert (r = None) as ->.
  { rewrite (count_props file pl d u D St Op) in P. destruct (property_missing (plain file u textOf Texts) (plain file u propertyOf Props) s B (length (props d)) 0) as (t' & P' & _).
    { intros i Hx. destruct (every_prop file pl d u _ _ _ _ _ D St Op (plain_readers file pl d u D St Op out0 room) i ltac:(lia)) as (q & x & E0 & Bs & N). exists q, x. split; [exact E0|]. split; [exact Bs|]. intros ->. exact (No _ N). }
    congruence. }
  destruct Hr as (-> & _). exists it1, w1. split; [exact E|]. exact (finish file pl d u D St Op _ _ _ _ _ _ HI I1).
Qed.
Print Assumptions calls_property_unknown.
Theorem calls_value_type : forall file pl d u w j p, dbOK d -> stored file pl d -> allOpened file pl u -> ready file d u w -> nth_error (props d) j = Some p ->
  exists w1, CallsModel.PropertyGetValueType file (fuelOf u) (Z.of_nat j) w = Some (ptype p, true, w1) /\ restored w w1.
Proof.
  intros file pl d u w j p D St Op Rd Np. destruct (start file d u w Rd) as (use0 & out0 & room & HI & Hh).
  destruct (get_prop file pl d u D St Op use0 out0 _ _ room Hh [] w j p newItem HI eq_refl Np eq_refl) as (b & it1 & w1 & r1 & G & I1 & Hd & _ & _ & Et & _).
  destruct (released file pl d u D St Op use0 out0 _ _ [] w1 Props it1 r1 Props I1 Hd (own file pl d u D St Op Props)) as (it2 & w2 & R & I2 & _).
  exists w2. unfold CallsModel.PropertyGetValueType. rewrite G, Et, R. split; [reflexivity|]. exact (finish file pl d u D St Op _ _ _ _ _ _ HI I2).
Qed.
Print Assumptions calls_value_type.

(* the values by name *)
Lemma index_of : forall file pl d u out0 compareOther j p name, dbOK d -> stored file pl d -> allOpened file pl u -> roomFor d u out0 -> nth_error (props d) j = Some p -> namesSorted d p -> bytes name ->
  exists r, ProfileModel.ValueGetIndexByName (plain file u textOf Texts) (plain file u valueNameOffset Vals) compareOther (decoded d p) name = Some (r, true) /\
    ((r = -1 /\ forall v, pfirst p <= v <= plast p -> ~ nameOfVal d v name) \/ (pfirst p <= r <= plast p /\ nameOfVal d r name)).
Proof.
  intros file pl d u out0 compareOther j p name D St Op room Np Ns B. pose proof (plain_readers file pl d u D St Op out0 room) as R.
  destruct (prop_in d D _ _ Np) as (_ & _ & _ & (P0 & _) & _). pose proof Ns as ((N1 & N2 & N3) & _).
  destruct (ProfileProofs.value_by_name (plain file u textOf Texts) (plain file u propertyOf Props) (plain file u valueNameOffset Vals) (plain file u offsetOf Offs) (plain file u profileOf Profs) compareOther (decoded d p) name B (vals_sorted file pl d u _ _ _ _ _ D St Op R j p Np Ns)) as (r & E & H).
  exists r. split; [exact E|]. cbn [decoded firstValueIndex lastValueIndex] in H. destruct H as [(-> & H)|(Hr & H)].
  - left. split; [reflexivity|]. intros v Hv X. apply (H v Hv). apply (val_named file pl d u _ _ _ _ _ D St Op R v name ltac:(lia) ltac:(lia)). exact X.
  - right. split; [exact Hr|]. apply (val_named file pl d u _ _ _ _ _ D St Op R r name ltac:(lia) ltac:(lia)). exact H.
Qed.
Theorem calls_value_index : forall file pl d u w compareOther j p name, dbOK d -> stored file pl d -> allOpened file pl u -> ready file d u w ->
  nth_error (props d) j = Some p -> namesSorted d p -> bytes name -> pfirst p <= plast p \/ methodOf (ucoll (vuse u)) = Nothing ->
  exists r w1, CallsModel.ValueGetIndexByName file (fuelOf u) compareOther (decoded d p) name w = Some (r, true, w1) /\ restored w w1 /\
    ((r = -1 /\ forall v, pfirst p <= v <= plast p -> ~ nameOfVal d v name) \/ (pfirst p <= r <= plast p /\ nameOfVal d r name)).
Proof.
  intros file pl d u w compareOther j p name D St Op Rd Np Ns B Hor. destruct (start file d u w Rd) as (use0 & out0 & room & HI & Hh).
  destruct (index_of file pl d u out0 compareOther j p name D St Op room Np Ns B) as (r & E & H). destruct (prop_in d D _ _ Np) as (_ & _ & _ & (P0 & _) & _). pose proof Ns as ((N1 & N2 & N3) & _).
  pose proof (value_index_refines file pl d u D St Op use0 out0 _ _ room Hh compareOther (decoded d p) name [] w HI eq_refl eq_refl P0 N2 Hor) as Q. rewrite E in Q. destruct Q as (_ & w1 & Q & I1).
  exists r, w1. split; [exact Q|]. split; [exact (finish file pl d u D St Op _ _ _ _ _ _ HI I1)|exact H].
Qed.
Print Assumptions calls_value_index.
Lemma search_empty : forall file fuel s cmp n lower upper it w, upper < lower -> CallsModel.search file fuel s cmp (S n) lower upper it w = Some (-1, true, it, None, w).
Proof. intros file fuel s cmp n lower upper it w H. cbn [CallsModel.search]. destruct (Z.leb_spec lower upper); [lia|reflexivity]. Qed.
(* refuted for a property without values: the item released was never set, unless releases do nothing *)
Theorem calls_value_index_empty_refuted : forall file fuel compareOther property name w, lastValueIndex property < firstValueIndex property -> methodIn w Vals <> Nothing ->
  CallsModel.ValueGetIndexByName file fuel compareOther property name w = None.
Proof.
  intros file fuel compareOther property name w H M. unfold CallsModel.ValueGetIndexByName. rewrite (search_empty _ _ _ _ 32%nat _ _ _ _ H). unfold releaseIn. destruct (methodIn w Vals); [contradiction|reflexivity..].
Qed.
Print Assumptions calls_value_index_empty_refuted.
Theorem calls_value_by_name : forall file pl d u w it compareOther j p name, dbOK d -> stored file pl d -> allOpened file pl u -> ready file d u w ->
  nth_error (props d) j = Some p -> namesSorted d p -> bytes name -> pfirst p <> 2 ^ 32 - 1 ->
  exists r it1 w1, CallsModel.ValueGetByName file (fuelOf u) compareOther (decoded d p) name it w = Some (r, true, it1, w1) /\
    match r with
    | Some b => givesBack w Vals it1 w1 /\ exists v x rest, pfirst p <= v <= plast p /\ nameOfVal d v name /\ nth_error (vals d) (Z.to_nat v) = Some x /\ b = encVal d x ++ rest
    | None => restored w w1 /\ forall v, pfirst p <= v <= plast p -> ~ nameOfVal d v name
    end.
Proof.
  intros file pl d u w it compareOther j p name D St Op Rd Np Ns B Hf. destruct (start file d u w Rd) as (use0 & out0 & room & HI & Hh).
  destruct (index_of file pl d u out0 compareOther j p name D St Op room Np Ns B) as (r & E & H). destruct (prop_in d D _ _ Np) as (_ & _ & _ & (P0 & _) & _). pose proof Ns as ((N1 & N2 & N3) & _).
  pose proof (value_get_refines file pl d u D St Op use0 out0 _ _ room Hh compareOther (decoded d p) name [] it w HI eq_refl eq_refl P0 N2 Hf) as Q. rewrite E in Q. destruct Q as (_ & ob & it1 & w1 & rs & Q & I1 & C).
  exists ob, it1, w1. split; [exact Q|]. destruct C as [(Hr & Hd & b & -> & Pb)|(-> & -> & ->)].
  - destruct H as [(-> & _)|(Hv & Nv)]; [lia|]. split.
    + destruct (released file pl d u D St Op use0 out0 _ _ [] w1 Vals it1 rs Vals I1 Hd (own file pl d u D St Op Vals)) as (it2 & w2 & R & I2 & _). exists it2, w2. split; [exact R|]. exact (finish file pl d u D St Op _ _ _ _ _ _ HI I2).
    + pose proof Nv as (_ & x & Nx & _). destruct (get_there file pl d u D St Op use0 out0 _ _ room Hh (@Some (list Z)) [] w Vals _ _ newItem HI eq_refl (val_item d _ _ Nx) eq_refl) as (b' & _ & _ & _ & _ & _ & _ & _ & (rest & Eb) & _ & Pb').
      cbn [kindOf position useOf] in Pb'. rewrite Z2Nat.id in Pb' by lia. rewrite Pb in Pb'. injection Pb' as <-. exists r, x, rest. auto.
  - split; [exact (finish file pl d u D St Op _ _ _ _ _ _ HI I1)|]. destruct H as [(_ & H)|(Hv & _)]; [exact H|lia].
Qed.
Print Assumptions calls_value_by_name.

(* the profiles *)
Theorem calls_profiles_with_value : forall file pl d u w compareOther j p propertyName valueName, dbOK d -> stored file pl d -> allOpened file pl u -> ready file d u w -> compatible u ->
  nth_error (props d) j = Some p -> nth_error (texts d) (pname p) = Some propertyName -> (forall i, (i < j)%nat -> ~ nameOfProp d i propertyName) -> namesSorted d p -> notLast d p -> bytes valueName ->
  pfirst p <= plast p \/ methodOf (ucoll (vuse u)) = Nothing ->
  exists called w1, CallsModel.ProfileIterateProfilesForPropertyAndValue file (fuelOf u) compareOther propertyName valueName w = Some (called, true, w1) /\ restored w w1 /\ StronglySorted Z.lt called /\
    forall i, In i called <-> 0 <= i /\ exists n f v, nth_error (order d) (Z.to_nat i) = Some n /\ nth_error (profs d) n = Some f /\ In v (prvalues f) /\ pfirst p <= v <= plast p /\ nameOfVal d v valueName.
Proof.
  intros file pl d u w compareOther j p propertyName valueName D St Op Rd (C1 & C2) Np Nt First Ns Nl B Hor. destruct (start file d u w Rd) as (use0 & out0 & room & HI & Hh).
  pose proof (plain_readers file pl d u D St Op out0 room) as R. destruct (db_profiles_found file pl d u _ _ _ _ _ D St Op R compareOther j p propertyName valueName Np Nt First Ns Nl B) as (called & t & E & _ & So & H).
  pose proof Ns as ((N1 & N2 & N3) & _).
  pose proof (iterate_refines file pl d u D St Op use0 out0 _ _ room Hh compareOther j p propertyName valueName w C1 C2 HI Np Nt First N2 Hor) as Q. rewrite E in Q. destruct Q as (w1 & Q & I1).
  exists called, w1. split; [exact Q|]. split; [exact (finish file pl d u D St Op _ _ _ _ _ _ HI I1)|]. auto.
Qed.
Print Assumptions calls_profiles_with_value.
Theorem calls_profiles_unknown : forall file pl d u w compareOther propertyName valueName, dbOK d -> stored file pl d -> allOpened file pl u -> ready file d u w -> compatible u ->
  bytes propertyName -> (forall i, ~ nameOfProp d i propertyName) ->
  exists w1, CallsModel.ProfileIterateProfilesForPropertyAndValue file (fuelOf u) compareOther propertyName valueName w = Some ([], true, w1) /\ restored w w1.
Proof.
  intros file pl d u w compareOther propertyName valueName D St Op Rd (C1 & _) B No. destruct (start file d u w Rd) as (use0 & out0 & room & HI & Hh).
  destruct (iterate_unknown file pl d u D St Op use0 out0 _ _ room Hh compareOther propertyName valueName w C1 HI B No) as (w1 & E & I1). exists w1. split; [exact E|]. exact (finish file pl d u D St Op _ _ _ _ _ _ HI I1).
Qed.
Print Assumptions calls_profiles_unknown.
Theorem calls_profile_by_index : forall file pl d u w it i n f, dbOK d -> stored file pl d -> allOpened file pl u -> ready file d u w -> ItemModel.allocated (idata it) = 0 ->
  nth_error (order d) i = Some n -> nth_error (profs d) n = Some f ->
  exists b after it1 w1, CallsModel.ProfileGetByIndex file (fuelOf u) (Z.of_nat i) it w = Some (Some b, true, it1, w1) /\ profileOf b = Some (mkProfile (prvalues f) after) /\ givesBack w Profs it1 w1.
Proof.
  intros file pl d u w it i n f D St Op Rd Hi Nn Nf. destruct (start file d u w Rd) as (use0 & out0 & room & HI & Hh).
  destruct (by_index file pl d u D St Op use0 out0 _ _ room Hh [] w i n f it HI Hi Nn Nf eq_refl eq_refl) as (b & after & it1 & w1 & r & E & I1 & Hd & Ep).
  exists b, after, it1, w1. split; [exact E|]. split; [exact Ep|].
  destruct (released file pl d u D St Op use0 out0 _ _ [] w1 Profs it1 r Profs I1 Hd (own file pl d u D St Op Profs)) as (it2 & w2 & R & I2 & _). exists it2, w2. split; [exact R|]. exact (finish file pl d u D St Op _ _ _ _ _ _ HI I2).
Qed.
Print Assumptions calls_profile_by_index.
Theorem calls_profile_by_id : forall file pl d u w it id, dbOK d -> stored file pl d -> allOpened file pl u -> ready file d u w -> ItemModel.allocated (idata it) = 0 -> id <> 0 -> order d <> [] ->
  (forall i j n m f g, (i < j)%nat -> nth_error (order d) i = Some n -> nth_error (order d) j = Some m -> nth_error (profs d) n = Some f -> nth_error (profs d) m = Some g -> prid f < prid g) ->
  exists r it1 w1, CallsModel.ProfileGetByProfileId file (fuelOf u) id it w = Some (r, true, it1, w1) /\
    match r with
    | Some b => givesBack w Profs it1 w1 /\ exists i n f after, nth_error (order d) i = Some n /\ nth_error (profs d) n = Some f /\ prid f = id /\ profileOf b = Some (mkProfile (prvalues f) after)
    | None => restored w w1 /\ forall i n f, nth_error (order d) i = Some n -> nth_error (profs d) n = Some f -> prid f <> id
    end.
Proof.
  intros file pl d u w it id D St Op Rd Hi Hid Hn Hs. destruct (start file d u w Rd) as (use0 & out0 & room & HI & Hh).
  destruct (by_id file pl d u D St Op use0 out0 _ _ room Hh id [] w it HI Hi eq_refl eq_refl eq_refl Hid Hn Hs) as (r & it1 & w1 & rs & E & I1 & H).
  exists r, it1, w1. split; [exact E|]. destruct r as [b|].
  - destruct H as (Hd & H). split; [|exact H]. destruct (released file pl d u D St Op use0 out0 _ _ [] w1 Profs it1 rs Profs I1 Hd (own file pl d u D St Op Profs)) as (it2 & w2 & R & I2 & _). exists it2, w2. split; [exact R|]. exact (finish file pl d u D St Op _ _ _ _ _ _ HI I2).
  - destruct H as (-> & -> & H). split; [exact (finish file pl d u D St Op _ _ _ _ _ _ HI I1)|exact H].
Qed.
Print Assumptions calls_profile_by_id.

(* C115 refuted: with other collections something is kept or undefined.  In general, for the
   first property, in every configuration whose methods do not fit *)
Theorem calls_property_unfit_refuted : forall file pl d u w p s, dbOK d -> stored file pl d -> allOpened file pl u -> ready file d u w ->
  fits_method (methodOf (ucoll (puse u))) (ucoll (tuse u)) = false -> nth_error (props d) 0 = Some p -> nth_error (texts d) (pname p) = Some s -> bytes s -> fromLast (colls w Texts) (textAt d (pname p)) = true ->
  match CallsModel.PropertyGetByName file (fuelOf u) s newItem w with
  | None => True
  | Some (r, ok, it1, w1) => r = Some (0, decoded d p) /\ ok = true /\ ~ givesBack w Props it1 w1
  end.
Proof.
  intros file pl d u w p s D St Op Rd Hf Np Nt Bs Fl. destruct (start file d u w Rd) as (use0 & out0 & room & HI & Hh).
  unfold CallsModel.PropertyGetByName. rewrite (count_in file u _ _ _ _ [] w Props HI), (count_props file pl d u D St Op). destruct (length (props d)) as [|n] eqn:Ln; [destruct (props d); discriminate|]. cbn [propertyLoop].
  destruct (get_step file pl d u D St Op use0 out0 _ _ room [] w Props 0 _ newItem HI Hh eq_refl (prop_item d 0 p Np) eq_refl) as (b & it1 & w1 & r1 & G1 & _ & F1 & I1 & Hd1 & C1 & _).
  cbn [kindOf position] in G1. change (Z.of_nat 0) with 0 in G1. rewrite G1.
  assert (propertyOf b = Some (decoded d p)) as Eb.
  { rewrite <- (firstn_skipn (length (encProp d p)) b), F1. destruct (prop_members d p (skipn (length (encProp d p)) b) D (prop_in d D _ _ Np)) as (_ & E1 & _ & _ & _ & E2 & E3 & _). unfold propertyOf, decoded. now rewrite E1, E2, E3. }
  rewrite Eb. cbn [decoded nameOffset]. fold (decoded d p). rewrite app_nil_r in I1.
  destruct (get_step file pl d u D St Op use0 out0 _ _ room r1 w1 Texts (pname p) _ newItem I1 Hh eq_refl (text_item d _ s Nt) ltac:(apply C1; discriminate)) as (nb & it2 & w2 & r2 & G2 & _ & F2 & I2 & Hd2 & C2 & Last).
  change (position (kindOf Texts) (itemsOf d Texts) (pname p)) with (textAt d (pname p)) in G2, Last. rewrite G2.
  assert (textOf nb = Some s) as En.
  { rewrite <- (firstn_skipn (length (encText s)) nb), F2. apply text_decode. pose proof D as (T & _). rewrite Forall_forall in T. apply T. exact (nth_error_In _ _ Nt). }
  rewrite En. rewrite (proj2 (Z.eqb_eq _ _) (proj2 (strcmp_zero s s Bs Bs) eq_refl)). cbn [negb].
  assert (Fl1 : fromLast (colls w1 Texts) (textAt d (pname p)) = true).
  { assert (forall c c', skeleton c = skeleton c' -> forall i, fromLast c i = fromLast c' i) as X.
    { assert (forall c i, fromLast (skeleton c) i = fromLast c i) as Y.
      { fix IH 1. intros [ci bb|ci st|ci st cc|ci bb [nx|]] i; cbn [skeleton fromLast]; try reflexivity. destruct (getMemory ci bb i); [reflexivity|]. apply IH. }
      intros c c' E i. rewrite <- (Y c), E. apply Y. }
    rewrite (X (colls w1 Texts) (colls w Texts)); [exact Fl|]. rewrite (skel _ _ _ _ _ _ _ _ Texts I1). symmetry. exact (skel _ _ _ _ _ _ _ _ Texts HI). }
  specialize (Last Fl1). unfold releaseIn. rewrite (method_in file u _ _ _ _ _ w2 Props I2). cbn [useOf] in Last |- *.
  assert (forall m it3 w3, methodOf (ucoll (puse u)) = m -> release m it2 w2 = Some (it3, w3) -> w3 = w2 /\ r2 <> [] /\ m = Nothing) as Key.
  { intros m it3 w3 Em R. rewrite Em in Hf. unfold fits_method in Hf. destruct Hd2 as [dt hd Ha L|l L|dt q z L|k L]; cbn [useOf] in L.
    - rewrite L in Hf. destruct (Last eq_refl) as [X|(_ & X)]; [congruence|]. cbn [ihandle newItem] in X. subst hd. destruct m; try discriminate; cbn [release releaseWith ihandle] in R; discriminate.
    - destruct (Last eq_refl) as [X|(X & _)]; [|congruence]. rewrite X in Hf. destruct m; discriminate.
    - destruct L as [L|L]; rewrite L in Hf; destruct m; try discriminate; cbn [release releaseWith ihandle] in R; try discriminate; injection R as _ <-; (split; [reflexivity|split; [discriminate|reflexivity]]).
    - destruct L as [L|L]; rewrite L in Hf; destruct m; try discriminate; cbn [release releaseWith ihandle] in R; try discriminate; injection R as _ <-; (split; [reflexivity|split; [discriminate|reflexivity]]). }
  destruct (release (methodOf (ucoll (puse u))) it2 w2) as [(it3, w3)|] eqn:R; [|exact Logic.I]. destruct (Key _ _ _ eq_refl R) as (-> & Hr & Hm).
  split; [reflexivity|]. split; [reflexivity|]. intros (it4 & w4 & R4 & Rs). rewrite (method_in file u _ _ _ _ _ w2 Props I2) in R4. cbn [useOf] in R4. rewrite Hm in R4. cbn [release releaseWith] in R4. injection R4 as _ <-.
  assert (r1 = []) as ->.
  { destruct (ucoll (puse u)) as [ci bb|ci st|ci st cc|ci bb nx] eqn:Ec; cbn [methodOf] in Hm; try discriminate.
    destruct Hd1 as [dt hd Ha L|l L|dt q z L|k L]; try reflexivity; cbn [useOf] in L; rewrite Ec in L; cbn [layers methodOf] in L; destruct L as [L|L]; discriminate. }
  rewrite app_nil_r in I2. exact (kept file pl d u D St Op _ _ _ _ _ _ _ _ _ HI I2 Hd2 Hr Rs).
Qed.
Print Assumptions calls_property_unfit_refuted.

(* ---- the data set of PropertiesDb.v with its collections opened in different ways ---- *)
Definition usesOf (t p v f o : config) : uses :=
  mkUses (useWith stringKind (tpos somePlaces) 0 false t) (useWith Fixed (ppos somePlaces) sizeofProperty true p)
    (useWith Fixed (vpos somePlaces) sizeofValue false v) (useWith profileKind (fpos somePlaces) 0 false f) (useWith Fixed (opos somePlaces) sizeofOffset true o).
Definition worldOf (u : uses) (fails : list io) : world := mkWorld (fun s => ucoll (useOf u s)) (ItemModel.mkMem 7 [(3%nat, 5)]) 2 fails.
Definition byFile := FromFile 0 0 0.
Definition byCache := FromFile 0 1 1.
Definition someConfig (c : config) : Prop := c = InMemory \/ c = byFile \/ c = byCache.
Lemma some_opened (k : kind) pos es isCount cfg : someConfig cfg ->
  match HeaderFrom someDbFile pos es isCount with
  | Some h => match CreateFromMemory h (skipn (hstart h) someDbFile) with Some c => negb (hasCache c) | None => false end &&
      match CreateFromFile someDbFile k exMem h 0 0 0 with Some (Some c) => negb (hasCache c) | _ => false end &&
      match CreateFromFile someDbFile k exMem h 0 1 1 with Some (Some c) => true | _ => false end
  | None => false
  end = true -> opened someDbFile k pos es isCount (useWith k pos es isCount cfg).
Proof.
  intros Hc H. destruct (HeaderFrom someDbFile pos es isCount) as [h|] eqn:Eh; [|discriminate]. apply andb_true_iff in H. destruct H as (H & H3). apply andb_true_iff in H. destruct H as (H1 & H2).
  destruct Hc as [->|[->| ->]].
  - destruct (CreateFromMemory h (skipn (hstart h) someDbFile)) as [c|] eqn:E; [|discriminate]. exists h. split; [exact Eh|]. cbn [useWith umem ufuel ucfg ucoll]. unfold openWith. rewrite Eh, E. split; [exact Logic.I|]. split; [exact E|]. intros X. rewrite X in H1. discriminate.
  - destruct (CreateFromFile someDbFile k exMem h 0 0 0) as [[c|]|] eqn:E; try discriminate. apply opened_plain; [lia|]. exists h, c. split; [exact Eh|]. split; [exact E|]. now destruct (hasCache c).
  - destruct (CreateFromFile someDbFile k exMem h 0 1 1) as [[c|]|] eqn:E; try discriminate. apply (opened_file _ _ _ _ 0 1 1 1); try lia; [split; [reflexivity|split; [vm_compute; lia|lia]]|]. exists h, c. auto.
Qed.
Lemma some_all_opened t p v f o : someConfig t -> someConfig p -> someConfig v -> someConfig f -> someConfig o -> allOpened someDbFile somePlaces (usesOf t p v f o).
Proof.
  intros H1 H2 H3 H4 H5. unfold allOpened, usesOf. cbn [tuse puse vuse fuse ouse pcount vcount ocount somePlaces]. split; [|split; [|split; [|split]]]; apply some_opened; auto; vm_compute; reflexivity.
Qed.
Lemma some_conc k pos es isCount cfg : someConfig cfg -> hasCache (ucoll (useWith k pos es isCount cfg)) = true -> match HeaderFrom someDbFile pos es isCount with
  | Some h => match CreateFromMemory h (skipn (hstart h) someDbFile) with Some c => negb (hasCache c) | None => false end && match CreateFromFile someDbFile k exMem h 0 0 0 with Some (Some c) => negb (hasCache c) | _ => false end
  | None => false
  end = true -> 0 < concOf cfg.
Proof.
  intros Hc X H. cbn [useWith ucoll] in X. unfold openWith in X. destruct (HeaderFrom someDbFile pos es isCount) as [h|]; [|discriminate]. apply andb_true_iff in H. destruct H as (H1 & H2). destruct Hc as [->|[->| ->]]; [exfalso|exfalso|cbn; lia].
  - destruct (CreateFromMemory h (skipn (hstart h) someDbFile)); [rewrite X in H1|]; discriminate.
  - unfold byFile in X. destruct (CreateFromFile someDbFile k exMem h 0 0 0) as [[c|]|]; try discriminate. rewrite X in H2. discriminate.
Qed.
Lemma some_ready t p v f o : someConfig t -> someConfig p -> someConfig v -> someConfig f -> someConfig o -> ready someDbFile someDb (usesOf t p v f o) (worldOf (usesOf t p v f o) []).
Proof.
  intros H1 H2 H3 H4 H5. split; [|split; [intros q n [E|[]]; injection E as <- <-; cbn; lia|split; [cbn; lia|reflexivity]]].
  intros s. exists []. split; [constructor|]. intros X. cbn [outstanding]. split.
  - destruct s; cbn [useOf usesOf tuse puse vuse fuse ouse useWith ucfg] in *; (eapply some_conc; [|exact X|vm_compute; reflexivity]); assumption.
  - destruct s; vm_compute; discriminate.
Qed.

(* strings in a cache of one, properties in memory: the name of the first property is kept, the
   name of the second cannot be read, and it is returned for a name that no property has *)
Theorem calls_property_wrong_refuted :
  let u := usesOf byCache InMemory InMemory InMemory InMemory in
  allOpened someDbFile somePlaces u /\ ready someDbFile someDb u (worldOf u []) /\ (forall i, ~ nameOfProp someDb i [67]) /\
  exists it1 w1, CallsModel.PropertyGetByName someDbFile (fuelOf u) [67] newItem (worldOf u []) = Some (Some (1, decoded someDb (someProp 1 2 2)), true, it1, w1) /\ ~ givesBack (worldOf u []) Props it1 w1.
Proof.
  cbv zeta. split; [apply some_all_opened; unfold someConfig; auto|]. split; [apply some_ready; unfold someConfig; auto|]. split.
  - intros i (p & E1 & E2). destruct i as [|[|i]]; cbn in E1; [injection E1 as <-; discriminate|injection E1 as <-; discriminate|destruct i; discriminate].
  - set (u := usesOf byCache InMemory InMemory InMemory InMemory).
    destruct (CallsModel.PropertyGetByName someDbFile (fuelOf u) [67] newItem (worldOf u [])) as [(((r, ok), it1), w1)|] eqn:E; [|vm_compute in E; discriminate].
    exists it1, w1. assert (r = Some (1, decoded someDb (someProp 1 2 2)) /\ ok = true /\ methodIn w1 Props = Nothing /\ usersOf (colls w1 Texts) (0, 0)%nat = 1) as (-> & -> & M & U).
    { assert (option_map (fun x => (fst (fst x), methodIn (snd x) Props, usersOf (colls (snd x) Texts) (0, 0)%nat)) (CallsModel.PropertyGetByName someDbFile (fuelOf u) [67] newItem (worldOf u [])) =
        Some ((Some (1, decoded someDb (someProp 1 2 2)), true), Nothing, 1)) as X by (vm_compute; reflexivity).
      rewrite E in X. cbn [option_map fst snd] in X. injection X as -> -> -> ->. auto. }
    split; [reflexivity|]. intros (it2 & w2 & R & _ & _ & R3). rewrite M in R. cbn [release releaseWith] in R. injection R as _ <-. specialize (R3 Texts (0, 0)%nat). rewrite U in R3. vm_compute in R3. discriminate.
Qed.
Print Assumptions calls_property_wrong_refuted.
(* what is seen of the result of a call *)
Definition seen {A} (r : option (A * world)) : option (A * list (nat * Z) * nat * list Z) :=
  option_map (fun x => (fst x, ItemModel.live (heap (snd x)), handles (snd x), map (fun s => usersOf (colls (snd x) s) (0, 0)%nat) [Texts; Props; Vals; Profs; Offs])) r.
Lemma seen_some {A} (r : option (A * world)) a l h us : seen r = Some (a, l, h, us) ->
  exists w1, r = Some (a, w1) /\ ItemModel.live (heap w1) = l /\ handles w1 = h /\ map (fun s => usersOf (colls w1 s) (0, 0)%nat) [Texts; Props; Vals; Profs; Offs] = us.
Proof. destruct r as [(x, w1)|]; [|discriminate]. cbn [seen option_map fst snd]. intros E. injection E as <- <- <- <-. exists w1. auto. Qed.
Definition iterate1 (u : uses) (fails : list io) (a b : list Z) := CallsModel.ProfileIterateProfilesForPropertyAndValue someDbFile (fuelOf u) (fun _ _ => 0) a b (worldOf u fails).
(* profiles in a cache of one, profile offsets in memory: of the profiles with the value b of
   the property A only one is found, and it is kept *)
Theorem calls_profiles_missing_refuted :
  let u := usesOf InMemory InMemory InMemory byCache InMemory in
  allOpened someDbFile somePlaces u /\ ready someDbFile someDb u (worldOf u []) /\
  (exists n f, nth_error (order someDb) 1 = Some n /\ nth_error (profs someDb) n = Some f /\ In 1 (prvalues f) /\ nameOfVal someDb 1 [98]) /\
  exists w1, iterate1 u [] [65] [98] = Some ([0], true, w1) /\ ~ restored (worldOf u []) w1.
Proof.
  cbv zeta. split; [apply some_all_opened; unfold someConfig; auto|]. split; [apply some_ready; unfold someConfig; auto|]. split.
  - exists 0%nat, (mkProf 0 11 [0; 1; 2]). split; [reflexivity|]. split; [reflexivity|]. split; [cbn; auto|]. split; [lia|]. eexists. split; reflexivity.
  - set (u := usesOf InMemory InMemory InMemory byCache InMemory). destruct (seen_some (iterate1 u [] [65] [98]) ([0], true) [(3%nat, 5)] 2%nat [0; 0; 0; 1; 0] ltac:(vm_compute; reflexivity)) as (w1 & E & _ & _ & U).
    exists w1. split; [exact E|]. intros (_ & _ & R). specialize (R Profs (0, 0)%nat). cbn [map] in U. injection U as _ _ _ U _. rewrite U in R. vm_compute in R. discriminate.
Qed.
Print Assumptions calls_profiles_missing_refuted.
(* profiles from a file, profile offsets in memory: all are found, and the memory of one is kept;
   profile offsets from a file, profiles in memory: undefined *)
Theorem calls_profiles_kept_refuted :
  let u := usesOf InMemory InMemory InMemory byFile InMemory in
  let v := usesOf InMemory InMemory InMemory InMemory byFile in
  allOpened someDbFile somePlaces u /\ ready someDbFile someDb u (worldOf u []) /\ allOpened someDbFile somePlaces v /\ ready someDbFile someDb v (worldOf v []) /\
  (exists w1, iterate1 u [] [65] [98] = Some ([0; 1], true, w1) /\ ItemModel.live (heap w1) = [(8%nat, 21); (3%nat, 5)]) /\ iterate1 v [] [65] [98] = None.
Proof.
  cbv zeta. split; [apply some_all_opened; unfold someConfig; auto|]. split; [apply some_ready; unfold someConfig; auto|]. split; [apply some_all_opened; unfold someConfig; auto|]. split; [apply some_ready; unfold someConfig; auto|]. split; [|vm_compute; reflexivity].
  set (u := usesOf InMemory InMemory InMemory byFile InMemory). destruct (seen_some (iterate1 u [] [65] [98]) ([0; 1], true) [(8%nat, 21); (3%nat, 5)] 2%nat [0; 0; 0; 0; 0] ltac:(vm_compute; reflexivity)) as (w1 & E & L & _). exists w1. auto.
Qed.
Print Assumptions calls_profiles_kept_refuted.
(* also with collections that fit, when a read fails: the name of a property cannot be read, and
   the property is kept; a profile cannot be read, and each profile after it costs a file handle *)
Theorem calls_failure_refuted :
  let u := usesOf byFile byFile byFile byFile byFile in
  let v := usesOf InMemory InMemory InMemory byFile byFile in
  allOpened someDbFile somePlaces u /\ compatible u /\ ready someDbFile someDb u (worldOf u []) /\ allOpened someDbFile somePlaces v /\ compatible v /\ ready someDbFile someDb v (worldOf v []) /\
  (exists w1, iterate1 u [IoOk; IoRead] [65] [98] = Some ([], false, w1) /\ ItemModel.live (heap w1) = [(7%nat, 44); (3%nat, 5)]) /\
  (exists w1, iterate1 v [IoOk; IoOk; IoOk; IoOk; IoOk; IoOk; IoOk; IoRead] [65] [98] = Some ([], false, w1) /\ handles (worldOf v []) = 2%nat /\ handles w1 = 0%nat).
Proof.
  cbv zeta. split; [apply some_all_opened; unfold someConfig; auto|]. split; [split; vm_compute; reflexivity|]. split; [apply some_ready; unfold someConfig; auto|]. split; [apply some_all_opened; unfold someConfig; auto|]. split; [split; vm_compute; reflexivity|]. split; [apply some_ready; unfold someConfig; auto|]. split.
  - set (u := usesOf byFile byFile byFile byFile byFile). destruct (seen_some (iterate1 u [IoOk; IoRead] [65] [98]) ([], false) [(7%nat, 44); (3%nat, 5)] 2%nat [0; 0; 0; 0; 0] ltac:(vm_compute; reflexivity)) as (w1 & E & L & _). exists w1. auto.
  - set (v := usesOf InMemory InMemory InMemory byFile byFile).
    destruct (seen_some (iterate1 v [IoOk; IoOk; IoOk; IoOk; IoOk; IoOk; IoOk; IoRead] [65] [98]) ([], false) [(3%nat, 5)] 0%nat [0; 0; 0; 0; 0] ltac:(vm_compute; reflexivity)) as (w1 & E & _ & Hd & _). exists w1. auto.
Qed.
Print Assumptions calls_failure_refuted.

(* ---- the hypotheses of C113 and C114 hold for the data set with different collections ---- *)
Example calls_hypotheses : allOpened someDbFile somePlaces someUses /\ compatible someUses /\ ready someDbFile someDb someUses (worldOf someUses []) /\
  (let u := usesOf byCache byCache byCache byCache byCache in allOpened someDbFile somePlaces u /\ compatible u /\ ready someDbFile someDb u (worldOf u [])) /\
  (let u := usesOf byFile byFile InMemory byCache byCache in allOpened someDbFile somePlaces u /\ compatible u /\ ready someDbFile someDb u (worldOf u [])) /\
  (let u := usesOf InMemory InMemory byFile InMemory InMemory in allOpened someDbFile somePlaces u /\ compatible u /\ ready someDbFile someDb u (worldOf u [])).
Proof.
  split; [exact someDb_opened|]. split; [split; vm_compute; reflexivity|]. split.
  - split; [|split; [intros q n [E|[]]; injection E as <- <-; cbn; lia|split; [cbn; lia|reflexivity]]]. intros s. exists []. split; [constructor|]. intros X. cbn [outstanding]. split; [destruct s; vm_compute in X |- *; (reflexivity || discriminate)|destruct s; vm_compute; discriminate].
  - cbv zeta. unfold compatible. repeat match goal with |- _ /\ _ => split end; try (apply some_all_opened; unfold someConfig; auto); try (apply some_ready; unfold someConfig; auto); vm_compute; reflexivity.
Qed.
Example calls_cases :
  seen (iterate1 someUses [] [65] [98]) = Some ([0; 1], true, [(3%nat, 5)], 2%nat, [0; 0; 0; 0; 0]) /\
  (let u := usesOf byCache byCache byCache byCache byCache in seen (iterate1 u [] [65] [97]) = Some ([1], true, [(3%nat, 5)], 2%nat, [0; 0; 0; 0; 0])) /\
  (let u := usesOf byFile byFile InMemory byCache byCache in seen (iterate1 u [] [65] [98]) = Some ([0; 1], true, [(3%nat, 5)], 2%nat, [0; 0; 0; 0; 0])) /\
  (let u := usesOf byFile byCache InMemory byFile byFile in seen (iterate1 u [] [65] [98]) = None) /\
  (let u := usesOf byFile byFile byFile byFile byFile in
   option_map (fun x => (fst (fst (fst x)), ItemModel.live (heap (snd x)))) (CallsModel.ProfileGetByProfileId someDbFile (fuelOf u) 11 newItem (worldOf u [])) =
     Some (Some (encProf (mkProf 0 11 [0; 1; 2])), [(8%nat, 21); (3%nat, 5)]) /\
   option_map (fun x => (fst (fst (fst x)), ItemModel.live (heap (snd x)))) (CallsModel.ValueGetByName someDbFile (fuelOf u) (fun _ _ => 0) (decoded someDb (someProp 0 0 1)) [98] newItem (worldOf u [])) =
     Some (Some (encVal someDb (mkVal 0 3 6 5)), [(9%nat, 14); (3%nat, 5)])).
Proof. repeat split; vm_compute; reflexivity. Qed.
(* C113: all methods and ways to open *)
Example methods_fit :
  let coll t := ucoll (useWith stringKind (tpos somePlaces) 0 false t) in
  map (fun t => map (fun m => fits_method m (coll t)) [Nothing; ByFile; ByCache; ByItem]) [InMemory; byFile; byCache; FromFile 4 0 0; FromFile 4 1 1] =
  [[true; false; false; true]; [false; true; false; true]; [false; false; true; true]; [false; true; false; true]; [false; false; true; true]] /\
  fromLast (coll (FromFile 4 0 0)) 0 = false /\ fromLast (coll (FromFile 4 0 0)) (textAt someDb 6) = true /\ fromLast (coll byFile) 0 = true.
Proof. repeat split; vm_compute; reflexivity. Qed.
