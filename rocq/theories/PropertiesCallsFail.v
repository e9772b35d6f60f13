(* C116: the functions of property.c, value.c and profile.c when reads fail *)
From Verif Require Import TreeModel CacheModel CacheSpec CollectionModel CollectionSpec CollectionProps PropertiesCollection.
From Verif Require ItemModel.
From Verif Require Import SearchModel ProfileModel ProfileSpec ProfileProofs PropertiesProfile DbModel DbSpec DbProofs DbFound PropertiesDb.
From Verif Require Import CallsModel CallsSpec CallsGet CallsWorld CallsProofs PropertiesCalls CallsFail.
Local Open Scope Z_scope.

Lemma blocks_left : forall m0 hp rs, LifeProofs.owns m0 hp (blocks rs) -> filter (fun b => negb (existsb (Nat.eqb (fst b)) (map fst (blocks rs)))) (ItemModel.live hp) = m0.
Proof.
  intros m0 hp rs O. rewrite <- (LifeProofs.o_gone _ _ _ O). unfold LifeProofs.gone, LifeProofs.hasBlock. apply filter_ext. intros (p, n). cbn [fst]. f_equal.
  clear O. induction (blocks rs) as [|(q, z) l IH]; cbn; [reflexivity|]. now rewrite IH.
Qed.
Lemma few_blocks : forall u s it rs, rs = [] \/ heldBy u s it rs -> (length (map fst (blocks rs)) <= 1)%nat.
Proof. intros u s it rs [->|H]; [cbn; lia|]. destruct H; cbn; lia. Qed.
Lemma after_lost : forall file u w rs w' n, lost file u (ItemModel.live (heap w)) (handles w) rs w' -> (length (map fst (blocks rs)) <= n)%nat -> afterFailure n file u w w'.
Proof.
  intros file u w rs w' n (u1 & o1 & h1 & [H1 H2 H3 H4] & Hl) L. cbn [clean colls heap handles] in *. split; [|split].
  - exists (map fst (blocks rs)). split; [exact L|]. exact (blocks_left _ _ _ H2).
  - lia.
  - intros s. destruct (H1 s) as (tr & E & _). exists tr. exact E.
Qed.
Lemma after_failed : forall file u out0 w rs w' n, failed file u out0 (ItemModel.live (heap w)) (handles w) rs w' -> (length (map fst (blocks rs)) <= n)%nat -> afterFailure n file u w w' /\ handles w' = handles w.
Proof.
  intros file u out0 w rs w' n (u1 & o1 & HI & Ho) L. split; [|exact (i_handles _ _ _ _ _ _ _ _ HI)]. apply (after_lost file u w rs w' n); [|exact L]. exists u1, o1, (handles w). split; [exact HI|lia].
Qed.
Lemma restored_clean : forall w w1, restored (clean w) (clean w1) -> restored w w1.
Proof. intros w w1 H. exact H. Qed.
Lemma gives_clean : forall w s it w1, givesBack (clean w) s it (clean w1) -> givesBack w s it w1.
Proof.
  intros w s it w1 (it2 & w2 & R & H). destruct (release_clean _ _ _ _ _ R) as (w3 & R' & <-). exists it2, w3. split; [exact R'|]. exact (restored_clean _ _ H).
Qed.

(* C116: whatever fails, and whatever was done before, the functions end and either return what
   the data set says, giving all back, or set the exception; then at most one block is kept *)
Theorem failing_value_type : forall file pl d u w j p, dbOK d -> stored file pl d -> allOpened file pl u -> ready file d u (clean w) -> nth_error (props d) j = Some p ->
  exists t ok w1, CallsModel.PropertyGetValueType file (fuelOf u) (Z.of_nat j) w = Some (t, ok, w1) /\
    if ok then t = ptype p /\ restored w w1 else t = 0 /\ afterFailure 0 file u w w1 /\ handles w1 = handles w.
Proof.
  intros file pl d u w j p D St Op Rd Np. destruct (start file d u _ Rd) as (use0 & out0 & room & HI & Hh). destruct (calls_value_type file pl d u _ j p D St Op Rd Np) as (wc & E & R).
  destruct (value_type_fails file pl d u D St Op use0 out0 _ _ room Hh [] w j p _ _ HI eq_refl Np E) as [(w1 & E1 & <-)|(w' & E1 & Fd)].
  - exists (ptype p), true, w1. auto.
  - exists 0, false, w'. split; [exact E1|]. split; [reflexivity|]. exact (after_failed file u out0 w [] w' 0 Fd ltac:(cbn; lia)).
Qed.
Print Assumptions failing_value_type.
Theorem failing_property_by_name : forall file pl d u w it s, dbOK d -> stored file pl d -> allOpened file pl u -> ready file d u (clean w) -> compatible u -> ItemModel.allocated (idata it) = 0 -> bytes s ->
  exists r ok it1 w1, CallsModel.PropertyGetByName file (fuelOf u) s it w = Some (r, ok, it1, w1) /\
    match r with
    | Some (k, q) => exists j p, k = Z.of_nat j /\ nth_error (props d) j = Some p /\ q = decoded d p /\
        if ok then nth_error (texts d) (pname p) = Some s /\ (forall i, (i < j)%nat -> ~ nameOfProp d i s) /\ givesBack w Props it1 w1
        else afterFailure 1 file u w w1 /\ handles w1 = handles w /\ exists it2 w2, release (methodIn w1 Props) it1 w1 = Some (it2, w2) /\ afterFailure 0 file u w w2
    | None => if ok then restored w w1 /\ (forall i, ~ nameOfProp d i s) else afterFailure 0 file u w w1 /\ handles w1 = handles w
    end.
Proof.
  intros file pl d u w it s D St Op Rd C Hi B. destruct (start file d u _ Rd) as (use0 & out0 & room & HI & Hh). pose proof C as (C1 & _).
  assert (exists r it1 wc, CallsModel.PropertyGetByName file (fuelOf u) s it (clean w) = Some (r, true, it1, wc) /\
    match r with
    | Some (k, q) => exists j p, k = Z.of_nat j /\ nth_error (props d) j = Some p /\ q = decoded d p /\ nth_error (texts d) (pname p) = Some s /\ (forall i, (i < j)%nat -> ~ nameOfProp d i s) /\ givesBack (clean w) Props it1 wc
    | None => restored (clean w) wc /\ forall i, ~ nameOfProp d i s
    end) as (r & it1 & wc & E & H).
  { assert (Dec : forall n, (exists j, (j < n)%nat /\ nameOfProp d j s /\ forall i, (i < j)%nat -> ~ nameOfProp d i s) \/ (forall i, (i < n)%nat -> ~ nameOfProp d i s)).
    { induction n as [|n [(j & Hj & X)|IH]]; [right; lia|left; exists j; split; [lia|exact X]|].
      assert (nameOfProp d n s \/ ~ nameOfProp d n s) as [Y|Y].
      { unfold nameOfProp. destruct (nth_error (props d) n) as [p|]; [|right; intros (p & X & _); discriminate]. destruct (nth_error (texts d) (pname p)) as [x|] eqn:Ex; [|right; intros (p' & X & Y); injection X as <-; congruence].
        destruct (list_eq_dec Z.eq_dec x s) as [->|Ne]; [left; eauto|right; intros (p' & X & Y); injection X as <-; congruence]. }
      - left. exists n. split; [lia|]. split; [exact Y|exact IH].
      - right. intros i Hx. destruct (Nat.eq_dec i n) as [->|]; [exact Y|apply IH; lia]. }
    destruct (Dec (length (props d))) as [(j & Hj & (p & Np & Nt) & First)|No].
    - destruct (calls_property_by_name file pl d u _ it j p s D St Op Rd C Hi Np Nt First) as (it1 & w1 & E & G). exists (Some (Z.of_nat j, decoded d p)), it1, w1. split; [exact E|]. exists j, p. auto 10.
    - assert (forall i, ~ nameOfProp d i s) as No'. { intros i N. destruct (Nat.lt_ge_cases i (length (props d))) as [L|L]; [exact (No i L N)|]. destruct N as (p & Np & _). apply nth_error_None in L. congruence. }
      destruct (calls_property_unknown file pl d u _ it s D St Op Rd C Hi B No') as (it1 & w1 & E & G). exists None, it1, w1. auto. }
  destruct (by_name_fails file pl d u D St Op use0 out0 _ _ room Hh C1 s [] it w r it1 wc HI eq_refl eq_refl Hi E) as [(w1 & E1 & <-)|(r' & it' & w' & rs & E1 & Fd & Hr)].
  - exists r, true, it1, w1. split; [exact E1|]. destruct r as [(k, q)|]; [|exact H]. destruct H as (j & p & H1 & H2 & H3 & H4 & H5 & H6). exists j, p. repeat (split; [assumption|]). exact (gives_clean _ _ _ _ H6).
  - rewrite app_nil_r in Fd. exists r', false, it', w'. split; [exact E1|]. destruct r' as [(k, q)|].
    + destruct Hr as (Hd & Hk & p & Np & ->). exists (Z.to_nat k), p. split; [lia|]. split; [exact Np|]. split; [reflexivity|].
      destruct (after_failed file u out0 w rs w' 1 Fd (few_blocks u Props it' rs (or_intror Hd))) as (A1 & A2). split; [exact A1|]. split; [exact A2|].
      rewrite <- (app_nil_r rs) in Fd. destruct (released_failed file pl d u D St Op out0 _ _ [] w' Props it' rs Props Fd Hd (own file pl d u D St Op Props)) as (it2 & w2 & R & F2). exists it2, w2. split; [exact R|].
      apply (after_failed file u out0 w [] w2 0 F2). cbn. lia.
    + subst rs. apply (after_failed file u out0 w [] w' 0 Fd). cbn. lia.
Qed.
Print Assumptions failing_property_by_name.
Theorem failing_value_index : forall file pl d u w compareOther j p name, dbOK d -> stored file pl d -> allOpened file pl u -> ready file d u (clean w) ->
  nth_error (props d) j = Some p -> namesSorted d p -> bytes name -> pfirst p <= plast p \/ methodOf (ucoll (vuse u)) = Nothing ->
  exists r ok w1, CallsModel.ValueGetIndexByName file (fuelOf u) compareOther (decoded d p) name w = Some (r, ok, w1) /\
    if ok then restored w w1 /\ ((r = -1 /\ forall v, pfirst p <= v <= plast p -> ~ nameOfVal d v name) \/ (pfirst p <= r <= plast p /\ nameOfVal d r name))
    else r = 0 /\ afterFailure 1 file u w w1 /\ handles w1 = handles w.
Proof.
  intros file pl d u w compareOther j p name D St Op Rd Np Ns B Hor. destruct (start file d u _ Rd) as (use0 & out0 & room & HI & Hh).
  destruct (calls_value_index file pl d u _ compareOther j p name D St Op Rd Np Ns B Hor) as (r & wc & E & R & H). destruct (prop_in d D _ _ Np) as (_ & _ & _ & (P0 & _) & _). pose proof Ns as ((N1 & N2 & N3) & _).
  destruct (value_index_fails file pl d u D St Op use0 out0 _ _ room Hh compareOther (decoded d p) name [] w r wc HI eq_refl eq_refl P0 N2 E) as [(w1 & E1 & <-)|(w' & it' & rs & E1 & Fd & Hr)].
  - exists r, true, w1. auto.
  - rewrite app_nil_r in Fd. exists 0, false, w'. split; [exact E1|]. split; [reflexivity|]. exact (after_failed file u out0 w rs w' 1 Fd (few_blocks u Vals it' rs Hr)).
Qed.
Print Assumptions failing_value_index.
Theorem failing_value_by_name : forall file pl d u w it compareOther j p name, dbOK d -> stored file pl d -> allOpened file pl u -> ready file d u (clean w) ->
  nth_error (props d) j = Some p -> namesSorted d p -> bytes name -> pfirst p <> 2 ^ 32 - 1 ->
  exists r ok it1 w1, CallsModel.ValueGetByName file (fuelOf u) compareOther (decoded d p) name it w = Some (r, ok, it1, w1) /\
    if ok then
      match r with
      | Some b => givesBack w Vals it1 w1 /\ exists v x rest, pfirst p <= v <= plast p /\ nameOfVal d v name /\ nth_error (vals d) (Z.to_nat v) = Some x /\ b = encVal d x ++ rest
      | None => restored w w1 /\ forall v, pfirst p <= v <= plast p -> ~ nameOfVal d v name
      end
    else r = None /\ afterFailure 1 file u w w1 /\ handles w1 = handles w.
Proof.
  intros file pl d u w it compareOther j p name D St Op Rd Np Ns B Hf. destruct (start file d u _ Rd) as (use0 & out0 & room & HI & Hh).
  destruct (calls_value_by_name file pl d u _ it compareOther j p name D St Op Rd Np Ns B Hf) as (r & it1 & wc & E & H). destruct (prop_in d D _ _ Np) as (_ & _ & _ & (P0 & _) & _). pose proof Ns as ((N1 & N2 & N3) & _).
  destruct (value_get_fails file pl d u D St Op use0 out0 _ _ room Hh compareOther (decoded d p) name [] it w r it1 wc HI eq_refl eq_refl P0 N2 E) as [(w1 & E1 & <-)|(it' & w' & rs & E1 & Fd & Hr)].
  - exists r, true, it1, w1. split; [exact E1|]. destruct r as [b|]; [|exact H]. destruct H as (G & H). split; [exact (gives_clean _ _ _ _ G)|exact H].
  - rewrite app_nil_r in Fd. exists None, false, it', w'. split; [exact E1|]. split; [reflexivity|]. exact (after_failed file u out0 w rs w' 1 Fd (few_blocks u Vals it' rs Hr)).
Qed.
Print Assumptions failing_value_by_name.
Theorem failing_profiles : forall file pl d u w compareOther j p propertyName valueName, dbOK d -> stored file pl d -> allOpened file pl u -> ready file d u (clean w) -> compatible u ->
  nth_error (props d) j = Some p -> nth_error (texts d) (pname p) = Some propertyName -> (forall i, (i < j)%nat -> ~ nameOfProp d i propertyName) -> namesSorted d p -> notLast d p -> bytes valueName ->
  pfirst p <= plast p \/ methodOf (ucoll (vuse u)) = Nothing ->
  exists all called ok w1, CallsModel.ProfileIterateProfilesForPropertyAndValue file (fuelOf u) compareOther propertyName valueName w = Some (called, ok, w1) /\ StronglySorted Z.lt all /\
    (forall i, In i all <-> 0 <= i /\ exists n f v, nth_error (order d) (Z.to_nat i) = Some n /\ nth_error (profs d) n = Some f /\ In v (prvalues f) /\ pfirst p <= v <= plast p /\ nameOfVal d v valueName) /\
    if ok then called = all /\ restored w w1 else (exists later, all = called ++ later) /\ afterFailure 1 file u w w1.
Proof.
  intros file pl d u w compareOther j p propertyName valueName D St Op Rd C Np Nt First Ns Nl B Hor. destruct (start file d u _ Rd) as (use0 & out0 & room & HI & Hh). pose proof C as (C1 & C2).
  destruct (calls_profiles_with_value file pl d u _ compareOther j p propertyName valueName D St Op Rd C Np Nt First Ns Nl B Hor) as (all & wc & E & R & So & H).
  destruct (prop_in d D _ _ Np) as (_ & _ & _ & (P0 & _) & _). pose proof Ns as ((N1 & N2 & N3) & _).
  exists all. destruct (iterate_fails file pl d u D St Op use0 out0 _ _ room Hh compareOther propertyName valueName w all wc C1 C2 HI) as [(w1 & E1 & <-)|(k & w' & rs & s & it & E1 & L & Hr)].
  - intros k q it1 w1 G. destruct (calls_property_by_name file pl d u _ newItem j p propertyName D St Op Rd C eq_refl Np Nt First) as (it2 & w2 & G2 & _). rewrite G2 in G. injection G as _ <- _ _. split; [exact P0|]. split; [exact N2|]. split; [exact Hor|].
    destruct (index_of file pl d u out0 compareOther j p valueName D St Op room Np Ns B) as (r & X & _). rewrite X. discriminate.
  - exact E.
  - exists all, true, w1. auto.
  - exists (firstn k all), false, w'. split; [exact E1|]. split; [exact So|]. split; [exact H|]. split; [exists (skipn k all); symmetry; apply firstn_skipn|]. exact (after_lost file u w rs w' 1 L (few_blocks u s it rs Hr)).
Qed.
Print Assumptions failing_profiles.
Theorem failing_profile_by_index : forall file pl d u w it i n f, dbOK d -> stored file pl d -> allOpened file pl u -> ready file d u (clean w) -> ItemModel.allocated (idata it) = 0 ->
  nth_error (order d) i = Some n -> nth_error (profs d) n = Some f ->
  exists r ok it1 w1, CallsModel.ProfileGetByIndex file (fuelOf u) (Z.of_nat i) it w = Some (r, ok, it1, w1) /\
    if ok then givesBack w Profs it1 w1 /\ exists b after, r = Some b /\ profileOf b = Some (mkProfile (prvalues f) after)
    else r = None /\ afterFailure 0 file u w w1 /\ handles w1 = handles w.
Proof.
  intros file pl d u w it i n f D St Op Rd Hi Nn Nf. destruct (start file d u _ Rd) as (use0 & out0 & room & HI & Hh).
  destruct (calls_profile_by_index file pl d u _ it i n f D St Op Rd Hi Nn Nf) as (b & after & it1 & wc & E & Ep & G).
  destruct (by_index_fails file pl d u D St Op use0 out0 _ _ room Hh [] w i n f it _ it1 wc HI Hi Nn Nf eq_refl eq_refl E) as [(w1 & E1 & <-)|(it' & w' & E1 & Fd)].
  - exists (Some b), true, it1, w1. split; [exact E1|]. split; [exact (gives_clean _ _ _ _ G)|]. eauto.
  - exists None, false, it', w'. split; [exact E1|]. split; [reflexivity|]. exact (after_failed file u out0 w [] w' 0 Fd ltac:(cbn; lia)).
Qed.
Print Assumptions failing_profile_by_index.
(* with profile offsets in memory *)
Theorem failing_profile_by_id : forall file pl d u w it id, dbOK d -> stored file pl d -> allOpened file pl u -> ready file d u (clean w) -> ItemModel.allocated (idata it) = 0 -> id <> 0 -> order d <> [] ->
  methodOf (ucoll (ouse u)) = Nothing ->
  (forall i j n m f g, (i < j)%nat -> nth_error (order d) i = Some n -> nth_error (order d) j = Some m -> nth_error (profs d) n = Some f -> nth_error (profs d) m = Some g -> prid f < prid g) ->
  exists r ok it1 w1, CallsModel.ProfileGetByProfileId file (fuelOf u) id it w = Some (r, ok, it1, w1) /\
    if ok then
      match r with
      | Some b => givesBack w Profs it1 w1 /\ exists i n f after, nth_error (order d) i = Some n /\ nth_error (profs d) n = Some f /\ prid f = id /\ profileOf b = Some (mkProfile (prvalues f) after)
      | None => restored w w1 /\ forall i n f, nth_error (order d) i = Some n -> nth_error (profs d) n = Some f -> prid f <> id
      end
    else r = None /\ afterFailure 0 file u w w1 /\ handles w1 = handles w.
Proof.
  intros file pl d u w it id D St Op Rd Hi Hid Hn M Hs. destruct (start file d u _ Rd) as (use0 & out0 & room & HI & Hh).
  destruct (calls_profile_by_id file pl d u _ it id D St Op Rd Hi Hid Hn Hs) as (r & it1 & wc & E & H).
  destruct (by_id_fails file pl d u D St Op use0 out0 _ _ room Hh [] w id it M HI Hi eq_refl eq_refl eq_refl Hid Hn Hs r it1 wc E) as [(w1 & E1 & <-)|(it' & w' & E1 & Fd)].
  - exists r, true, it1, w1. split; [exact E1|]. destruct r as [b|]; [|exact H]. destruct H as (G & H). split; [exact (gives_clean _ _ _ _ G)|exact H].
  - exists None, false, it', w'. split; [exact E1|]. split; [reflexivity|]. exact (after_failed file u out0 w [] w' 0 Fd ltac:(cbn; lia)).
Qed.
Print Assumptions failing_profile_by_id.
(* refuted otherwise: when the first profile offset looked at cannot be read the behaviour is
   undefined (a null pointer is used) *)
Theorem failing_profile_by_id_refuted : forall file fuel w it id it1 w1, id <> 0 -> 0 < CollectionGetCount (colls w Offs) <= 2 ^ 32 ->
  get file fuel Offs ((CollectionGetCount (colls w Offs) - 1) / 2) true newItem w = Some (None, false, it1, w1) ->
  CallsModel.ProfileGetByProfileId file fuel id it w = None.
Proof.
  intros file fuel w it id it1 w1 Hid Hc G. unfold CallsModel.ProfileGetByProfileId, CallsModel.ProfileGetOffsetForProfileId. destruct (Z.eqb_spec id 0); [contradiction|].
  rewrite (Z.mod_small (CollectionGetCount (colls w Offs) - 1)) by lia. generalize 32%nat. intros n0. cbn [CallsModel.search]. rewrite Z.sub_0_r, Z.add_0_l. destruct (Z.leb_spec 0 (CollectionGetCount (colls w Offs) - 1)); [|lia]. rewrite G. reflexivity.
Qed.
Print Assumptions failing_profile_by_id_refuted.

Definition c5 := usesOf byCache byCache byCache byCache byCache.
Definition f5 := usesOf byFile byFile byFile byFile byFile.
Definition p5 := usesOf InMemory InMemory InMemory (FromFile 1 0 0) (FromFile 1 0 0).
Definition q5 := usesOf InMemory InMemory InMemory (FromFile 1 1 1) (FromFile 1 1 1).
(* the n-th get fails *)
Definition at_get (f : io) (n : nat) : list io := repeat IoOk n ++ [f].

(* the profiles with the value b of the property A: what is called, whether the exception is clear,
   the memory, the file handles and the users of the first nodes of the caches *)
Example failing_profiles_cases :
  map (fun n => seen (iterate1 c5 (at_get IoRead n) [65] [98])) (seq 0 12) =
    [Some ([], false, [(3%nat, 5)], 2%nat, [0; 1; 0; 0; 0]); Some ([], false, [(3%nat, 5)], 2%nat, [1; 1; 0; 0; 0]); Some ([], false, [(3%nat, 5)], 2%nat, [0; 0; 1; 0; 0]); Some ([], false, [(3%nat, 5)], 2%nat, [1; 0; 1; 0; 0]); Some ([], false, [(3%nat, 5)], 2%nat, [0; 0; 1; 0; 0]); Some ([], false, [(3%nat, 5)], 2%nat, [1; 0; 1; 0; 0]); Some ([], false, [(3%nat, 5)], 2%nat, [0; 0; 0; 0; 1]); Some ([], false, [(3%nat, 5)], 1%nat, [0; 0; 0; 1; 1]); Some ([0], false, [(3%nat, 5)], 2%nat, [0; 0; 0; 0; 1]); Some ([0], false, [(3%nat, 5)], 1%nat, [0; 0; 0; 1; 1]); Some ([0; 1], false, [(3%nat, 5)], 2%nat, [0; 0; 0; 0; 1]); Some ([0; 1], false, [(3%nat, 5)], 2%nat, [0; 0; 0; 1; 0])] /\
  map (fun n => seen (iterate1 f5 (at_get IoRead n) [65] [98])) (seq 0 12) =
    [Some ([], false, [(3%nat, 5)], 2%nat, [0; 0; 0; 0; 0]); Some ([], false, [(7%nat, 44); (3%nat, 5)], 2%nat, [0; 0; 0; 0; 0]); Some ([], false, [(3%nat, 5)], 2%nat, [0; 0; 0; 0; 0]); Some ([], false, [(9%nat, 14); (3%nat, 5)], 2%nat, [0; 0; 0; 0; 0]); Some ([], false, [(3%nat, 5)], 2%nat, [0; 0; 0; 0; 0]); Some ([], false, [(11%nat, 14); (3%nat, 5)], 2%nat, [0; 0; 0; 0; 0]); Some ([], false, [(3%nat, 5)], 0%nat, [0; 0; 0; 0; 0]); Some ([], false, [(3%nat, 5)], 0%nat, [0; 0; 0; 0; 0]); Some ([0], false, [(3%nat, 5)], 1%nat, [0; 0; 0; 0; 0]); Some ([0], false, [(3%nat, 5)], 1%nat, [0; 0; 0; 0; 0]); Some ([0; 1], false, [(3%nat, 5)], 2%nat, [0; 0; 0; 0; 0]); Some ([0; 1], false, [(3%nat, 5)], 2%nat, [0; 0; 0; 0; 0])] /\
  map (fun n => seen (iterate1 f5 (at_get IoMemory n) [65] [98])) [1; 3; 7]%nat =
    [Some ([], false, [(7%nat, 44); (3%nat, 5)], 2%nat, [0; 0; 0; 0; 0]); Some ([], false, [(9%nat, 14); (3%nat, 5)], 2%nat, [0; 0; 0; 0; 0]); Some ([], false, [(3%nat, 5)], 0%nat, [0; 0; 0; 0; 0])] /\
  map (fun n => seen (iterate1 f5 (at_get IoHandle n) [65] [98])) [1; 3; 7]%nat =
    [Some ([], false, [(7%nat, 44); (3%nat, 5)], 2%nat, [0; 0; 0; 0; 0]); Some ([], false, [(9%nat, 14); (3%nat, 5)], 2%nat, [0; 0; 0; 0; 0]); Some ([], false, [(3%nat, 5)], 0%nat, [0; 0; 0; 0; 0])] /\
  map (fun n => seen (iterate1 p5 (at_get IoRead n) [65] [98])) (seq 6 6) =
    [Some ([0; 1], true, [(3%nat, 5)], 2%nat, [0; 0; 0; 0; 0]); Some ([], false, [(3%nat, 5)], 0%nat, [0; 0; 0; 0; 0]); Some ([0], false, [(3%nat, 5)], 1%nat, [0; 0; 0; 0; 0]); Some ([0; 1], true, [(3%nat, 5)], 2%nat, [0; 0; 0; 0; 0]); Some ([0; 1], false, [(3%nat, 5)], 2%nat, [0; 0; 0; 0; 0]); Some ([0; 1], false, [(3%nat, 5)], 2%nat, [0; 0; 0; 0; 0])] /\
  map (fun n => seen (iterate1 q5 (at_get IoRead n) [65] [98])) (seq 6 6) =
    [Some ([0; 1], true, [(3%nat, 5)], 2%nat, [0; 0; 0; 0; 0]); Some ([], false, [(3%nat, 5)], 1%nat, [0; 0; 0; 1; 1]); Some ([0], false, [(3%nat, 5)], 2%nat, [0; 0; 0; 0; 1]); Some ([0; 1], true, [(3%nat, 5)], 2%nat, [0; 0; 0; 0; 0]); Some ([0; 1], false, [(3%nat, 5)], 2%nat, [0; 0; 0; 0; 1]); Some ([0; 1], false, [(3%nat, 5)], 2%nat, [0; 0; 0; 1; 0])].
Proof. repeat match goal with |- _ /\ _ => split end; vm_compute; reflexivity. Qed.
(* gets with the exception set *)
Example failing_get_cases :
  map (fun i => seen (get someDbFile (fuelOf p5) Offs i false newItem (worldOf p5 []))) [0; 1; 2; 3] =
    [Some (Some [10; 0; 0; 0; 34; 0; 0; 0], false, {| idata := {| ItemModel.ptr := None; ItemModel.allocated := 0 |}; ihandle := Null; icoll := Some (Some ByItem) |}, [(3%nat, 5)], 2%nat, [0; 0; 0; 0; 0]); Some (None, false, {| idata := {| ItemModel.ptr := None; ItemModel.allocated := 0 |}; ihandle := Null; icoll := None |}, [(3%nat, 5)], 1%nat, [0; 0; 0; 0; 0]); Some (None, false, {| idata := {| ItemModel.ptr := None; ItemModel.allocated := 0 |}; ihandle := Null; icoll := None |}, [(3%nat, 5)], 1%nat, [0; 0; 0; 0; 0]); Some (None, false, {| idata := {| ItemModel.ptr := None; ItemModel.allocated := 0 |}; ihandle := Null; icoll := None |}, [(3%nat, 5)], 2%nat, [0; 0; 0; 0; 0])] /\
  map (fun i => seen (get someDbFile (fuelOf q5) Offs i false newItem (worldOf q5 []))) [0; 1; 2; 3] =
    [Some (Some [10; 0; 0; 0; 34; 0; 0; 0], false, {| idata := {| ItemModel.ptr := None; ItemModel.allocated := 0 |}; ihandle := Null; icoll := Some (Some ByItem) |}, [(3%nat, 5)], 2%nat, [0; 0; 0; 0; 0]); Some (None, false, {| idata := {| ItemModel.ptr := None; ItemModel.allocated := 0 |}; ihandle := Null; icoll := Some (Some ByCache) |}, [(3%nat, 5)], 1%nat, [0; 0; 0; 0; 1]); Some (None, false, {| idata := {| ItemModel.ptr := None; ItemModel.allocated := 0 |}; ihandle := Null; icoll := Some (Some ByCache) |}, [(3%nat, 5)], 1%nat, [0; 0; 0; 0; 1]); Some (None, false, {| idata := {| ItemModel.ptr := None; ItemModel.allocated := 0 |}; ihandle := Null; icoll := Some (Some ByCache) |}, [(3%nat, 5)], 2%nat, [0; 0; 0; 0; 1])] /\
  map (fun i => seen (get someDbFile (fuelOf c5) Offs i false newItem (worldOf c5 []))) [0; 1; 2; 3] =
    [Some (None, false, {| idata := {| ItemModel.ptr := None; ItemModel.allocated := 0 |}; ihandle := Null; icoll := Some (Some ByCache) |}, [(3%nat, 5)], 1%nat, [0; 0; 0; 0; 1]); Some (None, false, {| idata := {| ItemModel.ptr := None; ItemModel.allocated := 0 |}; ihandle := Null; icoll := Some (Some ByCache) |}, [(3%nat, 5)], 1%nat, [0; 0; 0; 0; 1]); Some (None, false, {| idata := {| ItemModel.ptr := None; ItemModel.allocated := 0 |}; ihandle := Null; icoll := Some (Some ByCache) |}, [(3%nat, 5)], 1%nat, [0; 0; 0; 0; 1]); Some (None, false, {| idata := {| ItemModel.ptr := None; ItemModel.allocated := 0 |}; ihandle := Null; icoll := Some (Some ByCache) |}, [(3%nat, 5)], 2%nat, [0; 0; 0; 0; 1])] /\
  map (fun i => seen (get someDbFile (fuelOf f5) Offs i false newItem (worldOf f5 []))) [0; 1; 2; 3] =
    [Some (None, false, {| idata := {| ItemModel.ptr := None; ItemModel.allocated := 0 |}; ihandle := Null; icoll := None |}, [(3%nat, 5)], 1%nat, [0; 0; 0; 0; 0]); Some (None, false, {| idata := {| ItemModel.ptr := None; ItemModel.allocated := 0 |}; ihandle := Null; icoll := None |}, [(3%nat, 5)], 1%nat, [0; 0; 0; 0; 0]); Some (None, false, {| idata := {| ItemModel.ptr := None; ItemModel.allocated := 0 |}; ihandle := Null; icoll := None |}, [(3%nat, 5)], 1%nat, [0; 0; 0; 0; 0]); Some (None, false, {| idata := {| ItemModel.ptr := None; ItemModel.allocated := 0 |}; ihandle := Null; icoll := None |}, [(3%nat, 5)], 2%nat, [0; 0; 0; 0; 0])] /\
  map (fun i => seen (get someDbFile (fuelOf p5) Vals i false newItem (worldOf p5 []))) [2; 3] =
    [Some (Some [1; 0; 16; 0; 0; 0; 20; 0; 0; 0; 23; 0; 0; 0], false, {| idata := {| ItemModel.ptr := None; ItemModel.allocated := 0 |}; ihandle := Unset; icoll := Some (Some Nothing) |}, [(3%nat, 5)], 2%nat, [0; 0; 0; 0; 0]); Some (None, false, {| idata := {| ItemModel.ptr := None; ItemModel.allocated := 0 |}; ihandle := Unset; icoll := None |}, [(3%nat, 5)], 2%nat, [0; 0; 0; 0; 0])].
Proof. repeat match goal with |- _ /\ _ => split end; vm_compute; reflexivity. Qed.
(* the other functions *)
Example failing_cases :
  map (fun n => seen (CallsModel.PropertyGetValueType someDbFile (fuelOf f5) 0 (worldOf f5 (at_get IoRead n)))) [0; 1]%nat =
    [Some (0, false, [(3%nat, 5)], 2%nat, [0; 0; 0; 0; 0]); Some (3, true, [(3%nat, 5)], 2%nat, [0; 0; 0; 0; 0])] /\
  map (fun n => seen (CallsModel.PropertyGetByName someDbFile (fuelOf f5) [67] newItem (worldOf f5 (at_get IoRead n)))) (seq 0 5) =
    [Some (None, false, {| idata := {| ItemModel.ptr := Some 7%nat; ItemModel.allocated := 44 |}; ihandle := Null; icoll := None |}, [(3%nat, 5)], 2%nat, [0; 0; 0; 0; 0]); Some (Some (0, {| nameOffset := 0; firstValueIndex := 0; lastValueIndex := 1 |}), false, {| idata := {| ItemModel.ptr := Some 7%nat; ItemModel.allocated := 44 |}; ihandle := Block 7; icoll := Some (Some ByFile) |}, [(7%nat, 44); (3%nat, 5)], 2%nat, [0; 0; 0; 0; 0]); Some (None, false, {| idata := {| ItemModel.ptr := Some 9%nat; ItemModel.allocated := 44 |}; ihandle := Null; icoll := Some None |}, [(3%nat, 5)], 2%nat, [0; 0; 0; 0; 0]); Some (Some (1, {| nameOffset := 4; firstValueIndex := 2; lastValueIndex := 2 |}), false, {| idata := {| ItemModel.ptr := Some 9%nat; ItemModel.allocated := 44 |}; ihandle := Block 9; icoll := Some (Some ByFile) |}, [(9%nat, 44); (3%nat, 5)], 2%nat, [0; 0; 0; 0; 0]); Some (None, true, {| idata := {| ItemModel.ptr := None; ItemModel.allocated := 0 |}; ihandle := Null; icoll := Some None |}, [(3%nat, 5)], 2%nat, [0; 0; 0; 0; 0])] /\
  map (fun n => seen (CallsModel.ValueGetIndexByName someDbFile (fuelOf f5) (fun _ _ => 0) (decoded someDb (someProp 0 0 1)) [98] (worldOf f5 (at_get IoRead n)))) (seq 0 5) =
    [Some (0, false, [(3%nat, 5)], 2%nat, [0; 0; 0; 0; 0]); Some (0, false, [(7%nat, 14); (3%nat, 5)], 2%nat, [0; 0; 0; 0; 0]); Some (0, false, [(3%nat, 5)], 2%nat, [0; 0; 0; 0; 0]); Some (0, false, [(9%nat, 14); (3%nat, 5)], 2%nat, [0; 0; 0; 0; 0]); Some (1, true, [(3%nat, 5)], 2%nat, [0; 0; 0; 0; 0])] /\
  map (fun n => seen (CallsModel.ValueGetByName someDbFile (fuelOf c5) (fun _ _ => 0) (decoded someDb (someProp 0 0 1)) [98] newItem (worldOf c5 (at_get IoRead n)))) (seq 0 5) =
    [Some (None, false, {| idata := {| ItemModel.ptr := None; ItemModel.allocated := 0 |}; ihandle := Null; icoll := Some (Some ByCache) |}, [(3%nat, 5)], 2%nat, [0; 0; 1; 0; 0]); Some (None, false, {| idata := {| ItemModel.ptr := None; ItemModel.allocated := 0 |}; ihandle := Node Vals (0%nat, 0%nat); icoll := Some (Some ByCache) |}, [(3%nat, 5)], 2%nat, [1; 0; 1; 0; 0]); Some (None, false, {| idata := {| ItemModel.ptr := None; ItemModel.allocated := 0 |}; ihandle := Null; icoll := Some (Some ByCache) |}, [(3%nat, 5)], 2%nat, [0; 0; 1; 0; 0]); Some (None, false, {| idata := {| ItemModel.ptr := None; ItemModel.allocated := 0 |}; ihandle := Node Vals (0%nat, 0%nat); icoll := Some (Some ByCache) |}, [(3%nat, 5)], 2%nat, [1; 0; 1; 0; 0]); Some (Some [0; 0; 12; 0; 0; 0; 23; 0; 0; 0; 20; 0; 0; 0], true, {| idata := {| ItemModel.ptr := None; ItemModel.allocated := 0 |}; ihandle := Node Vals (0%nat, 0%nat); icoll := Some (Some ByCache) |}, [(3%nat, 5)], 2%nat, [0; 0; 1; 0; 0])] /\
  map (fun n => seen (CallsModel.ProfileGetByIndex someDbFile (fuelOf f5) 0 newItem (worldOf f5 (at_get IoRead n)))) (seq 0 3) =
    [Some (None, false, {| idata := {| ItemModel.ptr := None; ItemModel.allocated := 0 |}; ihandle := Unset; icoll := None |}, [(3%nat, 5)], 2%nat, [0; 0; 0; 0; 0]); Some (None, false, {| idata := {| ItemModel.ptr := None; ItemModel.allocated := 0 |}; ihandle := Null; icoll := None |}, [(3%nat, 5)], 2%nat, [0; 0; 0; 0; 0]); Some (Some [0; 10; 0; 0; 0; 2; 0; 0; 0; 1; 0; 0; 0; 2; 0; 0; 0], true, {| idata := {| ItemModel.ptr := Some 8%nat; ItemModel.allocated := 17 |}; ihandle := Block 8; icoll := Some (Some ByFile) |}, [(8%nat, 17); (3%nat, 5)], 2%nat, [0; 0; 0; 0; 0])] /\
  map (fun n => seen (CallsModel.ProfileGetByProfileId someDbFile (fuelOf f5) 11 newItem (worldOf f5 (at_get IoRead n)))) (seq 0 3) =
    [None; Some (None, false, {| idata := {| ItemModel.ptr := None; ItemModel.allocated := 0 |}; ihandle := Null; icoll := None |}, [(3%nat, 5)], 2%nat, [0; 0; 0; 0; 0]); Some (Some [0; 11; 0; 0; 0; 3; 0; 0; 0; 0; 0; 0; 0; 1; 0; 0; 0; 2; 0; 0; 0], true, {| idata := {| ItemModel.ptr := Some 8%nat; ItemModel.allocated := 21 |}; ihandle := Block 8; icoll := Some (Some ByFile) |}, [(8%nat, 21); (3%nat, 5)], 2%nat, [0; 0; 0; 0; 0])] /\
  map (fun n => seen (CallsModel.ProfileGetByProfileId someDbFile (fuelOf (usesOf InMemory InMemory InMemory byFile InMemory)) 11 newItem (worldOf (usesOf InMemory InMemory InMemory byFile InMemory) (at_get IoRead n)))) (seq 0 4) =
    [Some (Some [0; 11; 0; 0; 0; 3; 0; 0; 0; 0; 0; 0; 0; 1; 0; 0; 0; 2; 0; 0; 0], true, {| idata := {| ItemModel.ptr := Some 7%nat; ItemModel.allocated := 21 |}; ihandle := Block 7; icoll := Some (Some ByFile) |}, [(7%nat, 21); (3%nat, 5)], 2%nat, [0; 0; 0; 0; 0]); Some (None, false, {| idata := {| ItemModel.ptr := None; ItemModel.allocated := 0 |}; ihandle := Null; icoll := None |}, [(3%nat, 5)], 2%nat, [0; 0; 0; 0; 0]); Some (Some [0; 11; 0; 0; 0; 3; 0; 0; 0; 0; 0; 0; 0; 1; 0; 0; 0; 2; 0; 0; 0], true, {| idata := {| ItemModel.ptr := Some 7%nat; ItemModel.allocated := 21 |}; ihandle := Block 7; icoll := Some (Some ByFile) |}, [(7%nat, 21); (3%nat, 5)], 2%nat, [0; 0; 0; 0; 0]); Some (Some [0; 11; 0; 0; 0; 3; 0; 0; 0; 0; 0; 0; 0; 1; 0; 0; 0; 2; 0; 0; 0], true, {| idata := {| ItemModel.ptr := Some 7%nat; ItemModel.allocated := 21 |}; ihandle := Block 7; icoll := Some (Some ByFile) |}, [(7%nat, 21); (3%nat, 5)], 2%nat, [0; 0; 0; 0; 0])].
Proof. repeat match goal with |- _ /\ _ => split end; vm_compute; reflexivity. Qed.
(* the hypotheses of C116 *)
Example failing_hypotheses : forall f n, allOpened someDbFile somePlaces c5 /\ compatible c5 /\ ready someDbFile someDb c5 (clean (worldOf c5 (at_get f n))) /\
  allOpened someDbFile somePlaces f5 /\ compatible f5 /\ ready someDbFile someDb f5 (clean (worldOf f5 (at_get f n))) /\
  let m := usesOf byFile byFile byFile byFile InMemory in
  allOpened someDbFile somePlaces m /\ methodOf (ucoll (ouse m)) = Nothing /\ ready someDbFile someDb m (clean (worldOf m (at_get f n))).
Proof.
  intros f n. cbv zeta. change (clean (worldOf c5 (at_get f n))) with (worldOf c5 []). change (clean (worldOf f5 (at_get f n))) with (worldOf f5 []).
  change (clean (worldOf (usesOf byFile byFile byFile byFile InMemory) (at_get f n))) with (worldOf (usesOf byFile byFile byFile byFile InMemory) []).
  unfold compatible. repeat match goal with |- _ /\ _ => split end; try (apply some_all_opened; unfold someConfig; auto); try (apply some_ready; unfold someConfig; auto); vm_compute; reflexivity.
Qed.
(* with the profile offsets read from the file a failing read is undefined *)
Example failing_profile_by_id_case : exists it1 w1, 0 < CollectionGetCount (colls (worldOf f5 (at_get IoRead 0)) Offs) <= 2 ^ 32 /\
  get someDbFile (fuelOf f5) Offs ((CollectionGetCount (colls (worldOf f5 (at_get IoRead 0)) Offs) - 1) / 2) true newItem (worldOf f5 (at_get IoRead 0)) = Some (None, false, it1, w1).
Proof.
  destruct (get someDbFile (fuelOf f5) Offs ((CollectionGetCount (colls (worldOf f5 (at_get IoRead 0)) Offs) - 1) / 2) true newItem (worldOf f5 (at_get IoRead 0))) as [(((r, ok), it1), w1)|] eqn:E; [|vm_compute in E; discriminate].
  assert (option_map (fun x => fst (fst x)) (get someDbFile (fuelOf f5) Offs ((CollectionGetCount (colls (worldOf f5 (at_get IoRead 0)) Offs) - 1) / 2) true newItem (worldOf f5 (at_get IoRead 0))) = Some (None, false)) as X by (vm_compute; reflexivity).
  rewrite E in X. cbn [option_map fst] in X. injection X as -> ->. exists it1, w1. split; [vm_compute; split; [reflexivity|discriminate]|reflexivity].
Qed.

(* the collections after a get whose item is kept *)
Definition held1 (u : uses) (s : src) (i : Z) : world :=
  match get someDbFile (fuelOf u) s i true newItem (worldOf u []) with Some (_, _, _, w) => w | None => worldOf u [] end.
(* refuted without room in the caches (C115): with the properties in a cache of one node that is
   in use the property A, which is there, is not found, and the exception is clear; B is found *)
Theorem calls_full_refuted : nameOfProp someDb 0 [65] /\ (exists it1 w1, CallsModel.PropertyGetByName someDbFile (fuelOf c5) [65] newItem (held1 c5 Props 1) = Some (None, true, it1, w1)) /\
  (exists q it1 w1, CallsModel.PropertyGetByName someDbFile (fuelOf c5) [66] newItem (held1 c5 Props 1) = Some (Some (1, q), true, it1, w1)).
Proof.
  split; [eexists; split; reflexivity|]. split.
  - destruct (CallsModel.PropertyGetByName someDbFile (fuelOf c5) [65] newItem (held1 c5 Props 1)) as [(((r, ok), it1), w1)|] eqn:E; [|vm_compute in E; discriminate].
    assert (option_map (fun x => fst (fst x)) (CallsModel.PropertyGetByName someDbFile (fuelOf c5) [65] newItem (held1 c5 Props 1)) = Some (None, true)) as X by (vm_compute; reflexivity).
    rewrite E in X. cbn [option_map fst] in X. injection X as -> ->. eauto.
  - destruct (CallsModel.PropertyGetByName someDbFile (fuelOf c5) [66] newItem (held1 c5 Props 1)) as [(((r, ok), it1), w1)|] eqn:E; [|vm_compute in E; discriminate].
    assert (option_map (fun x => fst (fst x)) (CallsModel.PropertyGetByName someDbFile (fuelOf c5) [66] newItem (held1 c5 Props 1)) = Some (Some (1, decoded someDb (someProp 1 2 2)), true)) as X by (vm_compute; reflexivity).
    rewrite E in X. cbn [option_map fst] in X. injection X as -> ->. eauto.
Qed.
Print Assumptions calls_full_refuted.
(* memory that is large enough is used again; which items have a range that is right; releases *)
Example call_cases :
  let w z := mkWorld (colls (worldOf f5 [])) (ItemModel.mkMem 7 [(3%nat, z)]) 2 [IoMemory] in
  let used z := mkItem (ItemModel.mkData (Some 3%nat) z) Null None in
  seen (get someDbFile (fuelOf f5) Props 0 true (used 50) (w 50)) =
    Some (Some (encProp someDb (someProp 0 0 1)), true, mkItem (ItemModel.mkData (Some 3%nat) 50) (Block 3) (Some (Some ByFile)), [(3%nat, 50)], 2%nat, [0; 0; 0; 0; 0]) /\
  seen (get someDbFile (fuelOf f5) Props 0 true (used 43) (w 43)) = Some (None, false, mkItem (ItemModel.mkData None 0) Null None, [], 2%nat, [0; 0; 0; 0; 0]) /\
  (let w f := mkWorld (colls (worldOf f5 [])) (ItemModel.mkMem 7 [(3%nat, 50)]) 2 [f] in
   seen (get someDbFile (fuelOf f5) Props 0 true (used 50) (w IoHandle)) = Some (None, false, used 50, [(3%nat, 50)], 2%nat, [0; 0; 0; 0; 0]) /\
   seen (get someDbFile (fuelOf f5) Props 0 true (used 50) (w IoSeek)) = Some (None, false, used 50, [(3%nat, 50)], 2%nat, [0; 0; 0; 0; 0])) /\
  map (inRange Fixed (mkC 2 8 20)) [0; 1; 2] = [true; true; false] /\ map (inRange Fixed (mkC 5 8 20)) [0; 2; 3] = [true; true; false] /\ map (inRange stringKind (mkC 2 8 20)) [0; 19; 20] = [true; true; false] /\
  seen (CallsModel.ValueGetByName someDbFile (fuelOf f5) (fun _ _ => 0) (mkProperty 0 (2 ^ 32 - 1) (2 ^ 32 - 1)) [98] newItem (worldOf f5 [])) = Some (None, true, newItem, [(3%nat, 5)], 2%nat, [0; 0; 0; 0; 0]) /\
  (let it c := mkItem ItemModel.DataReset (Block 3) c in
   seen (release ByItem (it (Some None)) (worldOf f5 [])) = Some (it (Some None), [(3%nat, 5)], 2%nat, [0; 0; 0; 0; 0]) /\ release ByItem (it (Some (Some ByItem))) (worldOf f5 []) = None /\
   seen (release ByItem (it (Some (Some ByFile))) (worldOf f5 [])) = Some (mkItem ItemModel.DataReset Null (Some None), [], 2%nat, [0; 0; 0; 0; 0])).
Proof. cbv zeta. repeat match goal with |- _ /\ _ => split end; vm_compute; reflexivity. Qed.
