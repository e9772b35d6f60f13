(* Profiles of a data set in a file *)
From Verif Require Import TreeModel CacheModel CollectionModel CollectionSpec CollectionProofs CollectionRun CollectionCreate CollectionProps PropertiesCollection ProfileModel ProfileSpec ProfileProofs PropertiesProfile.
From Verif Require Import DbModel DbSpec DbProofs.
Local Open Scope Z_scope.

Lemma count_stored : forall file pos elementSize isCount items u tr c,
  storedAt file pos isCount items -> small items -> sizesOK Fixed items elementSize isCount -> opened file Fixed pos elementSize isCount u ->
  exec file Fixed (ufuel u) (ucoll u) tr c -> CollectionGetCount c = Z.of_nat (length items).
Proof.
  intros file pos es isCount items u tr c St Sm So (h & Eh & HC & Hc & _) E. destruct (region _ _ _ _ _ _ St Sm So) as (h' & Eh' & HR & _). rewrite Eh in Eh'. injection Eh' as <-.
  rewrite (exec_count _ _ _ _ _ _ E). exact (created_count _ _ _ _ _ _ _ HR HC Hc).
Qed.

Section Found.
  Context (file : list Z) (w : places) (d : db) (u : uses).
  Context (getString : Z -> option (list Z) * bool) (getProperty : Z -> option Property * bool) (getValue : Z -> option Z * bool)
    (getOffset : Z -> option ProfileOffset * bool) (getProfile : Z -> option Profile * bool).
  Context (D : dbOK d) (St : stored file w d) (Op : allOpened file w u) (R : readers file d u getString getProperty getValue getOffset getProfile).
  Notation decoded := (decoded d).

  Lemma isText_bytes s : In s (texts d) -> bytes s.
  Proof using D. intros I. pose proof D as (F & _). rewrite Forall_forall in F. exact (proj1 (F s I)). Qed.
  Lemma got_string n s : nth_error (texts d) n = Some s -> getString (textAt d n) = (Some s, true).
  Proof using D St Op R. intros N. apply (text_answer file w d u D St Op n s _ N). apply R. apply nth_error_Some. congruence. Qed.
  Lemma got_property n p : nth_error (props d) n = Some p -> getProperty (Z.of_nat n) = (Some (decoded p), true).
  Proof using D St Op R. intros N. apply (property_answer file w d u D St Op n p _ N). apply R. apply nth_error_Some. congruence. Qed.
  Lemma got_value n v : nth_error (vals d) n = Some v -> getValue (Z.of_nat n) = (Some (textAt d (vname v)), true).
  Proof using D St Op R. intros N. apply (value_answer file w d u D St Op n v _ N). apply R. apply nth_error_Some. congruence. Qed.
  Lemma got_offset i n p : nth_error (order d) i = Some n -> nth_error (profs d) n = Some p -> getOffset (Z.of_nat i) = (Some (mkOffset (prid p) (startOf (map encProf (profs d)) n)), true).
  Proof using D St Op R. intros N P. apply (offset_answer file w d u D St Op i n p _ N P). apply R. apply nth_error_Some. congruence. Qed.
  Lemma got_profile n p : nth_error (profs d) n = Some p -> exists after, getProfile (startOf (map encProf (profs d)) n) = (Some (mkProfile (prvalues p) after), true).
  Proof using D St Op R. intros N. apply (profile_answer file w d u D St Op n p _ N). apply R. apply nth_error_Some. congruence. Qed.
  Lemma order_prof i n : nth_error (order d) i = Some n -> exists p, nth_error (profs d) n = Some p.
  Proof using D.
    intros N. pose proof D as (_ & _ & _ & _ & F & _). rewrite Forall_forall in F. specialize (F n (nth_error_In _ _ N)). cbv beta in F.
    destruct (nth_error (profs d) n) eqn:E; [eauto|]. apply nth_error_None in E. lia.
  Qed.
  Lemma nth_some {A} (l : list A) i : 0 <= i < Z.of_nat (length l) -> exists a, nth_error l (Z.to_nat i) = Some a /\ Z.of_nat (Z.to_nat i) = i.
  Proof using Type. intros H. destruct (nth_error l (Z.to_nat i)) eqn:E; [|apply nth_error_None in E; lia]. exists a. split; [reflexivity|lia]. Qed.
  Lemma counts : CollectionGetCount (ucoll (puse u)) = Z.of_nat (length (props d)) /\ CollectionGetCount (ucoll (ouse u)) = Z.of_nat (length (order d)).
  Proof using D St Op.
    destruct St as (_ & S2 & _ & _ & S5). destruct Op as (_ & O2 & _ & _ & O5). split.
    - rewrite (count_stored _ _ _ _ _ _ [] _ S2 ltac:(apply D) (props_ok w d D) O2 (exec_nil _ _ _ _)). now rewrite map_length.
    - rewrite (count_stored _ _ _ _ _ _ [] _ S5 ltac:(apply D) (offsets_ok w d) O5 (exec_nil _ _ _ _)). now rewrite map_length.
  Qed.
  Lemma order_small : Z.of_nat (length (order d)) < 2 ^ 32.
  Proof using D.
    assert (small (map (encOffset d) (order d))) as Sm by apply D. unfold small in Sm. rewrite (concat_fixed_len _ 8), map_length in Sm; [lia|]. intros it I. apply in_map_iff in I. destruct I as (x & <- & _). apply encOffset_length.
  Qed.
  Lemma named_prop i q s : propertyNamed getString getProperty i q s -> 0 <= i < Z.of_nat (length (props d)) -> nameOfProp d (Z.to_nat i) s.
  Proof using D St Op R.
    intros (E1 & E2) Hi. destruct (nth_some (props d) i Hi) as (p & Ep & Ei). pose proof (got_property _ _ Ep) as G. rewrite Ei, E1 in G. injection G as ->.
    destruct (prop_in d D _ _ Ep) as (_ & _ & _ & _ & _ & L & _). destruct (nth_error (texts d) (pname p)) as [t|] eqn:T; [|apply nth_error_None in T; lia].
    pose proof (got_string _ _ T) as G. cbn [DbSpec.decoded nameOffset] in E2. rewrite E2 in G. injection G as ->. exists p. auto.
  Qed.
  Lemma prop_named j p s : nth_error (props d) j = Some p -> nth_error (texts d) (pname p) = Some s -> propertyNamed getString getProperty (Z.of_nat j) (decoded p) s.
  Proof using D St Op R. intros Ep Et. split; [exact (got_property _ _ Ep)|exact (got_string _ _ Et)]. Qed.
  Lemma every_prop i : 0 <= i < Z.of_nat (length (props d)) -> exists q s, propertyNamed getString getProperty i q s /\ bytes s /\ nameOfProp d (Z.to_nat i) s.
  Proof using D St Op R.
    intros Hi. destruct (nth_some (props d) i Hi) as (p & Ep & Ei). destruct (prop_in d D _ _ Ep) as (_ & _ & _ & _ & _ & L & _).
    destruct (nth_error (texts d) (pname p)) as [t|] eqn:T; [|apply nth_error_None in T; lia]. exists (decoded p), t. rewrite <- Ei at 1. split; [exact (prop_named _ _ _ Ep T)|].
    split; [exact (isText_bytes _ (nth_error_In _ _ T))|]. exists p. auto.
  Qed.
  Lemma val_named v s : v < Z.of_nat (length (vals d)) -> 0 <= v -> (valueNamed getString getValue v s <-> nameOfVal d v s).
  Proof using D St Op R.
    intros Hv H0. destruct (nth_some (vals d) v ltac:(lia)) as (x & Ex & Ev). pose proof (got_value _ _ Ex) as G. rewrite Ev in G.
    assert (valOK d x) as (L & _) by (pose proof D as (_ & _ & F & _); rewrite Forall_forall in F; apply F; exact (nth_error_In _ _ Ex)).
    destruct (nth_error (texts d) (vname x)) as [t|] eqn:T; [|apply nth_error_None in T; lia]. pose proof (got_string _ _ T) as Gt. split.
    - intros (o & E1 & E2). rewrite G in E1. injection E1 as <-. rewrite Gt in E2. injection E2 as <-. split; [exact H0|]. exists x. auto.
    - intros (_ & y & E1 & E2). rewrite Ex in E1. injection E1 as <-. rewrite T in E2. injection E2 as <-. exists (textAt d (vname x)). auto.
  Qed.
  Lemma at_profile i p : profileAt getOffset getProfile i p -> 0 <= i < Z.of_nat (length (order d)) -> exists n f, nth_error (order d) (Z.to_nat i) = Some n /\ nth_error (profs d) n = Some f /\ values p = prvalues f.
  Proof using D St Op R.
    intros (o & E1 & E2) Hi. destruct (nth_some (order d) i Hi) as (n & En & Ei). destruct (order_prof _ _ En) as (f & Ef). pose proof (got_offset _ _ _ En Ef) as G. rewrite Ei, E1 in G. injection G as ->.
    cbn [offset] in E2. destruct (got_profile _ _ Ef) as (after & G). rewrite E2 in G. injection G as ->. exists n, f. auto.
  Qed.
  Lemma profile_at i n f : nth_error (order d) i = Some n -> nth_error (profs d) n = Some f -> exists after, profileAt getOffset getProfile (Z.of_nat i) (mkProfile (prvalues f) after).
  Proof using D St Op R. intros En Ef. destruct (got_profile _ _ Ef) as (after & G). exists after, (mkOffset (prid f) (startOf (map encProf (profs d)) n)). split; [exact (got_offset _ _ _ En Ef)|exact G]. Qed.
  Lemma before_irrefl s : bytes s -> ~ before s s.
  Proof using Type. intros B X. apply (strcmp_neg s s B B) in X. rewrite (proj2 (strcmp_zero s s B B) eq_refl) in X. lia. Qed.
  Lemma vals_sorted j p : nth_error (props d) j = Some p -> namesSorted d p -> valuesSorted getString getValue (decoded p).
  Proof using D St Op R.
    intros Ep ((N1 & N2 & N3) & N4 & N5). destruct (prop_in d D _ _ Ep) as (_ & _ & _ & (P0 & _) & _). unfold valuesSorted, DbSpec.decoded. cbn [firstValueIndex lastValueIndex]. split; [lia|]. split.
    - intros v Hv. destruct (nth_some (vals d) v ltac:(lia)) as (x & Ex & Ev).
      assert (valOK d x) as (L & _) by (pose proof D as (_ & _ & F & _); rewrite Forall_forall in F; apply F; exact (nth_error_In _ _ Ex)).
      destruct (nth_error (texts d) (vname x)) as [t|] eqn:T; [|apply nth_error_None in T; lia].
      assert (nameOfVal d v t) as Nv by (split; [lia|]; exists x; auto).
      exists t. split; [apply val_named; [lia|lia|exact Nv]|]. split; [exact (isText_bytes _ (nth_error_In _ _ T))|]. intros c r E. exact (N4 v t Hv Nv c r E).
    - intros v x s t H1 H2 H3 A B. right. apply (N5 v x s t H1 H2 H3); apply val_named; auto; lia.
  Qed.
  Lemma name_bytes v s : nameOfVal d v s -> bytes s.
  Proof using D. intros (_ & x & _ & E). exact (isText_bytes _ (nth_error_In _ _ E)). Qed.

  (* the properties by name *)
  Lemma db_property_by_name_found : forall j p s, nth_error (props d) j = Some p -> nth_error (texts d) (pname p) = Some s -> (forall i, (i < j)%nat -> ~ nameOfProp d i s) ->
    exists t, PropertyGetByName getString getProperty (Z.to_nat (CollectionGetCount (ucoll (puse u)))) 0 s = (Some (Z.of_nat j, decoded p), true, t) /\ releases t [] = Some [(Properties, Z.of_nat j)].
  Proof using D St Op R.
    intros j p s Ep Et Hf. rewrite (proj1 counts), Nat2Z.id. assert (j < length (props d))%nat as Lj by (apply nth_error_Some; congruence).
    destruct (property_found getString getProperty s (isText_bytes _ (nth_error_In _ _ Et)) (length (props d)) 0 (Z.of_nat j) (decoded p)) as (t & E & H).
    - intros i Hi. destruct (every_prop i ltac:(lia)) as (q & t & E & B & _). eauto.
    - lia.
    - exact (prop_named _ _ _ Ep Et).
    - intros i q t Hi N ->. apply (Hf (Z.to_nat i)); [lia|]. exact (named_prop _ _ _ N ltac:(lia)).
    - exists t. split; [exact E|apply H].
  Qed.

  (* the profiles with a value *)
  Lemma db_profiles_found : forall compareOther j p propertyName valueName, nth_error (props d) j = Some p -> nth_error (texts d) (pname p) = Some propertyName ->
    (forall i, (i < j)%nat -> ~ nameOfProp d i propertyName) -> namesSorted d p -> notLast d p -> bytes valueName ->
    exists called t, ProfileIterateProfilesForPropertyAndValue getString getProperty getValue getOffset getProfile compareOther
        (Z.to_nat (CollectionGetCount (ucoll (puse u)))) (Z.to_nat (CollectionGetCount (ucoll (ouse u)))) propertyName valueName = Some (called, true, t) /\
      balanced t /\ StronglySorted Z.lt called /\
      forall i, In i called <-> 0 <= i /\ exists n f v, nth_error (order d) (Z.to_nat i) = Some n /\ nth_error (profs d) n = Some f /\ In v (prvalues f) /\ pfirst p <= v <= plast p /\ nameOfVal d v valueName.
  Proof using D St Op R.
    intros compareOther j p propertyName valueName Ep Et Hf Ns Nl Bv. rewrite (proj1 counts), (proj2 counts), !Nat2Z.id. assert (j < length (props d))%nat as Lj by (apply nth_error_Some; congruence).
    pose proof Ns as ((N1 & N2 & N3) & N4 & N5). destruct (prop_in d D _ _ Ep) as (_ & _ & _ & (P0 & _) & _).
    destruct (profiles_with_value getString getProperty getValue getOffset getProfile compareOther (length (props d)) (length (order d)) (Z.of_nat j) (decoded p) propertyName valueName) as (called & t & E & B & H).
    - exact (isText_bytes _ (nth_error_In _ _ Et)).
    - exact Bv.
    - intros i Hi. destruct (every_prop i ltac:(lia)) as (q & t & E & B & _). eauto.
    - lia.
    - exact (prop_named _ _ _ Ep Et).
    - intros i q t Hi N ->. apply (Hf (Z.to_nat i)); [lia|]. exact (named_prop _ _ _ N ltac:(lia)).
    - exact (vals_sorted _ _ Ep Ns).
    - intros i Hi. right. destruct (nth_some (order d) i Hi) as (n & En & Ei). destruct (order_prof _ _ En) as (f & Ef). destruct (profile_at _ _ _ En Ef) as (after & Pa). rewrite Ei in Pa.
      exists (mkProfile (prvalues f) after). split; [exact Pa|]. split.
      + pose proof D as (_ & _ & _ & F & _). rewrite Forall_forall in F. apply (F f (nth_error_In _ _ Ef)).
      + right. intros l v El. cbn [values] in El. specialize (Nl _ _ _ _ Ef El). unfold inRange. cbn [DbSpec.decoded firstValueIndex lastValueIndex].
        destruct (Z.leb_spec (pfirst p) v); [|reflexivity]. destruct (Z.leb_spec v (plast p)); [|reflexivity]. exfalso. apply Nl. lia.
    - cbn [DbSpec.decoded firstValueIndex lastValueIndex] in H. exists called, t. split; [exact E|]. split; [exact B|]. destruct H as [(-> & No)|(v & Hv & Nv & So & H)].
      + split; [constructor|]. intros i. split; [contradiction|]. intros (_ & n & f & v & _ & _ & _ & Hv & Nv). apply (No v Hv). apply val_named; [lia|lia|exact Nv].
      + split; [exact So|]. intros i. rewrite H. apply val_named in Nv; [|lia|lia]. split.
        * intros (Hi & q & Pa & Iv). split; [lia|]. destruct (at_profile _ _ Pa Hi) as (n & f & En & Ef & Eq). rewrite Eq in Iv. exists n, f, v. auto 6.
        * intros (Hi & n & f & v' & En & Ef & Iv & Hv' & Nv').
          assert (v' = v) as ->.
          { destruct (Z.lt_trichotomy v v') as [L|[L|L]]; [|now symmetry|]; exfalso; apply (before_irrefl valueName Bv); [exact (N5 v v' _ _ ltac:(lia) L ltac:(lia) Nv Nv')|exact (N5 v' v _ _ ltac:(lia) L ltac:(lia) Nv' Nv)]. }
          assert (Z.to_nat i < length (order d))%nat as Li by (apply nth_error_Some; congruence). split; [lia|].
          destruct (profile_at _ _ _ En Ef) as (after & Pa). rewrite Z2Nat.id in Pa by lia. exists (mkProfile (prvalues f) after). auto.
  Qed.
  (* none for a name that is not that of a property *)
  Lemma db_unknown_found : forall compareOther propertyName valueName, bytes propertyName -> (forall i, ~ nameOfProp d i propertyName) ->
    exists t, ProfileIterateProfilesForPropertyAndValue getString getProperty getValue getOffset getProfile compareOther
        (Z.to_nat (CollectionGetCount (ucoll (puse u)))) (Z.to_nat (CollectionGetCount (ucoll (ouse u)))) propertyName valueName = Some ([], true, t) /\ balanced t.
  Proof using D St Op R.
    intros compareOther propertyName valueName B No. rewrite (proj1 counts), (proj2 counts), !Nat2Z.id. apply profiles_unknown_property; [exact B|]. intros i Hi.
    destruct (every_prop i Hi) as (q & s & E & Bs & N). exists q, s. split; [exact E|]. split; [exact Bs|]. intros ->. exact (No _ N).
  Qed.

  (* a profile by id *)
  Lemma db_by_id_found : forall id, id <> 0 -> order d <> [] ->
    (forall i j n m f g, (i < j)%nat -> nth_error (order d) i = Some n -> nth_error (order d) j = Some m -> nth_error (profs d) n = Some f -> nth_error (profs d) m = Some g -> prid f < prid g) ->
    exists r, ProfileGetByProfileId getOffset getProfile (Z.to_nat (CollectionGetCount (ucoll (ouse u)))) id = Some (r, true) /\
      match r with
      | Some p => exists i n f, nth_error (order d) i = Some n /\ nth_error (profs d) n = Some f /\ prid f = id /\ values p = prvalues f
      | None => forall i n f, nth_error (order d) i = Some n -> nth_error (profs d) n = Some f -> prid f <> id
      end.
  Proof using D St Op R.
    intros id Hid Hn Hs. rewrite (proj2 counts), Nat2Z.id.
    destruct (profile_by_id getOffset (length (order d)) id Hid) as (r & E & H).
    - intros X. apply Hn. now apply length_zero_iff_nil.
    - exact order_small.
    - intros i Hi. destruct (nth_some (order d) i Hi) as (n & En & Ei). destruct (order_prof _ _ En) as (f & Ef). rewrite <- Ei. rewrite (got_offset _ _ _ En Ef). eauto.
    - intros i j a b Hi Hij Hj Ea Eb. destruct (nth_some (order d) i ltac:(lia)) as (n & En & Ei). destruct (order_prof _ _ En) as (f & Ef). rewrite <- Ei, (got_offset _ _ _ En Ef) in Ea. injection Ea as <-.
      destruct (nth_some (order d) j ltac:(lia)) as (m & Em & Ej). destruct (order_prof _ _ Em) as (g & Eg). rewrite <- Ej, (got_offset _ _ _ Em Eg) in Eb. injection Eb as <-.
      cbn [profileId]. apply Z.lt_le_incl. exact (Hs (Z.to_nat i) (Z.to_nat j) n m f g ltac:(lia) En Em Ef Eg).
    - unfold ProfileGetByProfileId. rewrite E. destruct r as [off|].
      + destruct H as (i & o & Hi & Eo & Ed & <-). destruct (nth_some (order d) i Hi) as (n & En & Ei). destruct (order_prof _ _ En) as (f & Ef). rewrite <- Ei, (got_offset _ _ _ En Ef) in Eo. injection Eo as <-.
        cbn [profileId offset] in *. destruct (got_profile _ _ Ef) as (after & ->). eexists. split; [reflexivity|]. cbn beta iota. exists (Z.to_nat i), n, f. auto.
      + exists None. split; [reflexivity|]. intros i n f En Ef X. apply (H (Z.of_nat i) (mkOffset (prid f) (startOf (map encProf (profs d)) n))).
        * assert (i < length (order d))%nat by (apply nth_error_Some; congruence). lia.
        * exact (got_offset _ _ _ En Ef).
        * exact X.
  Qed.

  (* the values of a profile for a property *)
  Lemma db_values_found : forall j p n f r, nth_error (props d) j = Some p -> plast p < Z.of_nat (length (vals d)) -> nth_error (profs d) n = Some f ->
    (forall l v, prvalues f = l ++ [v] -> ~ pfirst p <= v <= plast p) ->
    getProfile (startOf (map encProf (profs d)) n) = (Some r, true) ->
    exists called, ProfileIterateValuesForProperty getValue (fun _ => true) r (decoded p) = Some (called, Z.of_nat (length called)) /\
      Forall2 (fun o v => exists s, nameOfVal d v s /\ getString o = (Some s, true)) called (filter (fun v => (pfirst p <=? v) && (v <=? plast p))%bool (prvalues f)).
  Proof using D St Op R.
    intros j p n f r Ep Lp Ef Nl Er. destruct (got_profile _ _ Ef) as (after & G). rewrite Er in G. injection G as ->.
    assert (profOK f) as (_ & Fv & So) by (pose proof D as (_ & _ & _ & F & _); rewrite Forall_forall in F; exact (F f (nth_error_In _ _ Ef))).
    destruct (prop_in d D _ _ Ep) as (_ & _ & _ & (P0 & _) & _).
    destruct (profile_values Z getValue (fun _ => true) (mkProfile (prvalues f) after) (decoded p)) as (called & E & (rest & U & _ & V)).
    - exact So.
    - right. intros l v El. cbn [values] in El. specialize (Nl _ _ El). unfold inRange. cbn [DbSpec.decoded firstValueIndex lastValueIndex].
      destruct (Z.leb_spec (pfirst p) v); [|reflexivity]. destruct (Z.leb_spec v (plast p)); [|reflexivity]. exfalso. apply Nl. lia.
    - cbn [values]. assert (small (map encProf (profs d))) as S1 by apply D. pose proof (item_le _ _ (nth_error_In _ _ (map_nth_error encProf _ _ Ef))) as L. rewrite encProf_length in L. unfold small in S1. lia.
    - exists called. split; [exact E|]. destruct V as [-> |(_ & V)]; [|discriminate]. rewrite app_nil_r in U. subst called. unfold valuesFor. cbn [values]. unfold inRange. cbn [DbSpec.decoded firstValueIndex lastValueIndex].
      assert (K : forall vs, Forall (fun v => pfirst p <= v <= plast p) vs -> Forall2 (fun o v => exists s, nameOfVal d v s /\ getString o = (Some s, true)) (fetched getValue vs) vs).
      { induction 1 as [|v vs Hv _ IH]; [constructor|]. cbv beta in Hv. cbn [fetched]. destruct (nth_some (vals d) v ltac:(lia)) as (x & Ex & Ev). rewrite <- Ev at 1. rewrite (got_value _ _ Ex). constructor; [|exact IH].
        assert (valOK d x) as (L & _) by (pose proof D as (_ & _ & F & _); rewrite Forall_forall in F; apply F; exact (nth_error_In _ _ Ex)).
        destruct (nth_error (texts d) (vname x)) as [t|] eqn:T; [|apply nth_error_None in T; lia]. exists t. split; [split; [lia|exists x; auto]|exact (got_string _ _ T)]. }
      apply K. apply Forall_forall. intros v I. apply filter_In in I. destruct I as (_ & I). apply andb_true_iff in I. destruct I as (I1 & I2). apply Z.leb_le in I1, I2. lia.
  Qed.
End Found.
