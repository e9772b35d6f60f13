(* C51, C52, C73, C74: profile.c *)
From Verif Require Import ProfileProofs.

(* callback gets the values of the property in order, until it answers false or an
   exception; the memory after the profile is not important, but there must be some
   if the last value is one of the property *)
Theorem profile_values : forall (A : Type) (get : Z -> option A * bool) callback p property,
  sortedProfile p -> readable p property -> (Z.of_nat (length (values p)) < 2 ^ 32)%Z ->
  exists called, ProfileIterateValuesForProperty get callback p property = Some (called, Z.of_nat (length called)) /\
    upToFalse callback (fetched get (valuesFor p property)) called.
Proof.
  intros A get callback p property S R L. destruct (iterate_values get callback p property S R) as (called & E & U). exists called. split; [|exact U]. rewrite E. f_equal. f_equal. apply Z.mod_small.
  assert (F : forall vs, length (fetched get vs) <= length vs) by (induction vs as [|v vs IH]; [reflexivity|]; cbn [fetched]; destruct (get v) as ([a|], [|]); cbn [length]; lia).
  assert (G : forall vs, length (filter (inRange property) vs) <= length vs) by (induction vs as [|v vs IH]; [reflexivity|]; cbn [filter]; destruct (inRange property v); cbn [length]; lia).
  destruct U as (rest & U & _). specialize (F (valuesFor p property)). rewrite U, app_length in F. specialize (G (values p)). unfold valuesFor in F. lia.
Qed.
Print Assumptions profile_values.
(* all of them if nothing fails *)
Theorem profile_values_all : forall (A : Type) (get : Z -> A) p property,
  sortedProfile p -> readable p property -> (Z.of_nat (length (values p)) < 2 ^ 32)%Z ->
  ProfileIterateValuesForProperty (fun v => (Some (get v), true)) (fun _ => true) p property =
    Some (map get (valuesFor p property), Z.of_nat (length (valuesFor p property))).
Proof.
  intros A get p property S R L. destruct (profile_values A (fun v => (Some (get v), true)) (fun _ => true) p property S R L) as (called & E & (rest & U & _ & V)).
  destruct V as [-> |(_ & V)]; [|discriminate]. rewrite app_nil_r in U.
  assert (F : forall vs, fetched (fun v => (Some (get v), true)) vs = map get vs) by (induction vs as [|v vs IH]; [reflexivity|]; cbn; now rewrite IH).
  rewrite F in U. rewrite E, <- U, map_length. reflexivity.
Qed.
Print Assumptions profile_values_all.
Definition someProfile : Profile := mkProfile [3; 7; 9; 9; 12; 40]%Z [].
Definition someProperty : Property := mkProperty 0 7 12.
Example profile_values_meets : sortedProfile someProfile /\ readable someProfile someProperty /\ valuesFor someProfile someProperty = [7; 9; 9; 12]%Z /\
  ProfileIterateValuesForProperty (fun v => (Some v, true)) (fun _ => true) someProfile someProperty = Some ([7; 9; 9; 12], 4)%Z /\
  ProfileIterateValuesForProperty (fun v => if Z.eqb v 9 then (None, true) else (Some v, true)) (fun l => Nat.ltb (length l) 2) someProfile someProperty = Some ([7; 12], 2)%Z /\
  ProfileIterateValuesForProperty (fun v => (Some v, true)) (fun l => Nat.ltb (length l) 2) someProfile someProperty = Some ([7; 9], 2)%Z /\
  ProfileIterateValuesForProperty (fun v => (Some v, Z.ltb v 9)) (fun _ => true) someProfile someProperty = Some ([7], 1)%Z.
Proof.
  split; [repeat constructor; discriminate|]. split; [|vm_compute; repeat split].
  right. intros l v E. change (values someProfile) with ([3; 7; 9; 9; 12] ++ [40])%Z in E. apply app_inj_tail in E. destruct E as (_ & <-). reflexivity.
Qed.
(* C51 refuted: when the values of the property are the last ones of the profile the
   word after the profile is read *)
Theorem profile_values_overread_refuted : forall p property l v, sortedProfile p -> after p = [] -> values p = l ++ [v] -> inRange property v = true ->
  ProfileIterateValuesForProperty (fun v => (Some v, true)) (fun _ => true) p property = None.
Proof.
  intros p property l v So A E I. destruct (sorted_parts property _ So) as (lo & mid & hi & P).
  assert (hi = []) as ->.
  { destruct hi as [|h hi]; [reflexivity|]. exfalso. destruct P as (E2 & _ & _ & Fh). destruct (exists_last (l := h :: hi)) as (h1 & h2 & E3); [discriminate|]. rewrite E3 in *. rewrite E, !app_assoc in E2. apply app_inj_tail in E2. destruct E2 as (_ & <-).
    rewrite Forall_forall in Fh. specialize (Fh v ltac:(apply in_or_app; right; now left)). unfold inRange in I. apply andb_true_iff in I. destruct I as (_ & I). apply Z.leb_le in I. lia. }
  assert (Im : In v mid). { rewrite <- (parts_filter _ _ _ _ _ P). apply filter_In. split; [rewrite E; apply in_or_app; right; now left|exact I]. }
  unfold ProfileIterateValuesForProperty. rewrite (first_value _ _ _ _ _ P). destruct mid as [|m0 mid0]; [contradiction|]. set (mid := m0 :: mid0) in *.
  unfold iterateValues. rewrite (moveBack_parts _ _ _ _ _ P) by lia.
  assert (Loop : forall m2 m1 fuel called count, mid = m1 ++ m2 -> valuesLoop (fun v => (Some v, true)) (fun _ : list Z => true) fuel p property (length lo + length m1) true true called count = None).
  { induction m2 as [|w m2 IH]; intros m1 fuel called count Em.
    - rewrite app_nil_r in Em. subst m1. assert (N : nth_error (memory p) (length lo + length mid) = None).
      { apply nth_error_None. unfold memory. rewrite A. destruct P as (-> & _). rewrite !app_length. cbn. lia. }
      destruct fuel; cbn [valuesLoop]; rewrite N; reflexivity.
    - pose proof P as P2. rewrite Em in P2. destruct (memory_at _ _ _ _ _ _ _ P2) as (Ev & Lv).
      assert (Iv : inRange property w = true). { destruct P as (_ & _ & Fm & _). rewrite Forall_forall in Fm. apply Fm. rewrite Em. apply in_elt. }
      unfold inRange in Iv. apply andb_true_iff in Iv. apply Nat.ltb_lt in Lv.
      destruct fuel as [|fuel]; cbn [valuesLoop]; rewrite Ev, (proj2 Iv), Lv; [reflexivity|]. cbn [andb].
      replace (S (length lo + length m1)) with (length lo + length (m1 ++ [w])) by (rewrite app_length; cbn; lia). apply IH. rewrite <- app_assoc. exact Em. }
  rewrite <- (Nat.add_0_r (length lo)). apply (Loop mid []). reflexivity.
Qed.
Print Assumptions profile_values_overread_refuted.
Example overread_meets : sortedProfile (mkProfile [3; 7]%Z []) /\ ProfileIterateValuesForProperty (fun v => (Some v, true)) (fun _ => true) (mkProfile [3; 7]%Z []) someProperty = None /\
  ProfileIterateValuesForProperty (fun v => (Some v, true)) (fun _ => true) (mkProfile [3; 7]%Z [0]%Z) someProperty = Some ([7], 1)%Z.
Proof. split; [repeat constructor; discriminate|vm_compute; split; reflexivity]. Qed.

(* C52: callback gets the profiles with the value in order, each once; the items are
   all released; offsets that are NULL without an exception are passed over *)
Theorem profiles_with_value : forall getString getProperty getValue getOffset getProfile compareOther propertiesCount profilesCount j property propertyName valueName,
  bytes propertyName -> bytes valueName ->
  (forall i, 0 <= i < Z.of_nat propertiesCount -> exists q s, propertyNamed getString getProperty i q s /\ bytes s)%Z ->
  (0 <= j < Z.of_nat propertiesCount)%Z -> propertyNamed getString getProperty j property propertyName ->
  (forall i q s, 0 <= i < j -> propertyNamed getString getProperty i q s -> s <> propertyName)%Z ->
  valuesSorted getString getValue property ->
  (forall i, 0 <= i < Z.of_nat profilesCount -> getOffset i = (None, true) \/ exists p, profileAt getOffset getProfile i p /\ sortedProfile p /\ readable p property)%Z ->
  exists called t, ProfileIterateProfilesForPropertyAndValue getString getProperty getValue getOffset getProfile compareOther propertiesCount profilesCount propertyName valueName = Some (called, true, t) /\
    balanced t /\
    ((called = [] /\ forall v, (firstValueIndex property <= v <= lastValueIndex property)%Z -> ~ valueNamed getString getValue v valueName) \/
     exists v, (firstValueIndex property <= v <= lastValueIndex property)%Z /\ valueNamed getString getValue v valueName /\ StronglySorted Z.lt called /\
       forall i, In i called <-> (0 <= i < Z.of_nat profilesCount)%Z /\ exists p, profileAt getOffset getProfile i p /\ In v (values p)).
Proof. intros. eapply iterate_profiles; eassumption. Qed.
Print Assumptions profiles_with_value.
(* none for a property that does not exist *)
Theorem profiles_unknown_property : forall getString getProperty getValue getOffset getProfile compareOther propertiesCount profilesCount propertyName valueName,
  bytes propertyName -> (forall i, 0 <= i < Z.of_nat propertiesCount -> exists q s, propertyNamed getString getProperty i q s /\ bytes s /\ s <> propertyName)%Z ->
  exists t, ProfileIterateProfilesForPropertyAndValue getString getProperty getValue getOffset getProfile compareOther propertiesCount profilesCount propertyName valueName = Some ([], true, t) /\ balanced t.
Proof.
  intros getString getProperty getValue getOffset getProfile compareOther pn n propertyName valueName B H. unfold ProfileIterateProfilesForPropertyAndValue.
  destruct (property_missing getString getProperty propertyName B pn 0%Z H) as (t & -> & T). exists t. split; [reflexivity|apply T].
Qed.
Print Assumptions profiles_unknown_property.

(* C52: whatever fails, callback gets only profiles that have one value, each once
   and in order *)
Theorem profiles_only_with_value : forall getString getProperty getValue getOffset getProfile compareOther propertiesCount profilesCount propertyName valueName called ok t,
  ProfileIterateProfilesForPropertyAndValue getString getProperty getValue getOffset getProfile compareOther propertiesCount profilesCount propertyName valueName = Some (called, ok, t) ->
  StronglySorted Z.lt called /\
  exists v, forall i, In i called -> (0 <= i < Z.of_nat profilesCount)%Z /\ exists p, profileAt getOffset getProfile i p /\ In v (values p).
Proof.
  intros getString getProperty getValue getOffset getProfile compareOther pn n propertyName valueName called ok t E. unfold ProfileIterateProfilesForPropertyAndValue in E.
  assert (Nil : forall (l : list Z), l = [] -> StronglySorted Z.lt l /\ exists v, forall i, In i l -> (0 <= i < Z.of_nat n)%Z /\ exists p, profileAt getOffset getProfile i p /\ In v (values p)).
  { intros l ->. split; [constructor|]. exists 0%Z. contradiction. }
  destruct (PropertyGetByName getString getProperty pn 0 propertyName) as (([(j & property)|] & ok1) & t1); [destruct ok1|].
  - destruct (ValueGetIndexByName getString getValue compareOther property valueName) as [(v & ok2)|]; [|discriminate E].
    destruct (Z.leb 0 v && ok2).
    + destruct (profilesLoop getOffset getProfile n 0 true property v) as [((c & ok3) & t3)|] eqn:X; [|discriminate E]. injection E as <- _ _.
      destruct (profilesLoop_sound getOffset getProfile property v _ _ _ _ _ _ X) as (So & A). split; [exact So|]. eexists. intros i I. exact (A i I).
    + injection E as <- _ _. now apply Nil.
  - injection E as <- _ _. now apply Nil.
  - injection E as <- _ _. now apply Nil.
Qed.
Print Assumptions profiles_only_with_value.

(* a data set: strings 0.. are names; two properties with the values 0-2 and 3-4; four
   profiles *)
Definition at_ {A} (l : list A) (i : Z) : option A * bool :=
  if Z.ltb i 0 || Z.leb (Z.of_nat (length l)) i then (None, false) else match nth_error l (Z.to_nat i) with Some a => (Some a, true) | None => (None, false) end.
Definition names : list (list Z) := [[65]; [66]; [97]; [98]; [98; 99]; [97]; [100]]%Z.
Definition properties2 : list Property := [mkProperty 0 0 2; mkProperty 1 3 4].
Definition valueNames : list Z := [2; 3; 4; 5; 6]%Z.
Definition offsets4 : list ProfileOffset := [mkOffset 5 0; mkOffset 6 1; mkOffset 8 2; mkOffset 9 3].
Definition profiles4 : list Profile := [mkProfile [1; 3]%Z [0%Z]; mkProfile [0; 4]%Z [0%Z]; mkProfile [0; 1; 2]%Z [0%Z]; mkProfile [] []].
Definition iterate4 (getString : Z -> option (list Z) * bool) (profiles : list Profile) (property value : list Z) :=
  ProfileIterateProfilesForPropertyAndValue getString (at_ properties2) (at_ valueNames) (at_ offsets4) (at_ profiles) (fun _ _ => 0%Z) 2 4 property value.
Example profiles_with_value_meets :
  (forall i, 0 <= i < 2 -> exists q s, propertyNamed (at_ names) (at_ properties2) i q s /\ bytes s)%Z /\
  propertyNamed (at_ names) (at_ properties2) 0 (mkProperty 0 0 2) [65]%Z /\
  valuesSorted (at_ names) (at_ valueNames) (mkProperty 0 0 2) /\
  (forall i, 0 <= i < 4 -> exists p, profileAt (at_ offsets4) (at_ profiles4) i p /\ sortedProfile p /\ readable p (mkProperty 0 0 2))%Z /\
  option_map (fun x => fst (fst x)) (iterate4 (at_ names) profiles4 [65]%Z [98]%Z) = Some [0; 2]%Z /\
  option_map (fun x => fst (fst x)) (iterate4 (at_ names) profiles4 [66]%Z [97]%Z) = Some [0]%Z /\
  option_map (fun x => fst (fst x)) (iterate4 (at_ names) profiles4 [66]%Z [98]%Z) = Some [] /\
  option_map (fun x => fst (fst x)) (iterate4 (at_ names) profiles4 [67]%Z [98]%Z) = Some [].
Proof.
  split; [|split; [|split; [|split; [|vm_compute; repeat split]]]].
  - intros i Hi. assert (i = 0 \/ i = 1)%Z as [-> | ->] by lia; (do 2 eexists; split; [split; reflexivity|repeat constructor]).
  - split; reflexivity.
  - split; [cbn; lia|]. assert (H : forall v, (0 <= v <= 2)%Z -> valueNamed (at_ names) (at_ valueNames) v (nth (Z.to_nat v) [[97]; [98]; [98; 99]]%Z [])).
    { intros v Hv. assert (v = 0 \/ v = 1 \/ v = 2)%Z as [-> |[-> | ->]] by lia; (eexists; split; reflexivity). }
    split.
    + intros v Hv. eexists. split; [apply (H v Hv)|]. cbn in Hv. assert (v = 0 \/ v = 1 \/ v = 2)%Z as [-> |[-> | ->]] by lia; (split; [repeat constructor|intros c r E; injection E as <- _; split; discriminate]).
    + intros v w s t Hv Hvw Hw Nv Nw. cbn in Hv, Hw.
      assert (U : forall x a b, valueNamed (at_ names) (at_ valueNames) x a -> valueNamed (at_ names) (at_ valueNames) x b -> a = b).
      { intros x a b (o & A1 & A2) (o' & A3 & A4). rewrite A1 in A3. injection A3 as <-. rewrite A2 in A4. now injection A4. }
      rewrite (U v s _ Nv (H v ltac:(lia))), (U w t _ Nw (H w ltac:(lia))). right.
      assert ((v = 0 /\ w = 1) \/ (v = 0 /\ w = 2) \/ (v = 1 /\ w = 2))%Z as [(-> & ->)|[(-> & ->)|(-> & ->)]] by lia; apply strcmp_neg; repeat constructor.
  - intros i Hi. assert (i = 0 \/ i = 1 \/ i = 2 \/ i = 3)%Z as [-> |[-> |[-> | ->]]] by lia; (eexists; split; [eexists; split; reflexivity|]; split; [repeat constructor; discriminate|]).
    1-3: left; discriminate. right. intros [|] v E; discriminate E.
Qed.
(* with the second profile's offset missing and the third profile's unreadable *)
Example profiles_only_with_value_example : option_map (fun x => fst (fst x))
  (ProfileIterateProfilesForPropertyAndValue (at_ names) (at_ properties2) (at_ valueNames) (fun i => if Z.eqb i 1 then (None, true) else at_ offsets4 i) (at_ profiles4) (fun _ _ => 0%Z) 2 4 [65]%Z [98]%Z) = Some [0; 2]%Z /\
  option_map fst (ProfileIterateProfilesForPropertyAndValue (at_ names) (at_ properties2) (at_ valueNames) (at_ offsets4) (fun o => if Z.eqb o 2 then (None, false) else at_ profiles4 o) (fun _ _ => 0%Z) 2 4 [65]%Z [98]%Z) = Some ([0]%Z, false).
Proof. vm_compute. split; reflexivity. Qed.
(* C52 refuted: the word after the profile is read; and a name that cannot be read
   without an exception (a cache without a free item) counts as the name looked for *)
Theorem profiles_overread_refuted : exists profiles, Forall sortedProfile profiles /\ iterate4 (at_ names) profiles [65]%Z [97]%Z = None.
Proof.
  exists [mkProfile [1]%Z []; mkProfile [0]%Z []; mkProfile [0]%Z []; mkProfile [] []]. split; [repeat constructor|vm_compute; reflexivity].
Qed.
Print Assumptions profiles_overread_refuted.
Theorem profiles_wrong_refuted : exists getString t1 t2, (forall o s, getString o = (Some s, true) -> at_ names o = (Some s, true)) /\
  iterate4 (at_ names) profiles4 [66]%Z [97]%Z = Some ([0]%Z, true, t1) /\ iterate4 getString profiles4 [66]%Z [97]%Z = Some ([1; 2]%Z, true, t2).
Proof.
  exists (fun o => if Z.eqb o 0 then (None, true) else at_ names o). do 2 eexists. split; [intros o s; destruct (Z.eqb o 0); [discriminate|auto]|].
  vm_compute. split; reflexivity.
Qed.
Print Assumptions profiles_wrong_refuted.

(* coordinates and IP addresses are compared in their own way *)
Example value_other_case : ValueGetIndexByName (at_ [[1; 7]; [2; 9]]%Z) (at_ [0; 1]%Z) (fun s name => match s with c :: _ => c - 2 | [] => 5 end)%Z (mkProperty 0 0 1) [66]%Z = Some (1%Z, true) /\
  ValueGetIndexByName (at_ [[1; 7]; [2; 9]]%Z) (at_ [0; 1]%Z) (fun s name => match s with c :: _ => c - 1 | [] => 5 end)%Z (mkProperty 0 0 1) [66]%Z = Some (0%Z, true).
Proof. split; vm_compute; reflexivity. Qed.

(* C73: a profile is found by its id *)
Theorem profile_by_id : forall getOffset n id, (id <> 0)%Z -> n <> 0 -> (Z.of_nat n < 2 ^ 32)%Z -> (forall i, 0 <= i < Z.of_nat n -> exists o, getOffset i = (Some o, true))%Z ->
  (forall i j a b, 0 <= i -> i < j -> j < Z.of_nat n -> getOffset i = (Some a, true) -> getOffset j = (Some b, true) -> profileId a <= profileId b)%Z ->
  exists r, ProfileGetOffsetForProfileId getOffset n id = Some (r, true) /\
    match r with
    | Some off => exists i o, (0 <= i < Z.of_nat n)%Z /\ getOffset i = (Some o, true) /\ profileId o = id /\ offset o = off
    | None => forall i o, (0 <= i < Z.of_nat n)%Z -> getOffset i = (Some o, true) -> profileId o <> id
    end.
Proof. intros. apply profile_id; assumption. Qed.
Print Assumptions profile_by_id.
(* with the profile itself: it is the profile of an item with the id *)
Theorem profile_get_by_id : forall getOffset getProfile n id p, (id <> 0)%Z -> n <> 0 -> (Z.of_nat n < 2 ^ 32)%Z -> (forall i, 0 <= i < Z.of_nat n -> exists o, getOffset i = (Some o, true))%Z ->
  (forall i j a b, 0 <= i -> i < j -> j < Z.of_nat n -> getOffset i = (Some a, true) -> getOffset j = (Some b, true) -> profileId a < profileId b)%Z ->
  (ProfileGetByProfileId getOffset getProfile n id = Some (Some p, true) <->
   exists i o, (0 <= i < Z.of_nat n)%Z /\ getOffset i = (Some o, true) /\ profileId o = id /\ ProfileGetByIndex getOffset getProfile i = (Some p, true)).
Proof.
  intros getOffset getProfile n id p Hid H0 Hn Hr Hs. destruct (profile_id getOffset n id Hid H0 Hn Hr) as (r & E & Hx).
  - intros i j a b A B C D F. apply Z.lt_le_incl. exact (Hs i j a b A B C D F).
  - unfold ProfileGetByProfileId, ProfileGetByIndex. rewrite E. destruct r as [off|].
    + destruct Hx as (i & o & Hi & Ho & Hd & <-). split.
      * intros X. injection X as X. exists i, o. rewrite Ho. auto.
      * intros (i' & o' & Hi' & Ho' & Hd' & X). rewrite Ho' in X. assert (i = i') as <-.
        { destruct (Z.lt_trichotomy i i') as [L|[L|L]]; [|exact L|]; exfalso.
          - pose proof (Hs i i' o o' ltac:(lia) L ltac:(lia) Ho Ho'). lia.
          - pose proof (Hs i' i o' o ltac:(lia) L ltac:(lia) Ho' Ho). lia. }
        rewrite Ho in Ho'. injection Ho' as <-. now rewrite X.
    + split; [discriminate|]. intros (i & o & Hi & Ho & Hd & _). exfalso. exact (Hx i o Hi Ho Hd).
Qed.
Print Assumptions profile_get_by_id.
Example profile_by_id_meets : (forall i, 0 <= i < 4 -> exists o, at_ offsets4 i = (Some o, true))%Z /\
  (forall i j a b, 0 <= i -> i < j -> j < 4 -> at_ offsets4 i = (Some a, true) -> at_ offsets4 j = (Some b, true) -> profileId a < profileId b)%Z /\
  ProfileGetOffsetForProfileId (at_ offsets4) 4 8 = Some (Some 2%Z, true) /\ ProfileGetOffsetForProfileId (at_ offsets4) 4 7 = Some (None, true) /\
  ProfileGetByProfileId (at_ offsets4) (at_ profiles4) 4 6 = Some (Some (mkProfile [0; 4]%Z [0%Z]), true).
Proof.
  split; [|split; [|vm_compute; repeat split]].
  - intros i Hi. assert (i = 0 \/ i = 1 \/ i = 2 \/ i = 3)%Z as [-> |[-> |[-> | ->]]] by lia; (eexists; reflexivity).
  - intros i j a b Hi Hij Hj Ea Eb.
    assert (i = 0 \/ i = 1 \/ i = 2)%Z as [-> |[-> | ->]] by lia; assert (j = 1 \/ j = 2 \/ j = 3)%Z as [-> |[-> | ->]] by lia; try lia;
      vm_compute in Ea; vm_compute in Eb; injection Ea as <-; injection Eb as <-; cbn; lia.
Qed.
(* C73 refuted: without any profiles, and when an item cannot be read, a pointer that is
   NULL or stale is used *)
Theorem profile_by_id_refuted : ProfileGetOffsetForProfileId (at_ []) 0 8 = None /\
  ProfileGetOffsetForProfileId (fun i => if Z.eqb i 1 then (None, false) else at_ offsets4 i) 4 8 = None /\
  ProfileGetOffsetForProfileId (fun i => if Z.eqb i 2 then (None, true) else at_ offsets4 i) 4 8 = None /\
  ProfileGetOffsetForProfileId (fun i => if Z.eqb i (2 ^ 31 - 1) then (Some (mkOffset 8 5), true) else (None, false)) 0 8 = Some (Some 5%Z, true).
Proof. vm_compute. repeat split. Qed.
Print Assumptions profile_by_id_refuted.

(* C74 refuted: a profile and the name of a property are released with the release
   method of another collection *)
Theorem released_with_other_refuted : exists called t, iterate4 (at_ names) profiles4 [65]%Z [98]%Z = Some (called, true, t) /\ balanced t /\
  In (Released Offsets Profiles 0) t /\ In (Released Properties Strings 0) t.
Proof. vm_compute. do 2 eexists. split; [reflexivity|]. split; [reflexivity|]. split; auto 20. Qed.
Print Assumptions released_with_other_refuted.
