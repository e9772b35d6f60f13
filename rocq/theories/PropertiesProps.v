(* C43, C44, C71, C72: properties.c *)
From Coq Require Import String Ascii Permutation.
From Verif Require Import PropsProofs PropertiesString.
Open Scope list_scope.

(* what is asked for: names, or everything *)
Inductive asks : option PropertiesRequired -> option (list (list Z)) -> Prop :=
| asks_existing p l : existing p = Some l -> asks (Some p) (Some (map name l))
| asks_array p l : existing p = None -> array p = Some l -> l <> [] -> asks (Some p) (Some l)
| asks_string p s l : existing p = None -> (array p = None \/ array p = Some []) -> string p = Some s -> s <> [] ->
    parts s l -> asks (Some p) (Some l)
| asks_nothing p : existing p = None -> (array p = None \/ array p = Some []) -> (string p = None \/ string p = Some []) -> asks (Some p) None
| asks_null : asks None None.
Definition wantedBy (request : option (list (list Z))) (n : list Z) : Prop :=
  match request with None => True | Some l => exists r, In r l /\ sameText n r end.

(* every request is one of these *)
Theorem properties_request_total : forall properties, exists request, asks properties request.
Proof.
  intros [p|]; [|exists None; constructor]. destruct (existing p) as [l|] eqn:E; [eexists; eapply asks_existing; exact E|].
  assert (S : (array p = None \/ array p = Some []) -> exists request, asks (Some p) request).
  { intros A. destruct (string p) as [[|c s]|] eqn:S.
    - exists None. apply asks_nothing; auto.
    - destruct (parts_total (c :: s)) as (l & P). exists (Some l). eapply asks_string; eauto. discriminate.
    - exists None. apply asks_nothing; auto. }
  destruct (array p) as [[|a l]|] eqn:A; [apply S; auto| |apply S; auto]. exists (Some (a :: l)). apply asks_array; auto. discriminate.
Qed.
Print Assumptions properties_request_total.

Definition nothingFound names request : Prop := forall n, In n names -> ~ wantedBy request n.

Lemma create_cases names evidence qsort properties request : goodNames names -> (Z.of_nat (List.length names) <= 2 ^ 32)%Z -> sorts qsort ->
  asks properties request -> (forall l, request = Some l -> Forall (Forall textChar) l) ->
  (exists t, (exists p, properties = Some p /\ existing p = None /\ string p <> None) /\ nothingFound names request /\
     PropertiesCreate qsort names evidence properties = (Null, t) /\ quiet t) \/
  (exists l t t' items, PropertiesCreate qsort names evidence properties = (Created l, t ++ map Got items ++ t') /\ quiet t /\ quiet t' /\
     Permutation items (map reference l) /\ availableAre names evidence (wantedBy request) l).
Proof.
  intros G B Q A T.
  assert (NM : forall l b, Forall (Forall textChar) l -> initItems names properties = initFromNames names l b -> request = Some l ->
    (b = true -> exists p, properties = Some p /\ existing p = None /\ string p <> None) ->
    (exists t, (exists p, properties = Some p /\ existing p = None /\ string p <> None) /\ nothingFound names request /\
     PropertiesCreate qsort names evidence properties = (Null, t) /\ quiet t) \/
    (exists l t t' items, PropertiesCreate qsort names evidence properties = (Created l, t ++ map Got items ++ t') /\ quiet t /\ quiet t' /\
     Permutation items (map reference l) /\ availableAre names evidence (wantedBy request) l)).
  { intros l b Tl E -> Hb. destruct (create_names names evidence qsort properties l b G B Q Tl E) as [(t & -> & N & C & Qt)|(l' & t & t' & items & _ & C & Q1 & Q2 & P & W)].
    - left. exists t. split; [now apply Hb|]. split; [exact N|]. auto.
    - right. exists l', t, t', items. auto. }
  inversion A as [p l E1 EP|p l E1 E2 E3 EP|p s l E1 E2 E3 E4 E5 EP|p E1 E2 E3 EP|EP]; subst.
  - apply (NM (map name l) false); auto; [|discriminate]. unfold initItems. now rewrite E1.
  - apply (NM l false); auto; [|discriminate]. unfold initItems. rewrite E1, E2. destruct l; [congruence|reflexivity].
  - apply (NM l true); auto.
    + unfold initItems. rewrite E1, E3. destruct s as [|c s]; [congruence|]. rewrite (split_parts _ _ E5). destruct E2 as [-> | ->]; reflexivity.
    + intros _. exists p. split; [reflexivity|]. split; [exact E1|congruence].
  - right. apply (create_all names evidence qsort (Some p) G B Q). unfold initItems. rewrite E1. destruct E2 as [-> | ->], E3 as [-> | ->]; reflexivity.
  - right. now apply (create_all names evidence qsort None G B Q).
Qed.

(* C43: the available properties are exactly those asked for that the data set
   has, each once, in the order of the names and with their evidence properties;
   no write is outside the memory.  NULL is returned only for a string none of
   whose names the data set has. *)
Theorem properties_available : forall names evidence qsort properties request,
  goodNames names -> (Z.of_nat (List.length names) <= 2 ^ 32)%Z -> sorts qsort ->
  asks properties request -> (forall l, request = Some l -> Forall (Forall textChar) l) ->
  match fst (PropertiesCreate qsort names evidence properties) with
  | Created items => availableAre names evidence (wantedBy request) items
  | Null => (exists p, properties = Some p /\ existing p = None /\ string p <> None) /\ nothingFound names request
  | Outside => False
  end.
Proof.
  intros names evidence qsort properties request G B Q A T.
  destruct (create_cases names evidence qsort properties request G B Q A T) as [(t & S & N & -> & _)|(l & t & t' & items & -> & _ & _ & _ & W)]; cbn; auto.
Qed.
Print Assumptions properties_available.

(* insertion sort is one of the functions qsort may be *)
Fixpoint insertBy (cmp : PropertyAvailable -> PropertyAvailable -> Z) (x : PropertyAvailable) (l : list PropertyAvailable) :=
  match l with [] => [x] | y :: l' => if Z.leb (cmp x y) 0 then x :: l else y :: insertBy cmp x l' end.
Definition insertionSort cmp l := fold_right (insertBy cmp) [] l.
Lemma insert_perm cmp x l : Permutation (x :: l) (insertBy cmp x l).
Proof. induction l as [|y l IH]; cbn; [reflexivity|]. destruct (Z.leb (cmp x y) 0); [reflexivity|]. rewrite perm_swap. now constructor. Qed.
Lemma sort_perm cmp l : Permutation l (insertionSort cmp l).
Proof. induction l as [|x l IH]; cbn; [reflexivity|]. rewrite <- insert_perm. now constructor. Qed.
Theorem insertion_sorts : sorts insertionSort.
Proof.
  intros cmp l O T. split; [apply sort_perm|].
  enough (G : forall x, In x l -> True) . 2: auto.
  assert (K : forall l', incl l' l -> forall b x m y a, insertionSort cmp l' = b ++ x :: m ++ y :: a -> (cmp x y <= 0)%Z).
  2: { apply K. intros x Hx. exact Hx. }
  induction l' as [|z l' IH]; intros I b x m y a E; [destruct b; discriminate E|].
  assert (I' : incl l' l) by (intros w Hw; apply I; now right). specialize (IH I').
  change (insertBy cmp z (insertionSort cmp l') = b ++ x :: m ++ y :: a) in E.
  assert (J : incl (insertionSort cmp l') l) by (intros w Hw; apply I'; eapply Permutation_in; [apply Permutation_sym, sort_perm|exact Hw]).
  assert (Z : In z l) by (apply I; now left).
  revert J IH b E. generalize (insertionSort cmp l'). clear l' I I'. intros s. induction s as [|w s IHs]; intros J IH b E.
  - cbn in E. destruct b as [|? b]; [injection E as _ E; destruct m; discriminate E|injection E as _ E; destruct b; discriminate E].
  - cbn in E. destruct (Z.leb_spec (cmp z w) 0) as [L|L].
    + destruct b as [|? b]; [|injection E as _ E; eapply IH; eauto]. injection E as <- E.
      assert (Hw : In w l) by (apply J; now left). assert (Hy : In y (w :: s)) by (rewrite E; apply in_or_app; right; now left).
      destruct m as [|v m]; cbn in E; injection E as <- E; [exact L|].
      apply (T z w y); auto. apply (IH [] w m y a). now rewrite E.
    + assert (Hw : In w l) by (apply J; now left). destruct b as [|? b].
      * injection E as <- E. assert (Hy : In y (insertBy cmp z s)) by (rewrite E; apply in_or_app; right; now left).
        eapply Permutation_in in Hy; [|apply Permutation_sym, insert_perm]. destruct Hy as [<-|Hy].
        -- apply Z.lt_le_incl. now apply O.
        -- apply in_split in Hy. destruct Hy as (s1 & s2 & ->). apply (IH [] w s1 y s2). reflexivity.
      * injection E as <- E. eapply (IHs); [intros v Hv; apply J; now right| |exact E].
        intros b0 x0 m0 y0 a0 E0. apply (IH (w :: b0) x0 m0 y0 a0). now rewrite E0.
Qed.
Print Assumptions insertion_sorts.
Definition sampleNames : list (list Z) := [text "Red"; text "Yellow"; text "Green"; text "Blue"].
Lemma sampleNames_good : goodNames sampleNames.
Proof.
  split.
  - repeat (constructor; [repeat (constructor; [split; [split; discriminate|discriminate]|]); constructor|]). constructor.
  - intros i j a b Ha Hb S. apply same_length in S as L.
    do 4 (destruct i as [|i]; [injection Ha as <-; (do 4 (destruct j as [|j]; [injection Hb as <-; try discriminate L; try reflexivity|])); destruct j; discriminate Hb|]).
    destruct i; discriminate Ha.
Qed.
Example properties_available_example :
  sorts insertionSort /\ goodNames sampleNames /\
  asks (Some (mkRequired None (Some (text "red|purple, GREEN,Red")) None)) (Some (map text ["red"; "purple"; ""; "GREEN"; "Red"]%string)) /\
  match fst (PropertiesCreate insertionSort sampleNames (fun i => [i; 7]) (Some (mkRequired None (Some (text "red|purple, GREEN,Red")) None))) with
  | Created [a; b] => name a = text "Green" /\ name b = text "Red" /\ propertyIndex a = 2%Z /\ propertyIndex b = 0%Z /\ evidenceProperties a = [2; 7]
  | _ => False end /\
  match fst (PropertiesCreate insertionSort sampleNames (fun i => []) None) with
  | Created l => map name l = map text ["Blue"; "Green"; "Red"; "Yellow"]%string
  | _ => False end /\
  fst (PropertiesCreate insertionSort sampleNames (fun i => []) (Some (mkRequired None (Some (text "x")) None))) = Null.
Proof.
  split; [apply insertion_sorts|]. split; [apply sampleNames_good|]. split; [|vm_compute; repeat split].
  eapply asks_string; [reflexivity|auto|reflexivity|discriminate|].
  assert (P : forall s, ~ In 124%Z s -> ~ In 44%Z s -> ~ In 32%Z s -> Forall (fun c => ~ separator c) s).
  { intros s A B C. apply Forall_forall. intros c Hc [-> | [-> | ->]]; contradiction. }
  change (text "red|purple, GREEN,Red") with (text "red" ++ 124%Z :: text "purple" ++ 44%Z :: text "" ++ 32%Z :: text "GREEN" ++ 44%Z :: text "Red").
  cbn [map].
  apply parts_more; [apply P; vm_compute; intuition discriminate|unfold separator; auto|].
  apply parts_more; [apply P; vm_compute; intuition discriminate|unfold separator; auto|].
  apply parts_more; [apply P; vm_compute; intuition discriminate|unfold separator; auto|].
  apply parts_more; [apply P; vm_compute; intuition discriminate|unfold separator; auto|].
  apply parts_last. apply P; vm_compute; intuition discriminate.
Qed.
(* With two names that differ only in case both items of all properties are given
   the index of the first. *)
Theorem properties_same_names_refuted : exists names l,
  fst (PropertiesCreate insertionSort names (fun _ => []) None) = Created l /\ List.length names = 2 /\ map propertyIndex l = [0; 0]%Z.
Proof. exists [text "Red"; text "RED"]. eexists. split; [vm_compute; reflexivity|]. split; reflexivity. Qed.
Print Assumptions properties_same_names_refuted.

(* C44: with ASCII names the look ups of available properties by name, in any
   case, and by index are inverse, and other names are not found. *)
Theorem properties_lookup : forall names evidence qsort properties request l,
  goodNames names -> Forall ascii names -> (Z.of_nat (List.length names) <= 2 ^ 32)%Z -> sorts qsort ->
  asks properties request -> (forall l, request = Some l -> Forall (Forall textChar) l) ->
  fst (PropertiesCreate qsort names evidence properties) = Created l ->
  (forall k x, nth_error l k = Some x ->
     PropertiesGetNameFromRequiredIndex l (Z.of_nat k) = Some (name x) /\
     PropertiesGetPropertyIndexFromRequiredIndex l (Z.of_nat k) = propertyIndex x /\
     forall t, sameText t (name x) ->
       PropertiesGetRequiredPropertyIndexFromName l t = Some (Z.of_nat k) /\
       PropertiesGetPropertyIndexFromName l t = Some (propertyIndex x)) /\
  (forall t, (forall x, In x l -> ~ sameText t (name x)) ->
     PropertiesGetRequiredPropertyIndexFromName l t = Some (-1)%Z /\ PropertiesGetPropertyIndexFromName l t = Some (-1)%Z) /\
  (forall k, (k < 0)%Z \/ (Z.of_nat (List.length l) <= k)%Z -> PropertiesGetPropertyIndexFromRequiredIndex l k = (-1)%Z).
Proof.
  intros names evidence qsort properties request l G As B Q A T E.
  pose proof (properties_available names evidence qsort properties request G B Q A T) as W. rewrite E in W. clear E.
  destruct W as (W1 & _ & W2 & W3 & W4).
  assert (IX : forall k x, nth_error l k = Some x -> PropertiesGetPropertyIndexFromRequiredIndex l (Z.of_nat k) = propertyIndex x).
  { intros k x X. unfold PropertiesGetPropertyIndexFromRequiredIndex. assert (k < List.length l) by (apply nth_error_Some; congruence).
    destruct (Z.leb_spec 0 (Z.of_nat k)); [|lia]. destruct (Z.ltb_spec (Z.of_nat k) (Z.of_nat (List.length l))); [|lia]. cbn [andb]. now rewrite Nat2Z.id, X. }
  split; [|split].
  - intros k x X. assert (Lk : k < List.length l) by (apply nth_error_Some; congruence). split; [|split].
    + unfold PropertiesGetNameFromRequiredIndex. destruct (Z.ltb_spec (Z.of_nat k) 0); [lia|]. now rewrite Nat2Z.id, X.
    + now apply IX.
    + assert (AN : forall y, In y l -> ascii (name y)).
      { intros y Hy. destruct (W1 y Hy) as (i & _ & _ & N & _). apply (proj1 (Forall_forall _ _) As). eapply nth_error_In; exact N. }
      intros t S. assert (F : PropertiesGetRequiredPropertyIndexFromName l t = Some (Z.of_nat k)).
      { unfold PropertiesGetRequiredPropertyIndexFromName. rewrite (bsearch_found _ l k x X); auto; try lia.
        - apply compare_zero. exact S.
        - intros j y Lj Y. apply nth_error_split in X. destruct X as (l1 & l2 & El & L1). subst k. rewrite El, nth_error_app1 in Y by lia.
          apply nth_error_split in Y. destruct Y as (m1 & m2 & E1 & _). rewrite E1, <- app_assoc in El. cbn in El.
          assert (Hy : In y l) by (rewrite El; apply in_or_app; right; now left).
          assert (Hx : In x l) by (rewrite El; apply in_or_app; right; right; apply in_or_app; right; now left).
          pose proof (W3 _ _ _ _ _ El) as Bf. apply before_compare in Bf; auto.
          rewrite (compare_same_l t (name x) (name y) S), compare_opp. lia.
        - intros j y Lj Y. apply nth_error_split in Y. destruct Y as (l1 & l2 & El & L1). subst j. rewrite El, nth_error_app1 in X by lia.
          apply nth_error_split in X. destruct X as (m1 & m2 & E1 & _). rewrite E1, <- app_assoc in El. cbn in El.
          assert (Hx : In x l) by (rewrite El; apply in_or_app; right; now left).
          assert (Hy : In y l) by (rewrite El; apply in_or_app; right; right; apply in_or_app; right; now left).
          pose proof (W3 _ _ _ _ _ El) as Bf. apply before_compare in Bf; auto.
          rewrite (compare_same_l t (name x) (name y) S). exact Bf. }
      split; [exact F|]. unfold PropertiesGetPropertyIndexFromName. rewrite F. destruct (Z.leb_spec 0 (Z.of_nat k)); [|lia]. f_equal. now apply IX.
  - intros t N. assert (F : PropertiesGetRequiredPropertyIndexFromName l t = Some (-1)%Z).
    { unfold PropertiesGetRequiredPropertyIndexFromName. rewrite bsearch_none; auto; try lia. intros x Hx C. apply (N x Hx). now apply compare_zero. }
    split; [exact F|]. unfold PropertiesGetPropertyIndexFromName. now rewrite F.
  - intros k K. unfold PropertiesGetPropertyIndexFromRequiredIndex.
    destruct (Z.leb_spec 0 k); [|reflexivity]. destruct (Z.ltb_spec k (Z.of_nat (List.length l))); [lia|reflexivity].
Qed.
Print Assumptions properties_lookup.
Lemma sampleNames_ascii : Forall ascii sampleNames.
Proof. repeat (constructor; [repeat (constructor; [split; reflexivity|]); constructor|]). constructor. Qed.
Example properties_lookup_example :
  goodNames sampleNames /\ Forall ascii sampleNames /\ sorts insertionSort /\
  match fst (PropertiesCreate insertionSort sampleNames (fun i => []) None) with
  | Created l => PropertiesGetRequiredPropertyIndexFromName l (text "gREEN") = Some 1%Z /\ PropertiesGetPropertyIndexFromName l (text "gREEN") = Some 2%Z /\
      PropertiesGetNameFromRequiredIndex l 1 = Some (text "Green") /\ PropertiesGetRequiredPropertyIndexFromName l (text "gree") = Some (-1)%Z
  | _ => False end.
Proof. split; [apply sampleNames_good|]. split; [apply sampleNames_ascii|]. split; [apply insertion_sorts|]. vm_compute. repeat split. Qed.
(* With other characters the search and the sort disagree: an available property
   is not found under its own name. *)
Theorem properties_lookup_refuted : exists names l x,
  goodNames names /\ fst (PropertiesCreate insertionSort names (fun _ => []) None) = Created l /\ In x l /\
  PropertiesGetRequiredPropertyIndexFromName l (name x) = Some (-1)%Z.
Proof.
  exists [[122]; [-61]]%Z. eexists. exists (mkAvailable 0 [122]%Z 0 []). split; [|split; [vm_compute; reflexivity|]; split; [left; reflexivity|vm_compute; reflexivity]].
  split; [repeat (constructor; [repeat (constructor; [split; [split; discriminate|discriminate]|]); constructor|]); constructor|].
  intros i j a b Ha Hb S. destruct i as [|[|i]]; [injection Ha as <-|injection Ha as <-|destruct i; discriminate Ha];
    (destruct j as [|[|j]]; [injection Hb as <-|injection Hb as <-|destruct j; discriminate Hb]); try reflexivity;
    inversion S as [|? ? ? ? L]; unfold sameLetter, upperLower in L; lia.
Qed.
Print Assumptions properties_lookup_refuted.

(* C71 refuted: a property whose name is only a beginning of SetHeader counts as
   one that sets headers. *)
Theorem set_header_refuted : exists l, map name l = [text "Se"] /\ PropertiesIsSetHeaderAvailable l = true /\
  forall n, In n (map name l) -> forall rest, ~ sameText n (text "SetHeader" ++ rest).
Proof.
  exists [mkAvailable 0 (text "Se") 0 []]. split; [reflexivity|]. split; [reflexivity|]. intros n [<-|[]] rest S. apply same_length in S. discriminate S.
Qed.
Print Assumptions set_header_refuted.
(* What holds: there is one whose name starts with SetHeader, or is a non empty
   beginning of it, in any case. *)
Theorem set_header_exact : forall l,
  PropertiesIsSetHeaderAvailable l = true <->
  exists x, In x l /\ (exists h rest, (name x = h ++ rest /\ sameText h (text "SetHeader")) \/
                                    (sameText (name x) h /\ name x <> [] /\ rest <> [] /\ text "SetHeader" = h ++ rest)).
Proof.
  intros l. unfold PropertiesIsSetHeaderAvailable. rewrite existsb_exists.
  assert (K : forall n, (match StringSubString n SET_HEADER with Some 0 => true | _ => false end) = true <->
    exists h rest, (n = h ++ rest /\ sameText h (text "SetHeader")) \/ (sameText n h /\ n <> [] /\ rest <> [] /\ text "SetHeader" = h ++ rest)).
  { intros n. change SET_HEADER with (text "SetHeader"). pose proof (string_substring_spec n (text "SetHeader") ltac:(discriminate)) as H.
    destruct (StringSubString n (text "SetHeader")) as [[|p]|].
    - split; [intros _|reflexivity]. destruct H as ([(b & m & a & E & L & S)|(b & e & b1 & b2 & E & L & E2 & N1 & N2 & S)] & _); (destruct b; [|discriminate L]); cbn in E.
      + exists m, a. auto.
      + exists b1, b2. right. subst e. auto.
    - split; [discriminate|]. intros (h & rest & X). exfalso. destruct H as (_ & H). destruct (H 0) as (H1 & H2); [lia|]. destruct X as [(-> & S)|(S & N1 & N2 & E)].
      + apply H1. exists [], h, rest. auto.
      + apply H2. exists [], n, h, rest. repeat split; auto.
    - split; [discriminate|]. intros (h & rest & X). exfalso. destruct (H 0) as (H1 & H2). destruct X as [(-> & S)|(S & N1 & N2 & E)].
      + apply H1. exists [], h, rest. auto.
      + apply H2. exists [], n, h, rest. repeat split; auto. }
  split; intros (x & Hx & P); exists x; (split; [exact Hx|]); now apply K.
Qed.
Print Assumptions set_header_exact.
Example set_header_example :
  PropertiesIsSetHeaderAvailable [mkAvailable 0 (text "setheaderBrowserAccept-CH") 0 []] = true /\
  PropertiesIsSetHeaderAvailable [mkAvailable 0 (text "SetHeat") 0 []; mkAvailable 1 (text "xSetHeader") 1 []] = false.
Proof. vm_compute. repeat split. Qed.

(* C72: no reference to a name is given back that is not held; when the properties
   are created one is held for each item, and none when they are freed. *)
Theorem properties_references : forall names evidence qsort properties request events outcome,
  goodNames names -> (Z.of_nat (List.length names) <= 2 ^ 32)%Z -> sorts qsort ->
  asks properties request -> (forall l, request = Some l -> Forall (Forall textChar) l) ->
  PropertiesCreate qsort names evidence properties = (outcome, events) ->
  (forall i, held events i = match outcome with
                             | Created l => Z.of_nat (List.length (filter (fun x => Z.eqb (propertyIndex x) (Z.of_nat i)) l))
                             | _ => 0%Z end) /\
  let freed := events ++ match outcome with Created l => PropertiesFree l | _ => [] end in
  (forall i, held freed i = 0%Z) /\ (forall p s i, freed = p ++ s -> (0 <= held p i)%Z).
Proof.
  intros names evidence qsort properties request events outcome G B Q A T E.
  destruct (create_cases names evidence qsort properties request G B Q A T) as [(t & _ & _ & C & Qt)|(l & t & t' & items & C & Q1 & Q2 & P & W)]; rewrite E in C; injection C as -> ->.
  - cbv zeta. rewrite app_nil_r. split; [intros i; now apply quiet_held|]. split; [intros i; now apply quiet_held|]. now apply quiet_prefix.
  - assert (H : forall i, held (t ++ map Got items ++ t') i = Z.of_nat (count_occ Nat.eq_dec items i)).
    { intros i. rewrite !held_app, held_map_got, !quiet_held by assumption. lia. }
    assert (R : forall i, count_occ Nat.eq_dec items i = count_occ Nat.eq_dec (map reference l) i) by (intros i; now apply Permutation_count_occ).
    assert (X : forall x, In x l -> propertyIndex x = Z.of_nat (reference x)).
    { intros x Hx. destruct (proj1 W x Hx) as (i & Ei & <- & _). exact Ei. }
    split; [|split].
    + intros i. rewrite H, R. f_equal. clear -X. induction l as [|x l IH]; [reflexivity|]. cbn [map count_occ filter].
      rewrite (X x (in_eq _ _)). destruct (Nat.eq_dec (reference x) i) as [->|N].
      * rewrite Z.eqb_refl. cbn. f_equal. apply IH. intros y Hy. apply X. now right.
      * destruct (Z.eqb_spec (Z.of_nat (reference x)) (Z.of_nat i)); [lia|]. apply IH. intros y Hy. apply X. now right.
    + intros i. rewrite held_app, H, R. unfold PropertiesFree. rewrite <- (map_map reference Released l), held_map_released. lia.
    + change (sound ((t ++ map Got items ++ t') ++ PropertiesFree l)). refine (sound_app _ _ _ _).
      * refine (sound_app _ _ _ _); [intros p s i F; eapply quiet_prefix; exact Q1 || exact F|]. intros p s i F. rewrite quiet_held by assumption.
        assert (S : sound (map Got items ++ t')).
        { refine (sound_app _ _ _ _); [intros p0 s0 i0 F0; eapply got_prefix; eauto|]. intros p0 s0 i0 F0. rewrite held_map_got. pose proof (quiet_prefix t' Q2 _ _ i0 F0). lia. }
        specialize (S _ _ i F). lia.
      * intros p s i F. rewrite H, R. unfold PropertiesFree in F. rewrite <- (map_map reference Released l) in F. pose proof (released_prefix _ _ _ i F). lia.
Qed.
Print Assumptions properties_references.
Example properties_references_example :
  match PropertiesCreate insertionSort sampleNames (fun i => []) (Some (mkRequired (Some [text "blue"; text "RED"]) None None)) with
  | (Created l, events) => List.length events = 32 /\ map (held events) [0; 1; 2; 3] = [1; 0; 0; 1]%Z /\ PropertiesFree l = [Released 3; Released 0]
  | _ => False end.
Proof. vm_compute. repeat split. Qed.
