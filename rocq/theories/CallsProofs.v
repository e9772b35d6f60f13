(* The functions of property.c, value.c and profile.c on changing collections give what
   they give on functions, and give everything back *)
From Coq Require Import Permutation.
From Verif Require Import TreeModel CacheModel CacheSpec CacheRun CacheProps CollectionModel CollectionSpec.
From Verif Require ItemModel LifeProofs.
From Verif Require Import SearchModel ProfileModel ProfileSpec ProfileProofs PropertiesProfile DbModel DbSpec DbProofs DbFound CallsModel CallsSpec CallsGet CallsWorld.
Local Open Scope Z_scope.

Section Calls.
  Context (file : list Z) (pl : places) (d : db) (u : uses).
  Context (D : dbOK d) (St : stored file pl d) (Op : allOpened file pl u).
  Context (use0 : src -> slot -> nat) (out0 : src -> nat) (m0 : list (nat * Z)) (h0 : nat).
  Notation collOf s := (ucoll (useOf u s)).
  Context (room : forall s, hasCache (collOf s) = true -> Z.of_nat (out0 s) < concOf (ucfg (useOf u s)) /\ Z.of_nat (length (concat (itemsOf d s))) <= 2 ^ 31).
  Context (Hh : (0 < h0)%nat).
  Notation I := (CallsWorld.I file u use0 out0 m0 h0).
  Notation plain := (CallsWorld.plain file u).
  Notation heldBy := (CallsWorld.heldBy u).
  Notation gString := (plain textOf Texts).
  Notation gProperty := (plain propertyOf Props).
  Notation gValue := (plain valueNameOffset Vals).
  Notation gOffset := (plain offsetOf Offs).
  Notation gProfile := (plain profileOf Profs).
  Notation at_ s n := (position (kindOf s) (itemsOf d s) n).
  Notation idle it := (ItemModel.allocated (idata it) = 0).
  Notation get := (CallsModel.get file (fuelOf u)).
  Notation meth s := (methodOf (collOf s)).

  Lemma srcCount_app s a b : srcCount s (a ++ b) = (srcCount s a + srcCount s b)%nat.
  Proof using Type. unfold srcCount. rewrite map_app. apply list_sum_app. Qed.

  (* gets of what is there *)
  Lemma get_there {A} (decode : list Z -> option A) held w s n itm it : I held w -> idle it -> nth_error (itemsOf d s) n = Some itm -> srcCount s held = 0%nat ->
    exists b it' w' r, get s (at_ s n) true it w = Some (Some b, true, it', w') /\ I (r ++ held) w' /\ heldBy s it' r /\ (forall x, x <> s -> srcCount x (r ++ held) = srcCount x held) /\
      (exists rest, b = itm ++ rest) /\ plain decode s (at_ s n) = (decode b, true) /\ plainBytes file (kindOf s) (collOf s) (at_ s n) = Some b.
  Proof using D St Op room Hh.
    intros HI Hi N Hs. destruct (get_step file pl d u D St Op use0 out0 m0 h0 room held w s n itm it HI Hh Hi N Hs) as (b & it' & w' & r & G & P & F & HI' & Hd & Hc & _).
    exists b, it', w', r. split; [exact G|]. split; [exact HI'|]. split; [exact Hd|]. split; [intros x Ne; rewrite srcCount_app, (Hc x Ne); reflexivity|].
    split; [exists (skipn (length itm) b); rewrite <- F at 1; symmetry; apply firstn_skipn|]. split; [unfold CallsWorld.plain; now rewrite P|exact P].
  Qed.
  Lemma get_text held w n t it : I held w -> idle it -> nth_error (texts d) n = Some t -> srcCount Texts held = 0%nat ->
    exists b it' w' r, get Texts (textAt d n) true it w = Some (Some b, true, it', w') /\ I (r ++ held) w' /\ heldBy Texts it' r /\ (forall x, x <> Texts -> srcCount x (r ++ held) = srcCount x held) /\ textOf b = Some t /\ gString (textAt d n) = (Some t, true).
  Proof using D St Op room Hh.
    intros HI Hi N Hs. destruct (get_there textOf held w Texts n _ it HI Hi (text_item d n t N) Hs) as (b & it' & w' & r & G & HI' & Hd & Hc & (rest & ->) & P & _).
    assert (isText t) as Ts by (pose proof D as (F & _); rewrite Forall_forall in F; apply F; exact (nth_error_In _ _ N)).
    exists (encText t ++ rest), it', w', r. rewrite (text_decode t rest Ts) in P |- *. auto 10.
  Qed.
  Lemma get_prop held w n p it : I held w -> idle it -> nth_error (props d) n = Some p -> srcCount Props held = 0%nat ->
    exists b it' w' r, get Props (Z.of_nat n) true it w = Some (Some b, true, it', w') /\ I (r ++ held) w' /\ heldBy Props it' r /\ (forall x, x <> Props -> srcCount x (r ++ held) = srcCount x held) /\
      propertyOf b = Some (decoded d p) /\ valueType b = Some (ptype p) /\ gProperty (Z.of_nat n) = (Some (decoded d p), true).
  Proof using D St Op room Hh.
    intros HI Hi N Hs. destruct (get_there propertyOf held w Props n _ it HI Hi (prop_item d n p N) Hs) as (b & it' & w' & r & G & HI' & Hd & Hc & (rest & ->) & P & _).
    destruct (prop_members d p rest D (prop_in d D _ _ N)) as (E0 & E1 & _ & _ & _ & E2 & E3 & _).
    assert (propertyOf (encProp d p ++ rest) = Some (decoded d p)) as E by (unfold propertyOf, decoded; now rewrite E1, E2, E3).
    exists (encProp d p ++ rest), it', w', r. rewrite E in P |- *. cbn [kindOf position] in G, P. auto 10.
  Qed.
  Lemma get_offs held w i n p it : I held w -> idle it -> nth_error (order d) i = Some n -> nth_error (profs d) n = Some p -> srcCount Offs held = 0%nat ->
    exists b it' w' r, get Offs (Z.of_nat i) true it w = Some (Some b, true, it', w') /\ I (r ++ held) w' /\ heldBy Offs it' r /\ (forall x, x <> Offs -> srcCount x (r ++ held) = srcCount x held) /\
      offsetOf b = Some (mkOffset (prid p) (startOf (map encProf (profs d)) n)) /\ gOffset (Z.of_nat i) = (Some (mkOffset (prid p) (startOf (map encProf (profs d)) n)), true).
  Proof using D St Op room Hh.
    intros HI Hi N Np Hs. destruct (get_there offsetOf held w Offs i _ it HI Hi (offs_item d i n N) Hs) as (b & it' & w' & r & G & HI' & Hd & Hc & (rest & ->) & P & _).
    assert (Forall profOK (profs d)) as F by apply D. rewrite Forall_forall in F. destruct (F p (nth_error_In _ _ Np)) as (Fi & _).
    assert (nth n (profs d) noProf = p) as En by exact (nth_error_nth _ _ _ Np).
    pose proof (offset_decode d n rest D ltac:(rewrite En; exact Fi)) as E. rewrite En in E.
    exists (encOffset d n ++ rest), it', w', r. rewrite E in P |- *. cbn [kindOf position] in G, P. auto 10.
  Qed.
  Lemma get_prof held w n p it : I held w -> idle it -> nth_error (profs d) n = Some p -> srcCount Profs held = 0%nat ->
    exists b it' w' r after, get Profs (startOf (map encProf (profs d)) n) true it w = Some (Some b, true, it', w') /\ I (r ++ held) w' /\ heldBy Profs it' r /\ (forall x, x <> Profs -> srcCount x (r ++ held) = srcCount x held) /\
      profileOf b = Some (mkProfile (prvalues p) after) /\ gProfile (startOf (map encProf (profs d)) n) = (Some (mkProfile (prvalues p) after), true).
  Proof using D St Op room Hh.
    intros HI Hi N Hs. destruct (get_there profileOf held w Profs n _ it HI Hi (prof_item d n p N) Hs) as (b & it' & w' & r & G & HI' & Hd & Hc & (rest & ->) & P & _).
    assert (Forall profOK (profs d)) as F by apply D. rewrite Forall_forall in F. destruct (F p (nth_error_In _ _ N)) as (_ & Fv & _).
    assert (fits 4 (Z.of_nat (length (prvalues p)))) as Fl.
    { apply fits4. assert (small (map encProf (profs d))) as Sm by apply D. unfold small in Sm. pose proof (item_len _ _ _ (prof_item d n p N)) as L. cbn [itemsOf] in L. rewrite encProf_length in L. lia. }
    destruct (profile_decode p rest Fl Fv) as (after & E).
    exists (encProf p ++ rest), it', w', r, after. rewrite E in P |- *. auto 10.
  Qed.
  Lemma released held w s it r s' : I (r ++ held) w -> heldBy s it r -> fits_method (meth s') (collOf s) = true ->
    exists it' w', releaseIn s' it w = Some (it', w') /\ I held w' /\ idle it' /\ (forall w, release (meth s') it' w = Some (it', w)).
  Proof using D St Op.
    intros HI Hd Hf. unfold releaseIn. rewrite (method_in file u use0 out0 m0 h0 _ w s' HI). exact (release_step file pl d u D St Op use0 out0 m0 h0 held w s it r (meth s') HI Hd Hf).
  Qed.
  Lemma own s : fits_method (meth s) (collOf s) = true.
  Proof using D St Op. exact (own_method file pl d u D St Op s). Qed.

  (* ---- properties ---- *)
  Context (compareOther : list Z -> list Z -> Z).
  Lemma loop_refines : fits_method (meth Props) (collOf Texts) = true -> forall name n i held nameItem it w, I held w -> srcCount Props held = 0%nat -> srcCount Texts held = 0%nat ->
    idle nameItem -> idle it -> (i + n <= length (props d))%nat ->
    exists r it' w' rs t, propertyLoop file (fuelOf u) n (Z.of_nat i) name nameItem it w = Some (r, true, it', w') /\ I (rs ++ held) w' /\
      ProfileModel.PropertyGetByName gString gProperty n (Z.of_nat i) name = (r, true, t) /\ (forall x, x <> Props -> srcCount x (rs ++ held) = srcCount x held) /\
      match r with Some _ => heldBy Props it' rs | None => rs = [] /\ idle it' end.
  Proof using D St Op room Hh.
    intros Hf name. induction n as [|n IH]; intros i held nameItem it w HI Hp Ht Hn Hi L.
    - exists None, it, w, [], []. cbn [propertyLoop ProfileModel.PropertyGetByName app]. auto 10.
    - destruct (item_at (props d) i ltac:(lia)) as (p & Np). destruct (get_prop held w i p it HI Hi Np Hp) as (b & it1 & w1 & r1 & G1 & I1 & Hd1 & C1 & E1 & _ & P1).
      destruct (prop_in d D _ _ Np) as (_ & _ & _ & _ & _ & Lt & _). destruct (item_at (texts d) (pname p) Lt) as (t & Nt).
      destruct (get_text (r1 ++ held) w1 (pname p) t nameItem I1 Hn Nt) as (nb & it2 & w2 & r2 & G2 & I2 & Hd2 & C2 & E2 & P2); [rewrite C1 by discriminate; exact Ht|].
      cbn [propertyLoop ProfileModel.PropertyGetByName]. rewrite G1, E1. cbn [decoded nameOffset]. rewrite P1. cbn [decoded nameOffset]. fold (decoded d p). rewrite G2, E2, P2. cbn [andb].
      destruct (negb (strcmp t name =? 0)).
      + assert (I (r1 ++ (r2 ++ held)) w2) as I2'.
        { apply (I_perm file u use0 out0 m0 h0 (r2 ++ r1 ++ held)); [rewrite !app_assoc; apply Permutation_app_tail, Permutation_app_comm|exact I2]. }
        destruct (released _ _ Props _ _ Props I2' Hd1 (own Props)) as (it3 & w3 & R3 & I3 & Hi3 & _). rewrite R3.
        destruct (released _ _ Texts _ _ Props I3 Hd2 Hf) as (it4 & w4 & R4 & I4 & Hi4 & _). rewrite R4.
        destruct (IH (S i) held it4 it3 w4 I4 Hp Ht Hi4 Hi3 ltac:(lia)) as (r & it' & w' & rs & tt & Q1 & Q2 & Q3 & Q4 & Q5).
        replace (Z.of_nat i + 1) with (Z.of_nat (S i)) by lia. rewrite Q1, Q3. exists r, it', w', rs. eexists. split; [reflexivity|]. split; [exact Q2|]. split; [reflexivity|]. auto.
      + destruct (released _ _ Texts _ _ Props I2 Hd2 Hf) as (it4 & w4 & R4 & I4 & _). rewrite R4.
        exists (Some (Z.of_nat i, decoded d p)), it1, w4, r1. eexists. split; [reflexivity|]. split; [exact I4|]. split; [reflexivity|]. auto.
  Qed.
  Lemma count_props : Z.to_nat (CollectionGetCount (collOf Props)) = length (props d).
  Proof using D St Op. cbn [useOf]. rewrite (proj1 (counts file pl d u D St Op)). apply Nat2Z.id. Qed.
  Lemma count_offs : Z.to_nat (CollectionGetCount (collOf Offs)) = length (order d).
  Proof using D St Op. cbn [useOf]. rewrite (proj2 (counts file pl d u D St Op)). apply Nat2Z.id. Qed.
  Lemma by_name_refines : fits_method (meth Props) (collOf Texts) = true -> forall name held it w, I held w -> srcCount Props held = 0%nat -> srcCount Texts held = 0%nat -> idle it ->
    exists r it' w' rs t, CallsModel.PropertyGetByName file (fuelOf u) name it w = Some (r, true, it', w') /\ I (rs ++ held) w' /\
      ProfileModel.PropertyGetByName gString gProperty (Z.to_nat (CollectionGetCount (collOf Props))) 0 name = (r, true, t) /\ (forall x, x <> Props -> srcCount x (rs ++ held) = srcCount x held) /\
      match r with Some _ => heldBy Props it' rs | None => rs = [] /\ idle it' end.
  Proof using D St Op room Hh.
    intros Hf name held it w HI Hp Ht Hi. unfold CallsModel.PropertyGetByName. rewrite (count_in file u use0 out0 m0 h0 held w Props HI), count_props.
    exact (loop_refines Hf name (length (props d)) 0 held newItem it w HI Hp Ht eq_refl Hi ltac:(lia)).
  Qed.

  (* ---- searches ---- *)
  Section Search.
    Context {A : Type} (s : src) (decode : list Z -> option A) (cmp : list Z -> world -> option (Z * bool * world)) (cmpP : A -> Z -> Z * bool).
    Context (Hk : kindOf s = Fixed) (Hne : s <> Texts).
    Context (Hdec : forall n itm rest, nth_error (itemsOf d s) n = Some itm -> exists a, decode (itm ++ rest) = Some a).
    Context (Hcmp : forall held w b a i n itm rest, I held w -> srcCount Texts held = 0%nat -> nth_error (itemsOf d s) n = Some itm -> b = itm ++ rest -> decode b = Some a ->
      exists w', cmp b w = Some (fst (cmpP a i), true, w') /\ I held w' /\ snd (cmpP a i) = true).
    Notation again it := (forall w, release (meth s) it w = Some (it, w)).

    Lemma search_refines held : srcCount s held = 0%nat -> srcCount Texts held = 0%nat -> forall n lower upper it w tr, I held w -> idle it -> 0 <= lower -> upper < Z.of_nat (length (itemsOf d s)) ->
      match SearchModel.search (plain decode s) cmpP n lower upper tr with
      | None => True
      | Some (r, ok, tr') => ok = true /\ exists it' ob w' rs, CallsModel.search file (fuelOf u) s cmp n lower upper it w = Some (r, true, it', ob, w') /\ I (rs ++ held) w' /\ (forall x, x <> s -> srcCount x (rs ++ held) = srcCount x held) /\
          ((0 <= r /\ heldBy s it' rs /\ exists b tr'', tr' = SGet r :: tr'' /\ ob = Some b /\ plain decode s r = (decode b, true) /\ plainBytes file (kindOf s) (collOf s) r = Some b /\ decode b <> None) \/
           (r = -1 /\ rs = [] /\ idle it' /\ (again it \/ lower <= upper -> again it')))
      end.
    Proof using D St Op room Hh Hk Hne Hdec Hcmp.
      intros Hs Ht. induction n as [|n IH]; intros lower upper it w tr HI Hi H0 H1; [exact Logic.I|]. cbn [SearchModel.search CallsModel.search].
      destruct (Z.leb_spec lower upper) as [Hlu|Hlu].
      2:{ split; [reflexivity|]. exists it, None, w, []. split; [reflexivity|]. split; [exact HI|]. split; [reflexivity|]. right. split; [reflexivity|]. split; [reflexivity|]. split; [exact Hi|]. intros [X|X]; [exact X|lia]. }
      set (m := lower + (upper - lower) / 2) in *. assert (lower <= m <= upper) as Hm.
      { unfold m. pose proof (Z.div_pos (upper - lower) 2 ltac:(lia) ltac:(lia)). pose proof (Z.div_le_upper_bound (upper - lower) 2 (upper - lower) ltac:(lia) ltac:(lia)). lia. }
      destruct (item_at (itemsOf d s) (Z.to_nat m) ltac:(lia)) as (itm & N).
      assert (at_ s (Z.to_nat m) = m) as Ea by (rewrite Hk; cbn [position]; lia).
      destruct (get_there decode held w s _ itm it HI Hi N Hs) as (b & it1 & w1 & r1 & G1 & I1 & Hd1 & C1 & (rest & Eb) & P1 & Pb). rewrite Ea in G1, P1, Pb. rewrite G1, P1.
      destruct (Hdec _ _ rest N) as (a & Ed). rewrite <- Eb in Ed. rewrite Ed.
      destruct (Hcmp (r1 ++ held) w1 b a m _ itm rest I1 ltac:(rewrite C1 by congruence; exact Ht) N Eb Ed) as (w2 & Ec & I2 & Ok). rewrite Ec.
      destruct (cmpP a m) as (r, ok) eqn:Er. cbn [fst snd] in *. subst ok. destruct (Z.eqb_spec r 0) as [Hr|Hr].
      - split; [reflexivity|]. exists it1, (Some b), w2, r1. split; [reflexivity|]. split; [exact I2|]. split; [exact C1|]. left. split; [lia|]. split; [exact Hd1|].
        exists b, tr. split; [reflexivity|]. split; [reflexivity|]. split; [now rewrite P1|]. split; [exact Pb|congruence].
      - destruct (released _ _ s _ _ s I2 Hd1 (own s)) as (it3 & w3 & R3 & I3 & Hi3 & Ag). rewrite R3.
        assert (forall lo up, 0 <= lo -> up < Z.of_nat (length (itemsOf d s)) ->
          match SearchModel.search (plain decode s) cmpP n lo up (SRelease m :: SGet m :: tr) with
          | None => True
          | Some (r, ok, tr') => ok = true /\ exists it' ob w' rs, CallsModel.search file (fuelOf u) s cmp n lo up it3 w3 = Some (r, true, it', ob, w') /\ I (rs ++ held) w' /\ (forall x, x <> s -> srcCount x (rs ++ held) = srcCount x held) /\
          ((0 <= r /\ heldBy s it' rs /\ exists b tr'', tr' = SGet r :: tr'' /\ ob = Some b /\ plain decode s r = (decode b, true) /\ plainBytes file (kindOf s) (collOf s) r = Some b /\ decode b <> None) \/
           (r = -1 /\ rs = [] /\ idle it' /\ (again it \/ lower <= upper -> again it')))
          end) as Next.
        { intros lo up L1 L2. specialize (IH lo up it3 w3 (SRelease m :: SGet m :: tr) I3 Hi3 L1 L2). destruct (SearchModel.search _ _ n lo up _) as [((r', ok'), tr')|]; [|exact Logic.I].
          destruct IH as (-> & it' & ob & w' & rs & Q1 & Q2 & Q3 & Q4). split; [reflexivity|]. exists it', ob, w', rs. split; [exact Q1|]. split; [exact Q2|]. split; [exact Q3|].
          destruct Q4 as [Q4|(Q4 & Q5 & Q6 & Q7)]; [left; exact Q4|right]. split; [exact Q4|]. split; [exact Q5|]. split; [exact Q6|]. intros _. apply Q7. left. exact Ag. }
        destruct (Z.ltb 0 r).
        + destruct (Z.eqb_spec m 0); apply Next; try lia. apply Z.mod_pos_bound; lia.
        + apply Next; [apply Z.mod_pos_bound|]; lia.
    Qed.
  End Search.

  (* ---- values ---- *)
  Lemma valueNames n itm rest : nth_error (itemsOf d Vals) n = Some itm -> exists v, nth_error (vals d) n = Some v /\ valueNameOffset (itm ++ rest) = Some (textAt d (vname v)).
  Proof using D.
    cbn [itemsOf]. rewrite nth_error_map. destruct (nth_error (vals d) n) as [v|]; [|discriminate]. intros E. injection E as <-. exists v. split; [reflexivity|]. apply (val_members d v rest D).
  Qed.
  Lemma compare_value name held w b a i n itm rest : I held w -> srcCount Texts held = 0%nat -> nth_error (itemsOf d Vals) n = Some itm -> b = itm ++ rest -> valueNameOffset b = Some a ->
    exists w', CallsModel.compareValueByName file (fuelOf u) compareOther name b w = Some (fst (ProfileModel.compareValueByName gString compareOther name a i), true, w') /\ I held w' /\
      snd (ProfileModel.compareValueByName gString compareOther name a i) = true.
  Proof using D St Op room Hh.
    intros HI Ht N -> Ea. destruct (valueNames n itm rest N) as (v & Nv & E). rewrite E in Ea. injection Ea as <-.
    assert (valOK d v) as (L & _) by (pose proof D as (_ & _ & F & _); rewrite Forall_forall in F; apply F; exact (nth_error_In _ _ Nv)).
    destruct (item_at (texts d) (vname v) L) as (t & Nt). destruct (get_text held w (vname v) t newItem HI eq_refl Nt Ht) as (nb & it2 & w2 & r2 & G2 & I2 & Hd2 & C2 & E2 & P2).
    unfold CallsModel.compareValueByName, ProfileModel.compareValueByName. rewrite E, G2, E2, P2.
    destruct (released _ _ Texts _ _ Texts I2 Hd2 (own Texts)) as (it4 & w4 & R4 & I4 & _). rewrite R4. exists w4. auto.
  Qed.
  Lemma value_index_refines p name held w : I held w -> srcCount Vals held = 0%nat -> srcCount Texts held = 0%nat -> 0 <= firstValueIndex p -> lastValueIndex p < Z.of_nat (length (vals d)) ->
    firstValueIndex p <= lastValueIndex p \/ meth Vals = Nothing ->
    match ProfileModel.ValueGetIndexByName gString gValue compareOther p name with
    | None => True
    | Some (r, ok) => ok = true /\ exists w', CallsModel.ValueGetIndexByName file (fuelOf u) compareOther p name w = Some (r, true, w') /\ I held w'
    end.
  Proof using D St Op room Hh.
    intros HI Hv Ht H0 H1 Hor. unfold ProfileModel.ValueGetIndexByName, CallsModel.ValueGetIndexByName, BinarySearch.
    pose proof (search_refines Vals valueNameOffset (CallsModel.compareValueByName file (fuelOf u) compareOther name) (ProfileModel.compareValueByName gString compareOther name) eq_refl ltac:(discriminate)) as Q.
    specialize (Q ltac:(intros n itm rest N; destruct (valueNames n itm rest N) as (v & _ & E); eauto) (compare_value name) held Hv Ht 33%nat (firstValueIndex p) (lastValueIndex p) newItem w [] HI eq_refl H0).
    cbn [itemsOf] in Q. rewrite map_length in Q. specialize (Q H1). revert Q. generalize 33%nat. intros fu Q.
    destruct (SearchModel.search gValue _ fu _ _ []) as [((r, ok), tr)|]; [|exact Logic.I]. cbn [option_map fst]. destruct Q as (-> & it & ob & w' & rs & E & I1 & C1 & Q). split; [reflexivity|].
    rewrite E. destruct Q as [(Hr & Hd & _)|(-> & -> & Hi & Ag)].
    - destruct (released _ _ Vals _ _ Vals I1 Hd (own Vals)) as (it4 & w4 & R4 & I4 & _). rewrite R4. eauto.
    - unfold releaseIn. rewrite (method_in file u use0 out0 m0 h0 _ w' Vals I1). destruct Hor as [Hl|Hm].
      + rewrite (Ag (or_intror Hl) w'). exists w'. auto.
      + rewrite Hm. cbn [release releaseWith]. exists w'. auto.
  Qed.

  Lemma value_get_refines p name held it w : I held w -> srcCount Vals held = 0%nat -> srcCount Texts held = 0%nat -> 0 <= firstValueIndex p -> lastValueIndex p < Z.of_nat (length (vals d)) -> firstValueIndex p <> 2 ^ 32 - 1 ->
    match ProfileModel.ValueGetIndexByName gString gValue compareOther p name with
    | None => True
    | Some (r, ok) => ok = true /\ exists ob it' w' rs, CallsModel.ValueGetByName file (fuelOf u) compareOther p name it w = Some (ob, true, it', w') /\ I (rs ++ held) w' /\
        ((0 <= r /\ heldBy Vals it' rs /\ exists b, ob = Some b /\ plainBytes file Fixed (ucoll (vuse u)) r = Some b) \/ (r = -1 /\ rs = [] /\ ob = None))
    end.
  Proof using D St Op room Hh.
    intros HI Hv Ht H0 H1 Hf. unfold ProfileModel.ValueGetIndexByName, CallsModel.ValueGetByName, BinarySearch. destruct (Z.eqb_spec (firstValueIndex p) (2 ^ 32 - 1)) as [|_]; [contradiction|].
    pose proof (search_refines Vals valueNameOffset (CallsModel.compareValueByName file (fuelOf u) compareOther name) (ProfileModel.compareValueByName gString compareOther name) eq_refl ltac:(discriminate)) as Q.
    specialize (Q ltac:(intros n itm rest N; destruct (valueNames n itm rest N) as (v & _ & E); eauto) (compare_value name) held Hv Ht 33%nat (firstValueIndex p) (lastValueIndex p) (mkItem ItemModel.DataReset (ihandle it) (icoll it)) w [] HI eq_refl H0).
    cbn [itemsOf] in Q. rewrite map_length in Q. specialize (Q H1). revert Q. generalize 33%nat. intros fu Q.
    destruct (SearchModel.search gValue _ fu _ _ []) as [((r, ok), tr)|]; [|exact Logic.I]. cbn [option_map fst]. destruct Q as (-> & it' & ob & w' & rs & E & I1 & C1 & Q). split; [reflexivity|].
    rewrite E. rewrite andb_true_r. destruct Q as [(Hr & Hd & b & tr'' & _ & -> & P & Pb & _)|(-> & -> & Hi & Ag)].
    - destruct (Z.leb_spec 0 r); [|lia]. exists (Some b), it', w', rs. split; [reflexivity|]. split; [exact I1|]. left. split; [exact Hr|]. split; [exact Hd|]. exists b. split; [reflexivity|exact Pb].
    - cbn [Z.leb Z.compare]. exists None, it', w', []. split; [reflexivity|]. split; [exact I1|]. right. auto.
  Qed.

  (* ---- profiles ---- *)
  Lemma profiles_refine p v : fits_method (meth Offs) (collOf Profs) = true -> forall n i held offsetItem profileItem w, I held w -> srcCount Offs held = 0%nat -> srcCount Profs held = 0%nat -> idle offsetItem -> idle profileItem ->
    (i + n <= length (order d))%nat ->
    match ProfileModel.profilesLoop gOffset gProfile n (Z.of_nat i) true p v with
    | None => True
    | Some (l, ok, t) => exists w', CallsModel.profilesLoop file (fuelOf u) n (Z.of_nat i) true p v offsetItem profileItem w = Some (l, ok, w') /\ I held w'
    end.
  Proof using D St Op room Hh.
    intros Hf. induction n as [|n IH]; intros i held offsetItem profileItem w HI Ho Hp Hi1 Hi2 L; cbn [ProfileModel.profilesLoop CallsModel.profilesLoop]; [eauto|].
    destruct (item_at (order d) i ltac:(lia)) as (k & Nk). destruct (order_prof d D _ _ Nk) as (f & Nf).
    destruct (get_offs held w i k f offsetItem HI Hi1 Nk Nf Ho) as (b & it1 & w1 & r1 & G1 & I1 & Hd1 & C1 & E1 & P1). rewrite G1, P1, E1. cbn [andb offset].
    destruct (get_prof (r1 ++ held) w1 k f profileItem I1 Hi2 Nf) as (pb & it2 & w2 & r2 & after & G2 & I2 & Hd2 & C2 & E2 & P2); [rewrite C1 by discriminate; exact Hp|]. rewrite G2, P2, E2.
    match goal with |- context [match ?X with Some _ => _ | None => None end] => destruct X as [called|]; [|exact Logic.I] end.
    destruct (released _ _ Profs _ _ Offs I2 Hd2 Hf) as (it3 & w3 & R3 & I3 & Hi3 & _). rewrite R3.
    destruct (released _ _ Offs _ _ Offs I3 Hd1 (own Offs)) as (it4 & w4 & R4 & I4 & Hi4 & _). rewrite R4.
    replace (Z.of_nat i + 1) with (Z.of_nat (S i)) by lia. specialize (IH (S i) held it4 it3 w4 I4 Ho Hp Hi4 Hi3 ltac:(lia)).
    destruct (ProfileModel.profilesLoop gOffset gProfile n (Z.of_nat (S i)) true p v) as [((l, ok), t)|]; [|exact Logic.I]. destruct IH as (w' & -> & I'). eauto.
  Qed.
  Notation iterateP := (ProfileModel.ProfileIterateProfilesForPropertyAndValue gString gProperty gValue gOffset gProfile compareOther
      (Z.to_nat (CollectionGetCount (ucoll (puse u)))) (Z.to_nat (CollectionGetCount (ucoll (ouse u))))).
  Lemma iterate_refines j p propertyName valueName w : fits_method (meth Props) (collOf Texts) = true -> fits_method (meth Offs) (collOf Profs) = true -> I [] w ->
    nth_error (props d) j = Some p -> nth_error (texts d) (pname p) = Some propertyName -> (forall i, (i < j)%nat -> ~ nameOfProp d i propertyName) ->
    plast p < Z.of_nat (length (vals d)) -> pfirst p <= plast p \/ meth Vals = Nothing ->
    match iterateP propertyName valueName with
    | None => True
    | Some (l, ok, t) => exists w', CallsModel.ProfileIterateProfilesForPropertyAndValue file (fuelOf u) compareOther propertyName valueName w = Some (l, ok, w') /\ I [] w'
    end.
  Proof using D St Op room Hh.
    intros F1 F2 HI Np Nt First Hl Hor. unfold ProfileModel.ProfileIterateProfilesForPropertyAndValue, CallsModel.ProfileIterateProfilesForPropertyAndValue.
    destruct (by_name_refines F1 propertyName [] newItem w HI eq_refl eq_refl eq_refl) as (r & it & w1 & rs & t & E1 & I1 & P1 & C1 & Hr). cbn [useOf] in P1. rewrite E1, P1.
    destruct (db_property_by_name_found file pl d u _ _ _ _ _ D St Op (plain_readers file pl d u D St Op out0 room) j p propertyName Np Nt First) as (t' & P1' & _). rewrite P1 in P1'. injection P1' as -> _. rewrite app_nil_r in I1.
    destruct (prop_in d D _ _ Np) as (_ & _ & _ & (P0 & _) & _). rewrite app_nil_r in C1.
    pose proof (value_index_refines (decoded d p) valueName rs w1 I1 ltac:(rewrite C1 by discriminate; reflexivity) ltac:(rewrite C1 by discriminate; reflexivity) P0 Hl Hor) as V.
    destruct (ProfileModel.ValueGetIndexByName gString gValue compareOther (decoded d p) valueName) as [(v, ok)|]; [|exact Logic.I]. destruct V as (-> & w2 & E2 & I2). rewrite E2, andb_true_r.
    assert (forall l ok w3, I rs w3 -> exists w', match releaseIn Props it w3 with Some (_, w') => Some (l : list Z, ok : bool, w') | None => None end = Some (l, ok, w') /\ I [] w') as End_.
    { intros l ok w3 I3. rewrite <- (app_nil_r rs) in I3. destruct (released _ _ Props _ _ Props I3 Hr (own Props)) as (it4 & w4 & R4 & I4 & _). rewrite R4. eauto. }
    destruct (Z.leb 0 v); [|exact (End_ [] true w2 I2)].
    rewrite (count_in file u use0 out0 m0 h0 _ w2 Offs I2). cbn [useOf].
    pose proof (profiles_refine (decoded d p) v F2 (Z.to_nat (CollectionGetCount (ucoll (ouse u)))) 0 rs newItem newItem w2 I2 ltac:(rewrite C1 by discriminate; reflexivity) ltac:(rewrite C1 by discriminate; reflexivity) eq_refl eq_refl) as L.
    specialize (L ltac:(pose proof count_offs as X; cbn [useOf] in X; rewrite X; lia)). change (Z.of_nat 0) with 0 in L.
    destruct (ProfileModel.profilesLoop gOffset gProfile _ 0 true (decoded d p) v) as [((l, ok), tt)|]; [|exact Logic.I]. destruct L as (w3 & E3 & I3). rewrite E3. exact (End_ l ok w3 I3).
  Qed.
  Lemma iterate_unknown propertyName valueName w : fits_method (meth Props) (collOf Texts) = true -> I [] w -> bytes propertyName -> (forall i, ~ nameOfProp d i propertyName) ->
    exists w', CallsModel.ProfileIterateProfilesForPropertyAndValue file (fuelOf u) compareOther propertyName valueName w = Some ([], true, w') /\ I [] w'.
  Proof using D St Op room Hh.
    intros F1 HI B No. unfold CallsModel.ProfileIterateProfilesForPropertyAndValue.
    destruct (by_name_refines F1 propertyName [] newItem w HI eq_refl eq_refl eq_refl) as (r & it & w1 & rs & t & E1 & I1 & P1 & C1 & Hr). rewrite E1.
    assert (r = None) as ->; [|destruct Hr as (-> & _); eauto].
    rewrite count_props in P1. destruct (property_missing gString gProperty propertyName B (length (props d)) 0) as (t' & P1' & _).
    { intros i Hi. destruct (every_prop file pl d u _ _ _ _ _ D St Op (plain_readers file pl d u D St Op out0 room) i ltac:(lia)) as (q & s & E & Bs & N). exists q, s. split; [exact E|]. split; [exact Bs|]. intros ->. exact (No _ N). }
    congruence.
  Qed.

  (* ---- profiles by id ---- *)
  Lemma offset_there n itm rest : nth_error (itemsOf d Offs) n = Some itm -> exists k f, nth_error (order d) n = Some k /\ nth_error (profs d) k = Some f /\ offsetOf (itm ++ rest) = Some (mkOffset (prid f) (startOf (map encProf (profs d)) k)).
  Proof using D.
    cbn [itemsOf]. rewrite nth_error_map. destruct (nth_error (order d) n) as [k|] eqn:N; [|discriminate]. intros E. injection E as <-. destruct (order_prof d D _ _ N) as (f & Nf).
    assert (Forall profOK (profs d)) as F by apply D. rewrite Forall_forall in F. destruct (F f (nth_error_In _ _ Nf)) as (Fi & _).
    assert (nth k (profs d) noProf = f) as En by exact (nth_error_nth _ _ _ Nf). exists k, f. split; [reflexivity|]. split; [exact Nf|].
    pose proof (offset_decode d k rest D ltac:(rewrite En; exact Fi)) as E. rewrite En in E. exact E.
  Qed.
  Lemma compare_id id held w b a i n itm rest : I held w -> srcCount Texts held = 0%nat -> nth_error (itemsOf d Offs) n = Some itm -> b = itm ++ rest -> offsetOf b = Some a ->
    exists w', CallsModel.compareProfileId id b w = Some (fst (ProfileModel.compareProfileId id a i), true, w') /\ I held w' /\ snd (ProfileModel.compareProfileId id a i) = true.
  Proof using Type. intros HI _ _ _ Ea. unfold CallsModel.compareProfileId, ProfileModel.compareProfileId. rewrite Ea. cbn [fst snd]. eauto. Qed.
  Lemma offset_for_id_refines id held w : I held w -> srcCount Offs held = 0%nat -> srcCount Texts held = 0%nat -> order d <> [] ->
    match ProfileModel.ProfileGetOffsetForProfileId gOffset (Z.to_nat (CollectionGetCount (collOf Offs))) id with
    | None => True
    | Some (r, ok) => exists w', CallsModel.ProfileGetOffsetForProfileId file (fuelOf u) id w = Some (r, ok, w') /\ I held w'
    end.
  Proof using D St Op room Hh.
    intros HI Ho Ht Hn. unfold ProfileModel.ProfileGetOffsetForProfileId, CallsModel.ProfileGetOffsetForProfileId, BinarySearch. destruct (Z.eqb id 0); [eauto|].
    rewrite (count_in file u use0 out0 m0 h0 held w Offs HI). rewrite count_offs. cbn [useOf]. rewrite (proj2 (counts file pl d u D St Op)).
    set (up := (Z.of_nat (length (order d)) - 1) mod 2 ^ 32).
    assert (up < Z.of_nat (length (itemsOf d Offs))) as Hu.
    { cbn [itemsOf]. rewrite map_length. unfold up. pose proof (order_small d D). assert (0 < length (order d))%nat by (destruct (order d); [contradiction|cbn; lia]). rewrite Z.mod_small; lia. }
    pose proof (search_refines Offs offsetOf (CallsModel.compareProfileId id) (ProfileModel.compareProfileId id) eq_refl ltac:(discriminate)) as Q.
    specialize (Q ltac:(intros n itm rest N; destruct (offset_there n itm rest N) as (k & f & _ & _ & E); eauto) (compare_id id) held Ho Ht 33%nat 0 up newItem w [] HI eq_refl ltac:(lia) Hu).
    revert Q. generalize 33%nat. intros fu Q.
    destruct (SearchModel.search gOffset _ fu _ _ []) as [((r, ok), tr)|]; [|exact Logic.I]. destruct Q as (-> & it & ob & w' & rs & E & I1 & C1 & Q). rewrite E.
    destruct Q as [(Hr & Hd & b & tr'' & -> & -> & P & _ & Nb)|(-> & -> & Hi & Ag)].
    - destruct (Z.leb_spec 0 r); [|lia]. rewrite P. destruct (offsetOf b) as [o|]; [|contradiction].
      destruct (released _ _ Offs _ _ Offs I1 Hd (own Offs)) as (it4 & w4 & R4 & I4 & _). rewrite R4. eauto.
    - cbn [Z.leb Z.compare]. eauto.
  Qed.
  Lemma by_index held w i k f it : I held w -> idle it -> nth_error (order d) i = Some k -> nth_error (profs d) k = Some f -> srcCount Offs held = 0%nat -> srcCount Profs held = 0%nat ->
    exists b after it' w' r, CallsModel.ProfileGetByIndex file (fuelOf u) (Z.of_nat i) it w = Some (Some b, true, it', w') /\ I (r ++ held) w' /\ heldBy Profs it' r /\ profileOf b = Some (mkProfile (prvalues f) after).
  Proof using D St Op room Hh.
    intros HI Hi Nk Nf Ho Hp. unfold CallsModel.ProfileGetByIndex.
    destruct (get_offs held w i k f newItem HI eq_refl Nk Nf Ho) as (b & it1 & w1 & r1 & G1 & I1 & Hd1 & C1 & E1 & P1). rewrite G1, E1. cbn [offset].
    destruct (get_prof (r1 ++ held) w1 k f it I1 Hi Nf) as (pb & it2 & w2 & r2 & after & G2 & I2 & Hd2 & C2 & E2 & P2); [rewrite C1 by discriminate; exact Hp|]. rewrite G2.
    assert (I (r1 ++ (r2 ++ held)) w2) as I2'.
    { apply (I_perm file u use0 out0 m0 h0 (r2 ++ r1 ++ held)); [rewrite !app_assoc; apply Permutation_app_tail, Permutation_app_comm|exact I2]. }
    destruct (released _ _ Offs _ _ Offs I2' Hd1 (own Offs)) as (it4 & w4 & R4 & I4 & _). rewrite R4. exists pb, after, it2, w4, r2. auto.
  Qed.
  Lemma offset_of_id id held w : I held w -> srcCount Offs held = 0%nat -> srcCount Texts held = 0%nat -> id <> 0 -> order d <> [] ->
    (forall i j n m f g, (i < j)%nat -> nth_error (order d) i = Some n -> nth_error (order d) j = Some m -> nth_error (profs d) n = Some f -> nth_error (profs d) m = Some g -> prid f < prid g) ->
    exists r w', CallsModel.ProfileGetOffsetForProfileId file (fuelOf u) id w = Some (r, true, w') /\ I held w' /\
      match r with
      | Some off => exists i n f, nth_error (order d) i = Some n /\ nth_error (profs d) n = Some f /\ prid f = id /\ off = startOf (map encProf (profs d)) n
      | None => forall i n f, nth_error (order d) i = Some n -> nth_error (profs d) n = Some f -> prid f <> id
      end.
  Proof using D St Op room Hh.
    intros HI Ho Ht Hid Hn Hs. pose proof (offset_for_id_refines id held w HI Ho Ht Hn) as Q.
    pose proof (plain_readers file pl d u D St Op out0 room) as R. rewrite count_offs in Q.
    destruct (profile_by_id gOffset (length (order d)) id Hid) as (r & E & H).
    - intros X. apply Hn. now apply length_zero_iff_nil.
    - exact (order_small d D).
    - intros i Hx. destruct (nth_some (order d) i Hx) as (n & En & Ei). destruct (order_prof d D _ _ En) as (f & Ef). rewrite <- Ei. rewrite (got_offset file pl d u _ _ _ _ _ D St Op R _ _ _ En Ef). eauto.
    - intros i j a b Hx Hij Hj Ea Eb. destruct (nth_some (order d) i ltac:(lia)) as (n & En & Ei). destruct (order_prof d D _ _ En) as (f & Ef). rewrite <- Ei, (got_offset file pl d u _ _ _ _ _ D St Op R _ _ _ En Ef) in Ea. injection Ea as <-.
      destruct (nth_some (order d) j ltac:(lia)) as (m & Em & Ej). destruct (order_prof d D _ _ Em) as (g & Eg). rewrite <- Ej, (got_offset file pl d u _ _ _ _ _ D St Op R _ _ _ Em Eg) in Eb. injection Eb as <-.
      cbn [profileId]. apply Z.lt_le_incl. exact (Hs (Z.to_nat i) (Z.to_nat j) n m f g ltac:(lia) En Em Ef Eg).
    - rewrite E in Q. destruct Q as (w1 & Q & I1). exists r, w1. split; [exact Q|]. split; [exact I1|]. destruct r as [off|].
      + destruct H as (i & o & Hx & Eo & Ed & <-). destruct (nth_some (order d) i Hx) as (n & En & Ei). destruct (order_prof d D _ _ En) as (f & Ef). rewrite <- Ei, (got_offset file pl d u _ _ _ _ _ D St Op R _ _ _ En Ef) in Eo. injection Eo as <-.
        cbn [profileId offset] in *. exists (Z.to_nat i), n, f. auto.
      + intros i n f En Ef X. apply (H (Z.of_nat i) (mkOffset (prid f) (startOf (map encProf (profs d)) n))).
        * assert (i < length (order d))%nat by (apply nth_error_Some; congruence). lia.
        * exact (got_offset file pl d u _ _ _ _ _ D St Op R _ _ _ En Ef).
        * exact X.
  Qed.
  Lemma by_id id held w it : I held w -> idle it -> srcCount Offs held = 0%nat -> srcCount Profs held = 0%nat -> srcCount Texts held = 0%nat -> id <> 0 -> order d <> [] ->
    (forall i j n m f g, (i < j)%nat -> nth_error (order d) i = Some n -> nth_error (order d) j = Some m -> nth_error (profs d) n = Some f -> nth_error (profs d) m = Some g -> prid f < prid g) ->
    exists r it' w' rs, CallsModel.ProfileGetByProfileId file (fuelOf u) id it w = Some (r, true, it', w') /\ I (rs ++ held) w' /\
      match r with
      | Some b => heldBy Profs it' rs /\ exists i n f after, nth_error (order d) i = Some n /\ nth_error (profs d) n = Some f /\ prid f = id /\ profileOf b = Some (mkProfile (prvalues f) after)
      | None => rs = [] /\ it' = it /\ forall i n f, nth_error (order d) i = Some n -> nth_error (profs d) n = Some f -> prid f <> id
      end.
  Proof using D St Op room Hh.
    intros HI Hi Ho Hp Ht Hid Hn Hs. unfold CallsModel.ProfileGetByProfileId. destruct (offset_of_id id held w HI Ho Ht Hid Hn Hs) as ([off|] & w1 & Q & I1 & H); rewrite Q.
    - destruct H as (i & n & f & En & Ef & Ei & ->). destruct (get_prof held w1 n f it I1 Hi Ef Hp) as (pb & it2 & w2 & r2 & after & G2 & I2 & Hd2 & C2 & E2 & P2).
      exists (Some pb), it2, w2, r2. split; [exact G2|]. split; [exact I2|]. split; [exact Hd2|]. exists i, n, f, after. auto.
    - exists None, it, w1, []. auto.
  Qed.
End Calls.

(* ---- the start and the end of a call ---- *)
Section Ends.
  Context (file : list Z) (pl : places) (d : db) (u : uses).
  Context (D : dbOK d) (St : stored file pl d) (Op : allOpened file pl u).
  Notation collOf s := (ucoll (useOf u s)).
  Definition roomFor (out0 : src -> nat) : Prop := forall s, hasCache (collOf s) = true -> Z.of_nat (out0 s) < concOf (ucfg (useOf u s)) /\ Z.of_nat (length (concat (itemsOf d s))) <= 2 ^ 31.

  Lemma start w : ready file d u w -> exists use0 out0, roomFor out0 /\ CallsWorld.I file u use0 out0 (ItemModel.live (heap w)) (handles w) [] w /\ (0 < handles w)%nat.
  Proof using Type.
    intros (H & Hl & Hh & Hi). destruct (H Texts) as (t1 & X1 & Y1). destruct (H Props) as (t2 & X2 & Y2). destruct (H Vals) as (t3 & X3 & Y3). destruct (H Profs) as (t4 & X4 & Y4). destruct (H Offs) as (t5 & X5 & Y5).
    set (tr := fun s => match s with Texts => t1 | Props => t2 | Vals => t3 | Profs => t4 | Offs => t5 end).
    exists (fun s n => holding (tr s) n + leaked (tr s) n)%nat, (fun s => outstanding (tr s)). split; [intros []; assumption|]. split; [|exact Hh].
    constructor; [|apply LifeProofs.owns_start; exact Hl|reflexivity|exact Hi].
    intros s. exists (tr s). split; [destruct s; assumption|]. unfold nodeCount, srcCount, list_sum. cbn [map fold_right]. split; [intros n; lia|]. split; [intros n; lia|lia].
  Qed.
  Lemma counted use0 out0 m0 h0 held w s n : CallsWorld.I file u use0 out0 m0 h0 held w -> hasCache (collOf s) = true -> usersOf (colls w s) n = Z.of_nat (use0 s n + nodeCount s n held).
  Proof using D St Op.
    intros [H1 _ _ _] Hc. destruct (H1 s) as (tr & E & A & _). destruct (source_ok file pl d u D St Op s) as (h & HR & HC & Hcr & _).
    rewrite (users file (kindOf s) (itemsOf d s) h _ _ _ _ HR HC Hcr tr (colls w s) n E Hc). now rewrite A.
  Qed.
  Lemma finish use0 out0 m0 h0 w w' : CallsWorld.I file u use0 out0 m0 h0 [] w -> CallsWorld.I file u use0 out0 m0 h0 [] w' -> restored w w'.
  Proof using D St Op.
    intros H H'. split; [|split].
    - rewrite (LifeProofs.owns_end _ _ (i_heap _ _ _ _ _ _ _ _ H)). exact (LifeProofs.owns_end _ _ (i_heap _ _ _ _ _ _ _ _ H')).
    - rewrite (i_handles _ _ _ _ _ _ _ _ H). exact (i_handles _ _ _ _ _ _ _ _ H').
    - intros s n. destruct (hasCache (collOf s)) eqn:Hc.
      + rewrite (counted _ _ _ _ _ _ s n H Hc), (counted _ _ _ _ _ _ s n H' Hc). reflexivity.
      + rewrite !no_users; [reflexivity| |]; [rewrite <- cache_skeleton, (skel _ _ _ _ _ _ _ _ s H), cache_skeleton; exact Hc|rewrite <- cache_skeleton, (skel _ _ _ _ _ _ _ _ s H'), cache_skeleton; exact Hc].
  Qed.
  (* something is kept *)
  Lemma kept use0 out0 m0 h0 w w' s it r : CallsWorld.I file u use0 out0 m0 h0 [] w -> CallsWorld.I file u use0 out0 m0 h0 r w' -> CallsWorld.heldBy u s it r -> r <> [] -> ~ restored w w'.
  Proof using D St Op.
    intros H H' Hd Ne (R1 & _ & R3). destruct Hd as [dt hd Ha L|l L|dt p z L|n L]; try contradiction.
    - pose proof (i_heap _ _ _ _ _ _ _ _ H') as O. rewrite <- (LifeProofs.owns_end _ _ (i_heap _ _ _ _ _ _ _ _ H)), <- R1 in O. cbn [blocks flat_map app] in O.
      destruct O as [O1 O2 O3 O4]. specialize (O3 p z (or_introl eq_refl)). apply LifeProofs.sizeOf_in in O3. rewrite <- O4 in O3. unfold LifeProofs.gone in O3. apply filter_In in O3. destruct O3 as (_ & O3). cbn [fst LifeProofs.hasBlock existsb] in O3. rewrite Nat.eqb_refl in O3. discriminate.
    - pose proof (layers_cache _ L) as Hc. specialize (R3 s n). rewrite (counted _ _ _ _ _ _ s n H Hc), (counted _ _ _ _ _ _ s n H' Hc) in R3. apply Nat2Z.inj in R3. unfold nodeCount in R3. cbn [map nodeOf] in R3.
      destruct (src_eqb_spec s s) as [_|]; [|contradiction]. destruct (slot_eqb_spec n n) as [_|]; [|contradiction]. cbn [andb] in R3. unfold list_sum in R3. cbn [fold_right] in R3. lia.
  Qed.
End Ends.
