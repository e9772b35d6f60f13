(* A call whose steps are not interrupted is the function of CallsModel.v *)
From Verif Require Import TreeModel CacheModel CacheSpec CollectionModel.
From Verif Require ItemModel.
From Verif Require Import SearchModel ProfileModel DbModel CallsModel.
From Verif Require ThreadsModel.
Import ThreadsModel(alone, bind, need).
Local Open Scope Z_scope.

Section Alone.
  Context (file : list Z) (fuel : src -> nat) (compareOther : list Z -> list Z -> Z).
  Notation alone := (ThreadsModel.alone file fuel).
  Lemma alone_bind {A B} (p : ThreadsModel.prog A) (f : A -> ThreadsModel.prog B) : forall w,
    alone (bind p f) w = match alone p w with Some (a, w) => alone (f a) w | None => None end.
  Proof.
    induction p as [a| |s i okay it k IH|s it k IH|s k IH]; intros w; cbn [bind ThreadsModel.alone]; [reflexivity|reflexivity| | |].
    - destruct (get file fuel s i okay it w) as [(((b, ok), it'), w')|]; [apply IH|reflexivity].
    - destruct (releaseIn s it w) as [(it', w')|]; [apply IH|reflexivity].
    - apply IH.
  Qed.
  Lemma alone_count {A} s (k : Z -> ThreadsModel.prog A) w : alone (ThreadsModel.CountOf s k) w = alone (k (CollectionGetCount (colls w s))) w.
  Proof. reflexivity. Qed.
  Lemma propertyLoop_alone name : forall n i nameItem it w,
    alone (ThreadsModel.propertyLoop n i name nameItem it) w = propertyLoop file fuel n i name nameItem it w.
  Proof.
    induction n as [|n IH]; intros i nameItem it w; [reflexivity|]. cbn [ThreadsModel.propertyLoop ThreadsModel.alone propertyLoop].
    destruct (get file fuel Props i true it w) as [(((b, ok), it1), w1)|]; [|reflexivity].
    destruct b as [b|]; [|destruct ok; [apply IH|reflexivity]].
    destruct (propertyOf b) as [p|]; cbn [need ThreadsModel.alone]; [|reflexivity].
    destruct (get file fuel Texts (nameOffset p) true nameItem w1) as [(((nb, ok2), it2), w2)|]; [|reflexivity].
    destruct nb as [nb|]; [|reflexivity]. destruct (textOf nb) as [s|]; cbn [need]; [|reflexivity].
    destruct (negb (strcmp s name =? 0)); cbn [ThreadsModel.alone].
    - destruct (releaseIn Props it1 w2) as [(it3, w3)|]; [|reflexivity]. destruct (releaseIn Props it2 w3) as [(it4, w4)|]; [|reflexivity]. apply IH.
    - destruct (releaseIn Props it2 w2) as [(it4, w4)|]; reflexivity.
  Qed.
  Lemma search_alone s cmp cmp' : (forall b w, alone (cmp b) w = cmp' b w) -> forall n lower upper it w,
    alone (ThreadsModel.search s cmp n lower upper it) w = search file fuel s cmp' n lower upper it w.
  Proof.
    intros H. induction n as [|n IH]; intros lower upper it w; [reflexivity|]. cbn [ThreadsModel.search search].
    destruct (Z.leb lower upper); [|reflexivity]. cbn [ThreadsModel.alone].
    destruct (get file fuel s (lower + (upper - lower) / 2) true it w) as [(((b, ok), it1), w1)|]; [|reflexivity].
    destruct b as [b|]; [|reflexivity]. rewrite alone_bind, H. destruct (cmp' b w1) as [((r, ok2), w2)|]; [|reflexivity].
    destruct ok2; [|reflexivity]. destruct (Z.eqb r 0); [reflexivity|]. cbn [ThreadsModel.alone].
    destruct (releaseIn s it1 w2) as [(it3, w3)|]; [|reflexivity]. destruct (Z.ltb 0 r); [|apply IH]. destruct (lower + (upper - lower) / 2 =? 0); apply IH.
  Qed.
  Lemma compareValue_alone name b w : alone (ThreadsModel.compareValueByName compareOther name b) w = compareValueByName file fuel compareOther name b w.
  Proof.
    unfold ThreadsModel.compareValueByName, compareValueByName. destruct (valueNameOffset b) as [o|]; cbn [need ThreadsModel.alone]; [|reflexivity].
    destruct (get file fuel Texts o true newItem w) as [(((nb, ok), it1), w1)|]; [|reflexivity]. destruct nb as [nb|]; [|reflexivity].
    destruct (textOf nb) as [t|]; cbn [need ThreadsModel.alone]; [|reflexivity]. destruct (releaseIn Texts it1 w1) as [(it4, w4)|]; reflexivity.
  Qed.
  Lemma compareId_alone id b w : alone (ThreadsModel.compareProfileId id b) w = compareProfileId id b w.
  Proof. unfold ThreadsModel.compareProfileId, compareProfileId. destruct (offsetOf b); reflexivity. Qed.
  Lemma profilesLoop_alone property v : forall n i okay oi pi w,
    alone (ThreadsModel.profilesLoop n i okay property v oi pi) w = profilesLoop file fuel n i okay property v oi pi w.
  Proof.
    induction n as [|n IH]; intros i okay oi pi w; [reflexivity|]. cbn [ThreadsModel.profilesLoop ThreadsModel.alone profilesLoop].
    destruct (get file fuel Offs i okay oi w) as [(((ob, ok), it1), w1)|]; [|reflexivity].
    destruct ob as [ob|]; [|apply IH]. destruct ok; [|apply IH]. destruct (offsetOf ob) as [o|]; cbn [need ThreadsModel.alone]; [|reflexivity].
    destruct (get file fuel Profs (offset o) true pi w1) as [(((pb, ok2), it2), w2)|]; [|reflexivity].
    assert (O : forall ok3, alone (ThreadsModel.Release Offs it1 (fun it => ThreadsModel.profilesLoop n (i + 1) ok3 property v it it2)) w2 =
      match releaseIn Offs it1 w2 with Some (it4, w4) => profilesLoop file fuel n (i + 1) ok3 property v it4 it2 w4 | None => None end).
    { intros ok3. cbn [ThreadsModel.alone]. destruct (releaseIn Offs it1 w2) as [(it4, w4)|]; [apply IH|reflexivity]. }
    destruct pb as [pb|]; [|apply O]. destruct ok2; [|apply O].
    destruct (profileOf pb) as [p|]; cbn [need]; [|reflexivity].
    match goal with |- context [need ?X _] => destruct X as [called|] end; cbn [need ThreadsModel.alone]; [|reflexivity].
    destruct (releaseIn Offs it2 w2) as [(it3, w3)|]; [|reflexivity]. destruct (releaseIn Offs it1 w3) as [(it4, w4)|]; [|reflexivity].
    rewrite alone_bind, IH. destruct (profilesLoop file fuel n (i + 1) true property v it4 it3 w4) as [((l, ok3), w5)|]; reflexivity.
  Qed.

  Lemma property_alone name it w : alone (ThreadsModel.PropertyGetByName name it) w = PropertyGetByName file fuel name it w.
  Proof. unfold ThreadsModel.PropertyGetByName, PropertyGetByName. cbn [ThreadsModel.alone]. apply propertyLoop_alone. Qed.
  Lemma type_alone index w : alone (ThreadsModel.PropertyGetValueType index) w = PropertyGetValueType file fuel index w.
  Proof.
    unfold ThreadsModel.PropertyGetValueType, PropertyGetValueType. cbn [ThreadsModel.alone].
    destruct (get file fuel Props index true newItem w) as [(((b, ok), it1), w1)|]; [|reflexivity]. destruct b as [b|]; [|reflexivity].
    destruct (valueType b) as [t|]; cbn [need ThreadsModel.alone]; [|reflexivity]. destruct (releaseIn Props it1 w1) as [(it4, w4)|]; reflexivity.
  Qed.
  Lemma index_alone property name w : alone (ThreadsModel.ValueGetIndexByName compareOther property name) w = ValueGetIndexByName file fuel compareOther property name w.
  Proof.
    unfold ThreadsModel.ValueGetIndexByName, ValueGetIndexByName. rewrite alone_bind, (search_alone Vals _ _ (compareValue_alone name)).
    generalize 33%nat. intros fu. destruct (search file fuel Vals _ fu _ _ newItem w) as [((((r, ok), it1), b), w1)|]; [|reflexivity].
    destruct ok; [|reflexivity]. cbn [ThreadsModel.alone]. destruct (releaseIn Vals it1 w1) as [(it4, w4)|]; reflexivity.
  Qed.
  Lemma value_alone property name it w : alone (ThreadsModel.ValueGetByName compareOther property name it) w = ValueGetByName file fuel compareOther property name it w.
  Proof.
    unfold ThreadsModel.ValueGetByName, ValueGetByName. destruct (firstValueIndex property =? 2 ^ 32 - 1); [reflexivity|]. rewrite alone_bind, (search_alone Vals _ _ (compareValue_alone name)).
    generalize 33%nat. intros fu. destruct (search file fuel Vals _ fu _ _ _ w) as [((((r, ok), it1), b), w1)|]; [|reflexivity].
    destruct (Z.leb 0 r && ok); [|reflexivity]. destruct b; reflexivity.
  Qed.
  Lemma profiles_alone a b w : alone (ThreadsModel.ProfileIterateProfilesForPropertyAndValue compareOther a b) w = ProfileIterateProfilesForPropertyAndValue file fuel compareOther a b w.
  Proof.
    unfold ThreadsModel.ProfileIterateProfilesForPropertyAndValue, ProfileIterateProfilesForPropertyAndValue. rewrite alone_bind, property_alone.
    destruct (PropertyGetByName file fuel a newItem w) as [(((r, ok), it), w1)|]; [|reflexivity]. destruct r as [(j, p)|]; [|reflexivity]. destruct ok; [|reflexivity].
    rewrite alone_bind, index_alone. destruct (ValueGetIndexByName file fuel compareOther p b w1) as [((v, ok), w2)|]; [|reflexivity].
    rewrite alone_bind. destruct (Z.leb 0 v && ok).
    - cbn [ThreadsModel.alone]. rewrite profilesLoop_alone. destruct (profilesLoop file fuel _ 0 true p v newItem newItem w2) as [((l, ok3), w3)|]; [|reflexivity]. cbn [ThreadsModel.alone]. destruct (releaseIn Props it w3) as [(it4, w4)|]; reflexivity.
    - cbn [ThreadsModel.alone]. destruct (releaseIn Props it w2) as [(it4, w4)|]; reflexivity.
  Qed.
  Lemma byIndex_alone index it w : alone (ThreadsModel.ProfileGetByIndex index it) w = ProfileGetByIndex file fuel index it w.
  Proof.
    unfold ThreadsModel.ProfileGetByIndex, ProfileGetByIndex. cbn [ThreadsModel.alone].
    destruct (get file fuel Offs index true newItem w) as [(((ob, ok), it1), w1)|]; [|reflexivity]. destruct ob as [ob|]; [|reflexivity].
    destruct (offsetOf ob) as [o|]; cbn [need ThreadsModel.alone]; [|reflexivity].
    destruct (get file fuel Profs (offset o) true it w1) as [(((pb, ok2), it2), w2)|]; [|reflexivity]. destruct (releaseIn Offs it1 w2) as [(it4, w4)|]; reflexivity.
  Qed.
  Lemma offset_alone id w : alone (ThreadsModel.ProfileGetOffsetForProfileId id) w = ProfileGetOffsetForProfileId file fuel id w.
  Proof.
    unfold ThreadsModel.ProfileGetOffsetForProfileId, ProfileGetOffsetForProfileId. destruct (id =? 0); [reflexivity|].
    rewrite alone_count, alone_bind, (search_alone Offs _ _ (compareId_alone id)). generalize 33%nat. intros fu.
    destruct (search file fuel Offs _ fu _ _ newItem w) as [((((r, ok), it1), b), w1)|]; [|reflexivity]. destruct (Z.leb 0 r); [|reflexivity].
    destruct b as [b|]; cbn [need]; [|reflexivity]. destruct (offsetOf b) as [o|]; cbn [need ThreadsModel.alone]; [|reflexivity]. destruct (releaseIn Offs it1 w1) as [(it4, w4)|]; reflexivity.
  Qed.
  Lemma byId_alone id it w : alone (ThreadsModel.ProfileGetByProfileId id it) w = ProfileGetByProfileId file fuel id it w.
  Proof.
    unfold ThreadsModel.ProfileGetByProfileId, ProfileGetByProfileId. rewrite alone_bind, offset_alone.
    destruct (ProfileGetOffsetForProfileId file fuel id w) as [(([o|], ok), w1)|]; [|reflexivity..]. destruct ok; [|reflexivity]. cbn [ThreadsModel.alone].
    destruct (get file fuel Profs o true it w1) as [(((pb, ok2), it2), w2)|]; reflexivity.
  Qed.
End Alone.
