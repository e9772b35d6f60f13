(* C40, C41, C42, C69, C70: overrides.c *)
From Coq Require Import String Ascii.
From Verif Require Import OverridesProofs PropertiesEvidence.
Open Scope list_scope.

(* C40: after every history of additions and resets of an array the values in use
   are within the capacity and of distinct properties, and no access was outside
   the memory. *)
Theorem override_values_distinct : forall cap ops,
  exists vs, runOps (OverrideValuesCreate cap) ops = Some vs /\
    vCount vs <= cap /\ List.length (vItems vs) = cap /\ NoDup (map ovIndex (firstn (vCount vs) (vItems vs))) /\
    Forall (fun x => exists m v, ovString x = Some m /\ stringIs m v) (firstn (vCount vs) (vItems vs)).
Proof.
  intros cap ops. destruct (run_distinct cap ops _ (create_distinct cap)) as (vs & R & c & (H1 & H2) & D & L).
  exists vs. split; [exact R|]. split; [lia|]. split; [exact L|]. split.
  - enough (map ovIndex (firstn (vCount vs) (vItems vs)) = map fst c) as -> by exact D.
    clear -H2. induction H2 as [|x e l c (E & _) H IH]; cbn; [reflexivity|]. now rewrite E, IH.
  - clear -H2. induction H2 as [|x e l c (_ & m & E & S) H IH]; constructor; auto. eauto.
Qed.
Print Assumptions override_values_distinct.

(* C40: if fewer properties have a value than the capacity each time one is
   added, each property has the value last added since the last reset, and no
   other property has one.  All three ways of reading agree. *)
Theorem override_last_wins : forall cap ops, roomy cap ops ->
  exists vs, runOps (OverrideValuesCreate cap) ops = Some vs /\
    (forall i v, (0 <= i)%Z -> lastAdd ops i v ->
       OverrideHasValue vs i = true /\ exists m, OverrideValuesGetFirst vs i = Some m /\ stringIs m v /\
       forall capacity l, List.length l < capacity -> OverrideValuesAdd vs i capacity l = (l ++ [Some m], 1)) /\
    (forall i, (0 <= i)%Z -> (forall v, ~ lastAdd ops i v) ->
       OverrideHasValue vs i = false /\ OverrideValuesGetFirst vs i = None /\
       forall capacity l, OverrideValuesAdd vs i capacity l = (l, 0)).
Proof.
  intros cap ops R. destruct (run_knows cap ops [] _ (create_knows cap) R) as (vs & A & c & (H1 & H2) & D & L & M). cbn [app] in M.
  exists vs. split; [exact A|]. split; intros i.
  - intros v P V. assert (I : In (i, v) c) by (apply M; auto). split.
    + eapply has_in; eauto.
    + destruct (getFirst_in _ _ H2 D i v I) as (m & G & S). exists m. split; [exact G|]. split; [exact S|]. intros capacity l0 R0.
      unfold OverrideValuesAdd. destruct (valuesAdd_in _ _ H2 D i v (capacity - List.length l0) l0 0 I) as (m' & A' & G'); [lia|].
      rewrite A'. unfold OverrideValuesGetFirst in G. rewrite G in G'. now injection G' as <-.
  - intros P N. split; [|split].
    + destruct (OverrideHasValue vs i) eqn:E; [|reflexivity]. exfalso. apply (has_in _ _ H2) in E. destruct E as (v & V). apply M in V. apply (N v), V.
    + eapply getFirst_none; eauto. intros v V. apply M in V. apply (N v), V.
    + intros capacity l. apply (valuesAdd_none _ _ H2). intros v V. apply M in V. apply (N v), V.
Qed.
Print Assumptions override_last_wins.
Definition sampleOps : list op :=
  [Put 3 (text "old"); Clear; Put 0 (text "long value"); Put 7 (text "b"); Put (-1) (text "no"); Put 0 (text "v")]%Z.
Example override_last_wins_example :
  roomy 3 sampleOps /\ lastAdd sampleOps 0 (text "v") /\ (forall v, ~ lastAdd sampleOps 3 v) /\
  match runOps (OverrideValuesCreate 3) sampleOps with
  | Some vs => vCount vs = 2 /\ option_map (fun m => (firstn 2 m, cstring (skipn 2 m))) (OverrideValuesGetFirst vs 0) = Some ([2; 0]%Z, text "v") /\
               OverrideHasValue vs 3 = false
  | None => False end.
Proof.
  split; [|split; [|split]].
  - intros before i v after E P s D H.
    assert (C : (forall j, In j s -> j = 3%Z) \/ (forall j, In j s -> In j [0; 7]%Z)).
    { destruct before as [|o1 before]; [left; intros j Hj; destruct (H j Hj) as (_ & w & b & a & Q & _); destruct b; discriminate Q|].
      injection E as <- E. destruct before as [|o2 before]; [left|right].
      - intros j Hj. destruct (H j Hj) as (_ & w & b & a & Q & _). destruct b as [|x b]; [injection Q as -> _; reflexivity|].
        destruct b; discriminate Q.
      - injection E as <- E. intros j Hj. destruct (H j Hj) as (Pj & w & b & a & Q & NR & _).
        destruct b as [|x b]; [injection Q as <- <- <-; exfalso; apply NR; left; reflexivity|]. injection Q as <- Q.
        destruct b as [|x b]; [discriminate Q|]. injection Q as <- ->.
        assert (I : In (Put j w) ((b ++ Put j w :: a) ++ Put i v :: after)) by (apply in_or_app; left; apply in_or_app; right; left; reflexivity).
        rewrite <- E in I. cbn in I. destruct I as [I|[I|[I|[I|[]]]]]; injection I as <- <-; cbn; auto; lia. }
    destruct C as [C|C].
    + assert (I : incl s [3%Z]) by (intros j Hj; left; symmetry; now apply C). pose proof (NoDup_incl_length D I). cbn in *. lia.
    + pose proof (NoDup_incl_length D C). cbn in *. lia.
  - exists (firstn 5 sampleOps), []. repeat split; auto.
  - intros v (b & a & E & NR & _). destruct b as [|x b]; [injection E as <- <-; apply NR; left; reflexivity|].
    injection E as <- E. assert (I : In (Put 3 v) (b ++ Put 3 v :: a)) by (apply in_or_app; right; left; reflexivity).
    rewrite <- E in I. cbn in I. destruct I as [I|[I|[I|[I|[I|[]]]]]]; discriminate I.
  - vm_compute. repeat split.
Qed.

(* C41, refuted: in a full array a property that has a value cannot be updated. *)
Theorem override_update_full_refuted : exists vs vs' b,
  runOps (OverrideValuesCreate 1) [Put 0 (text "a")] = Some vs /\ OverrideHasValue vs 0 = true /\
  OverridesAdd vs 0 (text "b") = Some (vs', b) /\
  option_map (fun m => cstring (skipn 2 m)) (OverrideValuesGetFirst vs' 0) = Some (text "a").
Proof. eexists. eexists. eexists. split; [vm_compute; reflexivity|]. split; [reflexivity|]. split; [vm_compute; reflexivity|reflexivity]. Qed.
Print Assumptions override_update_full_refuted.
(* Nor does the return value tell whether the value was stored: false for the
   value that fills the array, true for one that is not stored. *)
Theorem override_return_refuted :
  (exists vs, OverridesAdd (OverrideValuesCreate 1) 0 (text "a") = Some (vs, false) /\ OverrideHasValue vs 0 = true) /\
  (exists vs, OverridesAdd (OverrideValuesCreate 1) (-1) (text "a") = Some (vs, true) /\ vs = OverrideValuesCreate 1).
Proof. split; eexists; (split; [vm_compute; reflexivity|reflexivity]). Qed.
Print Assumptions override_return_refuted.
(* What holds: a value is stored exactly for an index that is not negative in an
   array that is not full, for a new property as for one that has a value, and the
   return value tells whether the array is not full afterwards; else nothing
   changes. *)
Theorem override_add_exact : forall cap ops vs i v, runOps (OverrideValuesCreate cap) ops = Some vs ->
  exists vs' b, OverridesAdd vs i v = Some (vs', b) /\ (b = true <-> vCount vs' < cap) /\
    ((0 <= i)%Z -> vCount vs < cap ->
       (exists m, OverrideValuesGetFirst vs' i = Some m /\ stringIs m v) /\
       vCount vs' = (if OverrideHasValue vs i then vCount vs else S (vCount vs))) /\
    (((i < 0)%Z \/ vCount vs = cap) -> vs' = vs).
Proof.
  intros cap ops vs i v R. destruct (run_distinct cap ops _ (create_distinct cap)) as (vs0 & R' & c & H & D & L).
  rewrite R in R'. injection R' as <-. destruct (add_effect vs c i v H) as (vs' & A & B & C). exists vs'. eexists. split; [exact A|].
  split; [rewrite Nat.ltb_lt; lia|]. split.
  - intros P Q. destruct (Z.leb_spec 0 i); [|lia]. destruct (Nat.ltb_spec (vCount vs) (List.length (vItems vs))); [|lia]. cbn [andb] in C.
    destruct C as (C1 & C2). split.
    + eapply getFirst_in; [exact C2|now apply upd_nodup|]. apply upd_assoc; auto.
    + pose proof (forall2_length _ _ _ C2) as L2. rewrite firstn_length in L2. destruct H as (K1 & K2). pose proof (forall2_length _ _ _ K2) as L1. rewrite firstn_length in L1.
      unfold OverrideHasValue. destruct (existsb _ _) eqn:E.
      * apply (has_in _ _ K2) in E. destruct E as (w & W). assert (List.length (upd c i v) = List.length c).
        { clear -W. induction c as [|(k, u) c IH]; [destruct W|]. cbn. destruct (Z.eqb_spec k i) as [->|N]; [reflexivity|].
          destruct W as [W|W]; [injection W as -> _; congruence|]. cbn. now rewrite IH. }
        lia.
      * assert (List.length (upd c i v) = S (List.length c)).
        { assert (N : forall w, ~ In (i, w) c) by (intros w W; enough (true = false) by discriminate; rewrite <- E; symmetry; apply (has_in _ _ K2); eauto).
          clear -N. induction c as [|(k, u) c IH]; [reflexivity|]. cbn. destruct (Z.eqb_spec k i) as [->|M]; [exfalso; apply (N u); left; reflexivity|].
          cbn. f_equal. apply IH. intros w W. apply (N w). right. exact W. }
        lia.
  - intros [P|P].
    + destruct (Z.leb_spec 0 i); [lia|]. exact C.
    + destruct (Nat.ltb_spec (vCount vs) (List.length (vItems vs))); [lia|]. rewrite andb_false_r in C. exact C.
Qed.
Print Assumptions override_add_exact.
Example override_add_exact_example :
  match runOps (OverrideValuesCreate 2) [Put 5 (text "x")]%Z with
  | Some vs => match OverridesAdd vs 5 (text "longer") with
               | Some (vs', b) => b = true /\ vCount vs' = 1 /\ option_map (fun m => cstring (skipn 2 m)) (OverrideValuesGetFirst vs' 5) = Some (text "longer")
               | None => False end
  | None => False end.
Proof. vm_compute. repeat split. Qed.

(* C69: the overridable properties are those the filter takes, in order. *)
Theorem override_properties : forall available prefixed filter ps,
  OverridePropertiesCreate available prefixed filter = Some ps ->
  oPrefix ps = prefixed /\
  forall n i, In (n, i) (oItems ps) <-> (0 <= i)%Z /\ nth_error available (Z.to_nat i) = Some n /\ filter i = true.
Proof.
  intros available prefixed filter ps E. unfold OverridePropertiesCreate in E.
  assert (G : forall l k n i, (0 <= k)%Z -> (In (n, i) (addOverridable l k filter) <-> (k <= i)%Z /\ nth_error l (Z.to_nat (i - k)) = Some n /\ filter i = true)).
  { clear. induction l as [|m l IH]; intros k n i P; cbn [addOverridable].
    - split; [intros []|]. intros (_ & H & _). destruct (Z.to_nat (i - k)); discriminate H.
    - rewrite in_app_iff, IH by lia. split.
      + intros [H|(H1 & H2 & H3)].
        * destruct (filter k) eqn:F; [|destruct H]. destruct H as [H|[]]. injection H as <- <-. split; [lia|]. rewrite Z.sub_diag. auto.
        * split; [lia|]. replace (i - k)%Z with (Z.succ (i - (k + 1)))%Z by lia. rewrite Z2Nat.inj_succ by lia. auto.
      + intros (H1 & H2 & H3). destruct (Z.eq_dec i k) as [->|N].
        * left. rewrite Z.sub_diag in H2. cbn in H2. injection H2 as ->. rewrite H3. left. reflexivity.
        * right. split; [lia|]. replace (i - k)%Z with (Z.succ (i - (k + 1)))%Z in H2 by lia. rewrite Z2Nat.inj_succ in H2 by lia. auto. }
  specialize (G available 0%Z). destruct (addOverridable available 0 filter) as [|x l] eqn:A; [discriminate E|]. injection E as <-. cbn.
  split; [reflexivity|]. intros n i. specialize (G n i). rewrite Z.sub_0_r in G. apply G. lia.
Qed.
Print Assumptions override_properties.
Definition sampleProps : OverrideProperties := mkProperties true [(text "IsMobile", 0%Z); (text "Width", 2%Z)].
Example override_properties_example :
  OverridePropertiesCreate [text "IsMobile"; text "Other"; text "Width"] true (fun i => negb (Z.eqb i 1)) = Some sampleProps.
Proof. vm_compute. reflexivity. Qed.

(* C69: extracting from evidence into an empty array with more room than
   overridable properties visits all query and cookie evidence, and then the value
   of a property is that of the last such evidence whose field means its name
   (named: the first overridable property with the name, ignoring case, that the
   field has after a 51D_ prefix). *)
Theorem overrides_extract : forall available prefixed filter ps cap e e' st n,
  OverridePropertiesCreate available prefixed filter = Some ps -> List.length (oItems ps) < cap -> reachable e ->
  (forall q, In q (items e ++ match pseudoEvidence e with Some l => l | None => [] end) -> ~ In 0%Z (field q) /\ originalValue q <> None) ->
  OverridesExtractFromEvidence ps (OverrideValuesCreate cap) e = (e', st, n) ->
  exists vs sel, st = Some vs /\ n = List.length sel /\
    selected (fun p => inSet (prefix p) 24)
             (fun p => mkPair (prefix p) (field p) (originalValue p) (originalValue p))
             (items e ++ match pseudoEvidence e with Some l => l | None => [] end) sel /\
    forall i, (0 <= i)%Z ->
      (forall w, (exists before q after, sel = before ++ q :: after /\ named ps (field q) i /\ originalValue q = Some w /\
                    forall r, In r after -> ~ named ps (field r) i) ->
         exists m, OverrideValuesGetFirst vs i = Some m /\ stringIs m w) /\
      ((forall q, In q sel -> ~ named ps (field q) i) -> OverrideValuesGetFirst vs i = None).
Proof.
  intros available prefixed filter ps cap e e' st n EP R RE HV X.
  assert (G : goodProperties ps).
  { intros (m, i) He. apply override_properties in EP. apply (proj2 EP) in He. apply He. }
  destruct (evidence_iterate _ _ _ _ _ _ _ _ RE X) as ((sel & S & C) & _).
  assert (SH : Forall (fun q => parsedValue q <> None /\ parsedValue q = originalValue q /\ Forall (fun c => c <> 0%Z) (field q)) sel).
  { clear -S HV. induction S as [|x l l' P S IH|x l l' P S IH]; [constructor| |].
    - constructor; [|apply IH; intros q Hq; apply HV; now right]. cbn. destruct (HV x) as (H1 & H2); [left; reflexivity|].
      repeat split; auto. apply Forall_forall. intros c Hc ->. contradiction.
    - apply IH. intros q Hq. apply HV. now right. }
  destruct (called_run ps cap sel G R) with (vs := OverrideValuesCreate cap) (n := n) (st := st) as (-> & ->); [eapply Forall_impl; [|exact SH]; cbv beta; tauto| |exact C|].
  { exists []. split; [split; cbn; [lia|constructor]|]. split; [constructor|]. split; [apply repeat_length|intros j []]. }
  destruct (run_knows cap (opsOf ps sel) [] _ (create_knows cap) (opsOf_roomy ps cap sel G R)) as (vs & A & c & (H1 & H2) & D & L & M). cbn [app] in M.
  exists vs, sel. split; [exact A|]. split; [reflexivity|]. split; [exact S|]. intros i Pi.
  assert (N : forall q, In q sel -> (getRequiredPropertyIndexFromName ps (field q) = i <-> named ps (field q) i)).
  { intros q Hq. rewrite <- required_named; [|exact G|apply (proj1 (Forall_forall _ _) SH q Hq)]. intuition. }
  split.
  - intros w (b & q & a & -> & Nq & Vq & Na). eapply getFirst_in; [exact H2|exact D|]. apply M. split; [exact Pi|].
    exists (opsOf ps b), (opsOf ps a). split; [|split].
    + unfold opsOf. rewrite map_app. cbn. f_equal. f_equal. f_equal; [apply N; [apply in_or_app; right; left; reflexivity|exact Nq]|].
      assert (Hq : In q (b ++ q :: a)) by (apply in_or_app; right; left; reflexivity).
      destruct (proj1 (Forall_forall _ _) SH q Hq) as (_ & -> & _). now rewrite Vq.
    + intros I. unfold opsOf in I. apply in_map_iff in I. destruct I as (r & I & _). discriminate I.
    + intros u I. unfold opsOf in I. apply in_map_iff in I. destruct I as (r & I & Hr). injection I as I _. apply (Na r Hr). apply N; [apply in_or_app; right; right; exact Hr|exact I].
  - intros Nn. eapply getFirst_none; [exact H2|]. intros v V. apply M in V. destruct V as (_ & b & a & E & _).
    assert (I : In (Put i v) (opsOf ps sel)) by (rewrite E; apply in_or_app; right; left; reflexivity).
    unfold opsOf in I. apply in_map_iff in I. destruct I as (q & I & Hq). injection I as I _. apply (Nn q Hq). now apply N.
Qed.
Print Assumptions overrides_extract.
Definition sampleOverrides : Evidence :=
  let e := EvidenceCreate 5 in
  let e := fst (EvidenceAddString e QUERY (text "51D_Width") (Some (text "640"))) in
  let e := fst (EvidenceAddString e HTTP_HEADER_STRING (text "width") (Some (text "1"))) in
  let e := fst (EvidenceAddString e COOKIE (text "width") (Some (text "800"))) in
  let e := fst (EvidenceAddString e QUERY (text "51D_W") (Some (text "2"))) in
  fst (EvidenceAddString e QUERY (text "other") (Some (text "3"))).
Example overrides_extract_example :
  reachable sampleOverrides /\
  match OverridesExtractFromEvidence sampleProps (OverrideValuesCreate 3) sampleOverrides with
  | (_, Some vs, n) => n = 4 /\ vCount vs = 1 /\ option_map (fun m => cstring (skipn 2 m)) (OverrideValuesGetFirst vs 2) = Some (text "800") /\
                       OverrideValuesGetFirst vs 0 = None
  | _ => False end.
Proof.
  split; [|vm_compute; repeat split].
  unfold sampleOverrides. cbv zeta. repeat (apply r_add; [|vm_compute; tauto]); apply r_create.
Qed.
(* When the array has as many items as there are overridable properties, the
   value that fills it ends the extraction: later evidence is not seen. *)
Theorem overrides_extract_full_refuted : exists e,
  reachable e /\
  match OverridesExtractFromEvidence (mkProperties true [(text "Width", 0%Z)]) (OverrideValuesCreate 1) e with
  | (_, Some vs, n) => n = 1 /\ option_map (fun m => cstring (skipn 2 m)) (OverrideValuesGetFirst vs 0) = Some (text "640")
  | _ => False end /\
  exists q, last (items e) q = mkPair COOKIE (text "Width") (Some (text "800")) None.
Proof.
  exists (fst (EvidenceAddString (fst (EvidenceAddString (EvidenceCreate 2) QUERY (text "Width") (Some (text "640")))) COOKIE (text "Width") (Some (text "800")))).
  split; [repeat (apply r_add; [|vm_compute; tauto]); apply r_create|]. split; [vm_compute; repeat split|]. exists (mkPair 0 [] None None). vm_compute. reflexivity.
Qed.
Print Assumptions overrides_extract_full_refuted.

(* C70: the overriding property is the first other property whose name starts
   with the name (in its case) and is longer. *)
Theorem overriding_property : forall available index n, nth_error available index = Some n ->
  let overrides i := i <> index /\ exists c rest, nth_error available i = Some (n ++ c :: rest) in
  match OverridesGetOverridingRequiredPropertyIndex available index with
  | Some i => overrides i /\ forall j, j < i -> ~ overrides j
  | None => forall i, ~ overrides i
  end.
Proof.
  intros available index n E overrides. unfold OverridesGetOverridingRequiredPropertyIndex. rewrite E.
  assert (SW : forall m, startsWith m n = true <-> exists c rest, m = n ++ c :: rest).
  { clear. intros m. unfold startsWith. rewrite andb_true_iff, Nat.ltb_lt. revert m. induction n as [|y n IH]; intros m.
    - destruct m as [|x m]; cbn; [split; [lia|intros (c & r & Q); discriminate Q]|]. split; [intros _; eauto|intros _; split; [lia|reflexivity]].
    - destruct m as [|x m]; cbn; [split; [lia|intros (c & r & Q); discriminate Q]|]. specialize (IH m). destruct (Z.eqb_spec x y) as [->|N].
      + cbn in IH. split.
        * intros (A & B). destruct (proj1 IH) as (c & r & ->); [split; [lia|exact B]|]. eauto.
        * intros (c & r & Q). injection Q as ->. destruct (proj2 IH) as (A & B); [eauto|]. split; [lia|exact B].
      + split; [intros (_ & Q); discriminate Q|]. intros (c & r & Q). injection Q as -> _. congruence. }
  assert (G : forall l k, (forall i, nth_error available (k + i) = nth_error l i) ->
    match overridingFrom l k index n with
    | Some i => overrides i /\ k <= i /\ forall j, k <= j < i -> ~ overrides j
    | None => forall i, k <= i -> ~ overrides i
    end).
  { induction l as [|m l IH]; intros k H; cbn [overridingFrom].
    - intros i Hi (_ & c & r & Q). specialize (H (i - k)). replace (k + (i - k)) with i in H by lia. rewrite Q in H. destruct (i - k); discriminate H.
    - assert (Hm : nth_error available k = Some m) by (specialize (H 0); rewrite Nat.add_0_r in H; exact H).
      destruct (negb (Nat.eqb k index) && startsWith m n)%bool eqn:B.
      + apply andb_true_iff in B. destruct B as (B1 & B2). apply negb_true_iff, Nat.eqb_neq in B1. apply SW in B2. destruct B2 as (c & r & ->).
        split; [split; [exact B1|eauto]|]. split; [lia|]. intros j Hj. lia.
      + assert (Nk : ~ overrides k).
        { intros (N & c & r & Q). rewrite Hm in Q. injection Q as ->. apply Nat.eqb_neq in N. rewrite N in B. cbn in B.
          enough (startsWith (n ++ c :: r) n = true) by congruence. apply SW. eauto. }
        specialize (IH (S k)). assert (H' : forall i, nth_error available (S k + i) = nth_error l i) by (intros i; specialize (H (S i)); rewrite Nat.add_succ_r in H; exact H).
        specialize (IH H'). destruct (overridingFrom l (S k) index n) as [i|].
        * destruct IH as (I1 & I2 & I3). split; [exact I1|]. split; [lia|]. intros j Hj. destruct (Nat.eq_dec j k) as [->|N]; [exact Nk|apply I3; lia].
        * intros i Hi. destruct (Nat.eq_dec i k) as [->|N]; [exact Nk|apply IH; lia]. }
  specialize (G available 0 (fun i => eq_refl)). destruct (overridingFrom available 0 index n) as [i|].
  - destruct G as (G1 & _ & G3). split; [exact G1|]. intros j Hj. apply G3. lia.
  - intros i. apply G. lia.
Qed.
Print Assumptions overriding_property.
Example overriding_property_example :
  OverridesGetOverridingRequiredPropertyIndex [text "Screen"; text "ScreenX"; text "screenpixels"; text "Screen"] 0 = Some 1 /\
  OverridesGetOverridingRequiredPropertyIndex [text "Screen"; text "ScreenX"] 1 = None.
Proof. vm_compute. repeat split. Qed.

(* C42: the ids taken from a value are the numbers of its maximal runs of digits,
   in order, when they fit an int. *)
Theorem profile_ids_runs : forall s l, digitRuns s l -> Forall (fun r => (number r <= 2 ^ 31 - 1)%Z) l ->
  extractProfileIds s = map number l.
Proof. exact extract_runs. Qed.
Print Assumptions profile_ids_runs.
Example profile_ids_runs_example :
  digitRuns (text "-12,,x345") [text "12"; text "345"] /\ map number [text "12"; text "345"] = [12; 345]%Z /\
  extractProfileIds (text "-12,,x345") = [12; 345]%Z.
Proof.
  split; [|vm_compute; repeat split].
  assert (D : forall c, In c (text "12345") -> digit c) by (intros c H; cbn in H; unfold digit; lia).
  assert (ND : forall c, In c (text "-,x") -> ~ digit c) by (intros c H; cbn in H; unfold digit; lia).
  change (text "-12,,x345") with (45%Z :: text "12" ++ 44%Z :: text ",x345"). apply runs_other; [apply ND; cbn; tauto|].
  apply runs_run; [discriminate|apply Forall_forall; intros c H; apply D; cbn in H |- *; tauto|apply ND; cbn; tauto|].
  change (text ",x345") with (44%Z :: 120%Z :: text "345"). apply runs_other; [apply ND; cbn; tauto|]. apply runs_other; [apply ND; cbn; tauto|].
  apply runs_end; [discriminate|apply Forall_forall; intros c H; apply D; cbn in H |- *; tauto].
Qed.
(* Larger numbers, which the uint32 profile ids allow, give another id or none. *)
Theorem profile_ids_large_refuted :
  number (text "4294967297") = 4294967297%Z /\ extractProfileIds (text "4294967297") = [1]%Z /\
  number (text "4000000000") = 4000000000%Z /\ extractProfileIds (text "4000000000") = [].
Proof. vm_compute. repeat split. Qed.
Print Assumptions profile_ids_large_refuted.

(* C42: the callback is made for the values of the query and cookie evidence
   whose field, less 51D_, is ProfileIds in any case, in the order of the
   evidence. *)
Theorem profile_ids_evidence : forall e e' st n, reachable e ->
  (forall q, In q (items e ++ match pseudoEvidence e with Some l => l | None => [] end) -> ~ In 0%Z (field q) /\ originalValue q <> None) ->
  OverrideProfileIds e = (e', st, n) ->
  exists sel values, selected (fun p => inSet (prefix p) 24)
             (fun p => mkPair (prefix p) (field p) (originalValue p) (originalValue p))
             (items e ++ match pseudoEvidence e with Some l => l | None => [] end) sel /\
    selected (fun p => exists m, meant true (field p) m /\ sameText m (text "ProfileIds")) originalValue sel (map Some values) /\
    st = Some (flat_map extractProfileIds values).
Proof.
  intros e e' st n RE HV X. destruct (evidence_iterate _ _ _ _ _ _ _ _ RE X) as ((sel & S & C) & _). exists sel.
  assert (SH : Forall (fun q => parsedValue q <> None /\ parsedValue q = originalValue q /\ Forall (fun c => c <> 0%Z) (field q)) sel).
  { clear -S HV. induction S as [|x l l' P S IH|x l l' P S IH]; [constructor| |].
    - constructor; [|apply IH; intros q Hq; apply HV; now right]. cbn. destruct (HV x) as (H1 & H2); [left; reflexivity|].
      repeat split; auto. apply Forall_forall. intros c Hc ->. contradiction.
    - apply IH. intros q Hq. apply HV. now right. }
  enough (G : forall sel s n st, Forall (fun q => parsedValue q <> None /\ parsedValue q = originalValue q /\ Forall (fun c => c <> 0%Z) (field q)) sel ->
    called iteratorProfileId sel (Some s) n st ->
    exists values, selected (fun p => exists m, meant true (field p) m /\ sameText m (text "ProfileIds")) originalValue sel (map Some values) /\
      st = Some (s ++ flat_map extractProfileIds values)).
  { destruct (G sel [] n st SH C) as (values & G1 & G2). exists values. split; [exact S|]. split; [exact G1|exact G2]. }
  clear. induction sel as [|q sel IH]; intros s n st SH C.
  - inversion C; subst. exists []. split; [constructor|]. cbn. now rewrite app_nil_r.
  - apply Forall_cons_iff in SH. destruct SH as ((P1 & P2 & P3) & SH).
    assert (Mq : Z.eqb (StringCompare (skipPrefix true (field q)) PROFILE_IDS) 0 = true <-> exists m, meant true (field q) m /\ sameText m (text "ProfileIds")).
    { rewrite Z.eqb_eq, compare_zero. pose proof (skip_meant true (field q) P3) as M. split; [intros H; eauto|].
      intros (m & M1 & M2). rewrite (meant_unique _ _ _ _ M M1). exact M2. }
    inversion C as [|x l0 s0 s' Q|x l0 s0 s' n' s'' Q C']; subst; [discriminate Q|]. injection Q as <-.
    destruct (Z.eqb (StringCompare (skipPrefix true (field q)) PROFILE_IDS) 0).
    + destruct (parsedValue q) as [v|] eqn:V; [|congruence]. destruct (IH _ _ _ SH C') as (values & I1 & ->). exists (v :: values). split.
      * cbn [map]. rewrite P2. constructor; [now apply Mq|exact I1].
      * cbn. now rewrite app_assoc.
    + destruct (IH _ _ _ SH C') as (values & I1 & ->). exists values. split; [|reflexivity]. constructor 3; [|exact I1]. intros H. apply Mq in H. discriminate H.
Qed.
Print Assumptions profile_ids_evidence.
Example profile_ids_evidence_example :
  match OverrideProfileIds (fst (EvidenceAddString (fst (EvidenceAddString (EvidenceCreate 2) QUERY (text "51D_profileids") (Some (text "12|5"))))
                                  COOKIE (text "ProfileIds") (Some (text "7")))) with
  | (_, st, n) => st = Some [12; 5; 7]%Z /\ n = 2 end.
Proof. vm_compute. repeat split. Qed.
