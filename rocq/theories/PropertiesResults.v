(* Properties of the results (C88) *)
From Verif Require Import StringSpec StringProofs PropsSpec PropsProofs PropertiesProps.
From Verif Require Export ResultsProofs.

Lemma same_text_dec : forall a b, {sameText a b} + {~ sameText a b}.
Proof.
  induction a as [|x a IH]; intros [|y b]; [left; constructor|right; intros H; inversion H|right; intros H; inversion H|].
  destruct (Z.eq_dec (tolower x) (tolower y)) as [E|E]; [|right; intros H; inversion H; apply E; now apply lower_same].
  destruct (IH b) as [S|S]; [left; constructor; [now apply lower_same|exact S]|right; intros H; inversion H; contradiction].
Qed.
(* an engine with the values l for each property *)
Definition giving (l : list (list Z)) : Results := mkResults [] (fun _ => true) (fun _ => UNKNOWN) (fun _ => None) (fun _ => l).
(* an engine without values *)
Definition without (why : reason) (message : option (list Z)) : Results := mkResults [] (fun _ => false) (fun _ => why) (fun _ => message) (fun _ => []).

(* C88: the string of a property that has values is the values with bars
   between, and if no value contains a bar they are the only values it can be of. *)
Theorem results_string : forall r i, hasValuesInternal r i = true -> getValuesInternal r i <> [] ->
  let v := getValueAsString r i in
  getValue v = Returns (value v) /\ barred (getValuesInternal r i) (value v) /\
  (Forall barFree (getValuesInternal r i) -> forall l, Forall barFree l -> barred l (value v) -> l = getValuesInternal r i).
Proof.
  intros r i H N. cbv zeta.
  assert (E : getValueAsString r i = setValue (newValue []) (joined (getValuesInternal r i) true)).
  { unfold getValueAsString. rewrite H. destruct (getValuesInternal r i) as [|x [|y l]]; [congruence| |reflexivity]. cbn [joined app]. now rewrite app_nil_r. }
  rewrite E. cbn [value setValue]. split; [reflexivity|]. pose proof (joined_ok _ N) as B. split; [exact B|]. intros F l F' B'. symmetry. exact (barred_inj _ _ B F _ B' F').
Qed.
Print Assumptions results_string.
Example results_string_example : Forall barFree [chars "Red"; chars ""; chars "Blue"] /\ value (getValueAsString (giving [chars "Red"; chars ""; chars "Blue"]) 0) = chars "Red||Blue".
Proof. split; [repeat constructor; intros H; cbn in H; intuition discriminate|reflexivity]. Qed.
(* A value with a bar cannot be told from two values. *)
Theorem results_string_refuted : exists r1 r2, getValuesInternal r1 0 <> getValuesInternal r2 0 /\ hasValuesInternal r1 0 = true /\ hasValuesInternal r2 0 = true /\ getValueAsString r1 0 = getValueAsString r2 0.
Proof. exists (giving [chars "a|b"]), (giving [chars "a"; chars "b"]). repeat split; discriminate. Qed.
Print Assumptions results_string_refuted.

(* C88: a bool needs a single value, and is true exactly if that is "True". *)
Theorem results_bool : forall r i x, hasValuesInternal r i = true -> getValuesInternal r i = [x] ->
  exists v b, getValueAsBool r i = Some v /\ getValue v = Returns b /\ (b = true <-> x = chars "True").
Proof.
  intros r i x H E. unfold getValueAsBool, getSingle. rewrite H, E. eexists. exists (same x (literal "True")). split; [reflexivity|]. split; [reflexivity|]. rewrite same_eq, literal_chars. reflexivity.
Qed.
Print Assumptions results_bool.
Example results_bool_example : getValueAsBool (giving [chars "True"]) 0 = Some (mkValue true true None UNKNOWN) /\ getValueAsBool (giving [chars "true"]) 0 = Some (mkValue true false None UNKNOWN).
Proof. split; reflexivity. Qed.

(* C88: an int needs a single value, and is the number that its text up to a NUL
   starts with, if that is an int. *)
Theorem results_integer : forall r i x n, hasValuesInternal r i = true -> getValuesInternal r i = [x] ->
  ~ In 0 x -> integerText x n -> - 2 ^ 31 <= n < 2 ^ 31 ->
  exists v, getValueAsInteger r i = Some v /\ getValue v = Returns n.
Proof.
  intros r i x n H E N T B. unfold getValueAsInteger, getSingle. rewrite H, E.
  assert (C : forall s, ~ In 0 s -> cText s = s). { induction s as [|c s IH]; intros M; [reflexivity|]. cbn [cText]. destruct (Z.eqb_spec c 0) as [->|]; [exfalso; apply M; now left|]. rewrite IH; [reflexivity|]. intros I. apply M. now right. }
  rewrite C, (atoi_ok _ _ T B) by exact N. eexists. split; reflexivity.
Qed.
Print Assumptions results_integer.
Example results_integer_example : integerText (chars "  -0427px") (-427) /\ ~ In 0 (chars "  -0427px") /\ getValueAsInteger (giving [chars "  -0427px"]) 0 = Some (mkValue true (-427) None UNKNOWN).
Proof.
  split; [|split; [intros H; cbn in H; intuition discriminate|reflexivity]].
  exists (chars "  "), (chars "0427"), (chars "px"). split; [repeat constructor|]. split; [repeat (constructor; [split; discriminate|]); constructor|]. split; [discriminate|]. split; [right; exists 112, (chars "x"); split; [reflexivity|intros (_ & H); now apply H]|]. right. split; reflexivity.
Qed.
(* A number that is no int is undefined behaviour, and a text that is no number
   at all is given as the number 0. *)
Theorem results_integer_refuted :
  (exists x, integerText x (2 ^ 31) /\ getValueAsInteger (giving [x]) 0 = None) /\
  (exists x v, (forall n, ~ integerText x n) /\ getValueAsInteger (giving [x]) 0 = Some v /\ getValue v = Returns 0).
Proof.
  split.
  - exists (chars "2147483648"). split; [|reflexivity]. exists [], (chars "2147483648"), []. split; [constructor|]. split; [repeat (constructor; [split; discriminate|]); constructor|]. split; [discriminate|]. split; [now left|]. left. split; [left|]; reflexivity.
  - exists (chars "Unknown"). eexists. split; [|split; reflexivity]. intros n (sp & ds & rest & Fs & Fd & Nd & _ & H).
    change (chars "Unknown") with (85 :: chars "nknown") in H.
    destruct sp as [|c sp]; [|inversion Fs as [|? ? D _]; subst; destruct H as [([H|H] & _)|(H & _)]; injection H as <- _; lia].
    destruct ds as [|d ds]; [congruence|]. inversion Fd as [|? ? D _]; subst. unfold isDigit in D. destruct H as [([H|H] & _)|(H & _)]; cbn [app] in H; try discriminate H. injection H as <- _. lia.
Qed.
Print Assumptions results_integer_refuted.

(* C88: a double needs a single value and is what strtod gives for it. *)
Theorem results_double : forall T (zero : T) strtod r i x, hasValuesInternal r i = true -> getValuesInternal r i = [x] -> ~ In 0 x ->
  exists v, getValueAsDouble zero strtod r i = Some v /\ getValue v = Returns (strtod x).
Proof.
  intros T zero strtod r i x H E N. unfold getValueAsDouble, getSingle. rewrite H, E.
  assert (C : forall s, ~ In 0 s -> cText s = s). { induction s as [|c s IH]; intros M; [reflexivity|]. cbn [cText]. destruct (Z.eqb_spec c 0) as [->|]; [exfalso; apply M; now left|]. rewrite IH; [reflexivity|]. intros I. apply M. now right. }
  rewrite C by exact N. eexists. split; reflexivity.
Qed.
Print Assumptions results_double.
Example results_double_example : exists v, getValueAsDouble 0 (fun s => Z.of_nat (List.length s)) (giving [chars "2.5"]) 0 = Some v /\ getValue v = Returns 3.
Proof. eexists. split; reflexivity. Qed.

(* C88: with more than one value the single types throw that there are too many,
   and the values are all there as a vector. *)
Theorem results_many : forall r i x y l, hasValuesInternal r i = true -> getValuesInternal r i = x :: y :: l ->
  let many := chars "Type conversation only available for properties with a single value" in
  (exists v, getValueAsBool r i = Some v /\ getValue v = TooManyValuesException many) /\ (exists v, getValueAsInteger r i = Some v /\ getValue v = TooManyValuesException many) /\
  (forall T (zero : T) strtod, exists v, getValueAsDouble zero strtod r i = Some v /\ getValue v = TooManyValuesException many).
Proof.
  intros r i x y l H E. cbv zeta. unfold getValueAsBool, getValueAsInteger, getValueAsDouble, getSingle. rewrite H, E. rewrite <- !literal_chars. repeat split; intros; eexists; split; reflexivity.
Qed.
Print Assumptions results_many.
Example results_many_example : hasValuesInternal (giving [chars "1"; chars "2"]) 0 = true /\ getValuesInternal (giving [chars "1"; chars "2"]) 0 = [chars "1"; chars "2"].
Proof. split; reflexivity. Qed.
(* C88: the vector is the values. *)
Theorem results_values : forall r i, hasValuesInternal r i = true -> getValue (getValues r i) = Returns (getValuesInternal r i).
Proof. intros r i H. unfold getValues. now rewrite H. Qed.
Print Assumptions results_values.
Example results_values_example : getValue (getValues (giving [chars "1"; chars "2"]) 0) = Returns [chars "1"; chars "2"].
Proof. reflexivity. Qed.
(* C88: a property without values though the engine says it has some gives no
   value but with the vector, for an unknown reason. *)
Theorem results_empty : forall r i, hasValuesInternal r i = true -> getValuesInternal r i = [] ->
  let none := chars "No values are available for the property requested" in
  getValue (getValueAsString r i) = NoValuesAvailableException none /\
  (exists v, getValueAsBool r i = Some v /\ getValue v = NoValuesAvailableException none) /\
  (exists v, getValueAsInteger r i = Some v /\ getValue v = NoValuesAvailableException none) /\ getValue (getValues r i) = Returns [].
Proof.
  intros r i H E. cbv zeta. unfold getValueAsString, getValueAsBool, getValueAsInteger, getValues, getSingle. rewrite H, E. rewrite <- literal_chars. split; [reflexivity|]. split; [eexists; split; reflexivity|]. split; [eexists; split; reflexivity|reflexivity].
Qed.
Print Assumptions results_empty.
Example results_empty_example : hasValuesInternal (giving []) 0 = true /\ getValuesInternal (giving []) 0 = [].
Proof. split; reflexivity. Qed.

(* the exception for a reason and the message of the engine *)
Definition thrown {T} (why : reason) (message : list Z) : outcome T :=
  match why with INVALID_PROPERTY => InvalidPropertyException message | _ => NoValuesAvailableException message end.
(* C88: without values every method throws, with the engine's message, for the
   reasons other than too many values, no matched nodes and a null profile. *)
Theorem results_none : forall r i message, hasValuesInternal r i = false ->
  let why := getNoValueReasonInternal r i in
  why <> TOO_MANY_VALUES -> why <> NO_MATCHED_NODES -> why <> NULL_PROFILE -> getNoValueMessageInternal r why = Some message ->
  getValue (getValueAsString r i) = thrown why message /\ getValue (getValues r i) = thrown why message /\
  (exists v, getValueAsBool r i = Some v /\ getValue v = thrown why message) /\
  (exists v, getValueAsInteger r i = Some v /\ getValue v = thrown why message) /\
  (forall T (zero : T) strtod, exists v, getValueAsDouble zero strtod r i = Some v /\ getValue v = thrown why message).
Proof.
  intros r i message H why N1 N2 N3 M.
  assert (K : forall T (z : T), getValue (noValue r i z) = thrown why message).
  { intros T z. unfold noValue. fold why. rewrite M. unfold getValue. cbn [hasValue setNoValueReason newValue noValueReason noValueMessage]. destruct why; try congruence; reflexivity. }
  unfold getValueAsString, getValueAsBool, getValueAsInteger, getValueAsDouble, getValues, getSingle. rewrite H.
  split; [apply K|]. split; [apply K|]. split; [eexists; split; [reflexivity|apply K]|]. split; [eexists; split; [reflexivity|apply K]|]. intros. eexists. split; [reflexivity|apply K].
Qed.
Print Assumptions results_none.
Example results_none_example : getValue (getValueAsString (without NO_RESULTS (Some (chars "none"))) 0) = NoValuesAvailableException (chars "none") /\
  getValue (getValues (without INVALID_PROPERTY (Some (chars "none"))) 0) = InvalidPropertyException (chars "none").
Proof. split; reflexivity. Qed.
(* For no matched nodes and a null profile the engine's message is lost. *)
Theorem results_none_refuted : forall why, why = NO_MATCHED_NODES \/ why = NULL_PROFILE ->
  exists r message, getNoValueReasonInternal r 0 = why /\ getNoValueMessageInternal r why = Some message /\ hasValuesInternal r 0 = false /\
  forall m, getValue (getValueAsString r 0) = NoValuesAvailableException m -> m <> message.
Proof. intros why K. exists (without why (Some (chars "none"))), (chars "none"). repeat split. intros m E. destruct K as [-> | ->]; injection E as <-; discriminate. Qed.
Print Assumptions results_none_refuted.
(* C88: whatever the reason and the message, without values no method returns one. *)
Theorem results_never : forall r i, hasValuesInternal r i = false ->
  (forall x, getValue (getValueAsString r i) <> Returns x) /\ (forall x, getValue (getValues r i) <> Returns x) /\
  (forall v x, getValueAsBool r i = Some v -> getValue v <> Returns x) /\ (forall v x, getValueAsInteger r i = Some v -> getValue v <> Returns x).
Proof.
  intros r i H. assert (K : forall T (z x : T), getValue (noValue r i z) <> Returns x).
  { intros T z x. unfold getValue, noValue. cbn [hasValue setNoValueReason newValue noValueReason noValueMessage]. destruct (getNoValueReasonInternal r i); try discriminate. now destruct (getNoValueMessageInternal r INVALID_PROPERTY). }
  unfold getValueAsString, getValueAsBool, getValueAsInteger, getValues, getSingle. rewrite H. split; [apply K|]. split; [apply K|]. split; intros v x E; injection E as <-; apply K.
Qed.
Print Assumptions results_never.
Example results_never_example : getValue (getValueAsString (without NULL_PROFILE None) 0) = NoValuesAvailableException (chars "No values are available for the property requested").
Proof. reflexivity. Qed.

(* C88: the properties are the names of the available ones in their order, and
   the name at an index that there is not is empty. *)
Theorem results_properties : forall r, getProperties r = Some (List.map name (available r)) /\
  (forall k x, nth_error (available r) k = Some x -> getPropertyName r (Z.of_nat k) = Some (name x)) /\
  (forall i, i < 0 \/ Z.of_nat (List.length (available r)) <= i -> getPropertyName r i = Some []).
Proof.
  intros r. split; [|split].
  - unfold getProperties. rewrite (names_from r _ 0) by (unfold getAvailableProperties; lia). cbn [skipn]. f_equal. apply firstn_all2. rewrite map_length. lia.
  - intros k x N. assert (k < List.length (available r))%nat by (apply nth_error_Some; congruence). unfold getPropertyName, getAvailableProperties, PropertiesGetNameFromRequiredIndex. destruct (Z.leb_spec 0 (Z.of_nat k)); [|lia]. destruct (Z.ltb_spec (Z.of_nat k) (Z.of_nat (List.length (available r)))); [|lia]. destruct (Z.ltb_spec (Z.of_nat k) 0); [lia|]. cbn [andb]. now rewrite Nat2Z.id, N.
  - intros i K. unfold getPropertyName, getAvailableProperties. destruct (Z.leb_spec 0 i); [|reflexivity]. destruct (Z.ltb_spec i (Z.of_nat (List.length (available r)))); [lia|reflexivity].
Qed.
Print Assumptions results_properties.
Example results_properties_example : getProperties (mkResults [mkAvailable 4 (chars "Red") 0 []; mkAvailable 2 (chars "Blue") 0 []] (fun _ => true) (fun _ => UNKNOWN) (fun _ => None) (fun _ => [])) = Some [chars "Red"; chars "Blue"].
Proof. reflexivity. Qed.

(* C88: on properties as PropertiesCreate makes them of ASCII names, the results
   contain a property exactly if an available one has that name in any case, and
   a value by name is the value at that one's index, or at -1 if there is none. *)
Theorem results_by_name : forall names evidence qsort properties request l r,
  goodNames names -> Forall PropsProofs.ascii names -> Z.of_nat (List.length names) <= 2 ^ 32 -> sorts qsort ->
  asks properties request -> (forall l, request = Some l -> Forall (Forall textChar) l) ->
  fst (PropertiesCreate qsort names evidence properties) = Created l -> available r = l ->
  forall t, ~ In 0 t -> (exists b, containsProperty r t = Some b /\ (b = true <-> exists x, In x l /\ sameText t (name x))) /\
  forall T (get : Results -> Z -> T),
    (forall k x, nth_error l k = Some x -> sameText t (name x) -> byName r get t = Some (get r (Z.of_nat k))) /\
    ((forall x, In x l -> ~ sameText t (name x)) -> byName r get t = Some (get r (-1))).
Proof.
  intros names evidence qsort properties request l r G As B Q A T E Er t N0.
  destruct (properties_lookup names evidence qsort properties request l G As B Q A T E) as (H1 & H2 & _).
  assert (C : forall s, ~ In 0 s -> cText s = s). { induction s as [|c s IH]; intros M; [reflexivity|]. cbn [cText]. destruct (Z.eqb_spec c 0) as [->|]; [exfalso; apply M; now left|]. rewrite IH; [reflexivity|]. intros I. apply M. now right. }
  assert (D : {Exists (fun x => sameText t (name x)) l} + {~ Exists (fun x => sameText t (name x)) l}).
  { apply List.Exists_dec. intros x. apply same_text_dec. }
  split.
  - unfold containsProperty. rewrite (C _ N0), Er. destruct D as [D|D].
    + apply Exists_exists in D. destruct D as (x & I & S). destruct (In_nth_error _ _ I) as (k & K). destruct (H1 k x K) as (_ & _ & H). destruct (H t S) as (H' & _). rewrite H'. exists true. split; [cbn [option_map]; f_equal; apply Z.leb_le; lia|]. split; [intros _; exists x; auto|reflexivity].
    + assert (M : forall x, In x l -> ~ sameText t (name x)) by (intros x I S; apply D; apply Exists_exists; exists x; auto). rewrite (proj1 (H2 t M)). exists false. split; [reflexivity|]. split; [discriminate|]. intros (x & I & S). now destruct (M x I).
  - intros X get. unfold byName. rewrite Er. split.
    + intros k x K S. destruct (H1 k x K) as (_ & _ & H). now rewrite (proj1 (H t S)).
    + intros K. now rewrite (proj1 (H2 t K)).
Qed.
Print Assumptions results_by_name.
Example results_by_name_example : goodNames sampleNames /\ Forall PropsProofs.ascii sampleNames /\ sorts insertionSort /\
  match fst (PropertiesCreate insertionSort sampleNames (fun i => []) None) with
  | Created l => let r := mkResults l (fun _ => true) (fun _ => UNKNOWN) (fun _ => None) (fun i => [[i]]) in
      containsProperty r (chars "gREEN") = Some true /\ containsProperty r (chars "gree") = Some false /\ byName r getValues (chars "gREEN") = Some (getValues r 1)
  | _ => False end.
Proof. split; [apply sampleNames_good|]. split; [apply sampleNames_ascii|]. split; [apply insertion_sorts|]. vm_compute. repeat split. Qed.
