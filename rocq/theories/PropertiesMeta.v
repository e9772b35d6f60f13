(* C101 to C105: meta data, strings of meta data, exceptions, settings and dates *)
From Verif Require Import MetaModel MetaSpec MetaProofs.
From Verif Require Import StatusSpec.
From Verif Require ItemModel LifeModel LifeSpec LifeProofs PropertiesStatus.
Local Open Scope Z_scope.

(* C101, the order of keys is by property and then by value, from the last to the first:
   a key is less than those that come before it *)
Theorem key_order : forall k other, keyLess k other = true <-> keyBefore other k.
Proof. exact keyLess_before. Qed.
Print Assumptions key_order.
Example key_order_ex : keyLess (mkKey (text "B") (text "1")) (mkKey (text "A") (text "2")) = true /\
  keyLess (mkKey (text "A") (text "10")) (mkKey (text "A") (text "1")) = true /\
  keyLess (mkKey (text "A") (text "1")) (mkKey (text "B") (text "2")) = false.
Proof. vm_compute. auto. Qed.

(* C101, so keys can be used in a std::map: the order is strict and total *)
Theorem key_strict : strictTotal keyLess /\ decides keyEq /\
  (forall a b, keyEq a b = true <-> keyLess a b = false /\ keyLess b a = false).
Proof.
  split; [exact keyLess_strict|]. split; [exact keyEq_same|]. destruct keyLess_strict as (I & T & C). intros a b. split.
  - intros E. apply keyEq_same in E. subst. auto.
  - intros (H1 & H2). apply keyEq_same. destruct (C a b) as [H|[H|H]]; congruence.
Qed.
Print Assumptions key_strict.
Example key_strict_ex : keyEq (mkKey (text "A") (text "1")) (mkKey (text "A") (text "1")) = true /\
  keyEq (mkKey (text "A") (text "1")) (mkKey (text "A") (text "2")) = false /\
  keyEq (mkKey (text "A") (text "1")) (mkKey (text "B") (text "1")) = false.
Proof. vm_compute. auto. Qed.

(* C101, entities are equal exactly if their keys are the same, and not equal otherwise:
   for profiles, components, properties and values *)
Theorem entity_equal : forall K (eq : K -> K -> bool), decides eq -> decides (entityEq eq) /\
  forall a b, entityNe eq a b = true <-> a <> b.
Proof.
  intros K eq D. split.
  - intros a b. unfold entityEq. split; intros H; [apply D in H|apply D]; auto.
  - intros a b. unfold entityNe. destruct (eq b a) eqn:E; cbn.
    + apply D in E. split; [discriminate|congruence].
    + split; [|reflexivity]. intros _ ->. assert (eq b b = true) by now apply D. congruence.
Qed.
Print Assumptions entity_equal.
Example entity_equal_ex : decides Z.eqb /\ decides strEq /\ decides keyEq.
Proof. split; [exact Z.eqb_eq|]. split; [exact strEq_same|exact keyEq_same]. Qed.

(* C102, a new entity has what it was given, and a copy has all of it *)
Theorem value_copy : forall k d u v, v = newValue k d u ->
  vkey v = k /\ vdescription v = d /\ vurl v = u /\ valueGetName v = valueName k /\ copyValue v = v.
Proof. intros k d u v ->. auto. Qed.
Print Assumptions value_copy.
Theorem profile_copy : forall id c p, 0 <= c < 256 -> p = newProfile id c ->
  profileId p = id /\ pcomponentId p = c /\ copyProfile p = p.
Proof.
  intros id c p R ->. assert (toByte c = c) by (apply Z.mod_small; lia). unfold copyProfile, newProfile.
  cbn [profileId pcomponentId]. rewrite !H. auto.
Qed.
Print Assumptions profile_copy.
Theorem component_copy : forall id n d c, 0 <= id < 256 -> c = newComponent id n d ->
  componentKey c = id /\ getComponentIdAsInt c = id /\ cname c = n /\ defaultProfileId c = d /\ copyComponent c = c.
Proof.
  intros id n d c R ->. assert (toByte id = id) by (apply Z.mod_small; lia). unfold copyComponent, newComponent, getComponentIdAsInt.
  cbn [componentKey cname defaultProfileId]. rewrite !H. auto.
Qed.
Print Assumptions component_copy.
Theorem property_copy : forall n f t c u a o m l ob s sv d dv ci e p, 0 <= o < 256 -> 0 <= ci < 256 ->
  p = newProperty n f t c u a o m l ob s sv d dv ci e ->
  name p = n /\ dataFilesWherePresent p = f /\ type p = t /\ category p = c /\ url p = u /\ available p = a /\
  displayOrder p = o /\ isMandatory p = m /\ isList p = l /\ isObsolete p = ob /\ show p = s /\ showValues p = sv /\
  description p = d /\ defaultValue p = dv /\ componentId p = ci /\ evidenceProperties p = e /\ copyProperty p = p.
Proof.
  intros n f t c u a o m l ob s sv d dv ci e p Ro Rc ->. assert (toByte o = o) as Ho by (apply Z.mod_small; lia).
  assert (toByte ci = ci) as Hc by (apply Z.mod_small; lia). unfold copyProperty, newProperty.
  cbn [name dataFilesWherePresent type category url available displayOrder isMandatory isList isObsolete show showValues description defaultValue componentId evidenceProperties].
  rewrite !Ho, !Hc. auto 20.
Qed.
Print Assumptions property_copy.
Example copy_ex : profileId defaultProfile = 0 /\ pcomponentId defaultProfile = 255 /\ componentKey defaultComponent = 255 /\
  cname defaultComponent = text "invalid" /\ defaultProfileId defaultComponent = 0 /\
  (available defaultProperty, isMandatory defaultProperty, isList defaultProperty, isObsolete defaultProperty, show defaultProperty, showValues defaultProperty) = (false, false, false, false, false, false) /\
  (dataFilesWherePresent defaultProperty, type defaultProperty, category defaultProperty, url defaultProperty, description defaultProperty, defaultValue defaultProperty, evidenceProperties defaultProperty) =
    ([], text "invalid", text "invalid", text "invalid", text "invalid", text "invalid", []) /\
  displayOrder defaultProperty = 255 /\ componentId defaultProperty = 255 /\ name defaultProperty = text "invalid" /\
  valueGetName defaultValueMetaData = text "invalid" /\ copyProperty defaultProperty = defaultProperty /\
  displayOrder (newProperty (text "p") [] [] [] [] true 7 true false false true true [] [] 2 [9]) = 7.
Proof. vm_compute. auto 20. Qed.

(* C103, a string of meta data is the text stored, and its memory is freed; one that
   cannot be read throws and leaves no memory *)
Theorem meta_string : forall m w content t, LifeSpec.older m -> LifeSpec.sized w ->
  (LifeSpec.readable w -> storedText content t) ->
  exists m' r, getString m w content = Some (m', r) /\ ItemModel.live m' = ItemModel.live m /\
    (LifeSpec.readable w -> r = Text t) /\ (~ LifeSpec.readable w -> r = Thrown).
Proof.
  intros m w content t Ho Hs Hc. pose proof (LifeProofs.owns_start m Ho) as O. unfold getString.
  destruct (LifeProofs.getFile_owns _ _ _ w Hs O) as (m1 & it & r & G & H). rewrite G. destruct r as [p|].
  - destruct H as (O1 & -> & R). destruct w as [|bytes memOk readOk]; [discriminate|].
    assert (memOk = true /\ readOk = true) as (-> & ->).
    { unfold ItemModel.getFile, ItemModel.DataMalloc, ItemModel.DataReset in G. cbn [ItemModel.idata ItemModel.allocated ItemModel.ptr Z.ltb Z.compare andb Z.eqb] in G.
      destruct memOk; [|discriminate]. destruct (ItemModel.write _ _ _); [|discriminate]. destruct readOk; [auto|]. destruct (ItemModel.free _ _); discriminate. }
    assert (LifeSpec.readable (ItemModel.Try bytes true true)) as Rd by (exists bytes; split; [reflexivity|eapply Hs; reflexivity]).
    destruct (Hc Rd) as (N & a & b & rest & ->). unfold valueOffset. cbn [skipn]. rewrite cstring_app by exact N.
    destruct (LifeProofs.release_owns _ _ _ _ _ O1) as (m2 & -> & O2). do 2 eexists. split; [reflexivity|].
    split; [now apply LifeProofs.owns_end|]. split; [reflexivity|]. intros F. now apply F in Rd.
  - destruct H as (O1 & _). do 2 eexists. split; [reflexivity|]. split; [now apply LifeProofs.owns_end|].
    split; [|reflexivity]. intros (bytes & -> & R). exfalso. cbn in G. unfold ItemModel.write in G. cbn [ItemModel.live ItemModel.sizeOf] in G.
    rewrite Nat.eqb_refl, Z.leb_refl in G. discriminate.
Qed.
Print Assumptions meta_string.
Example meta_string_ex : getString (ItemModel.mkMem 3 [(1%nat, 8)]) (ItemModel.Try 5 true true) ([3; 0] ++ text "ab" ++ [0]) =
    Some (ItemModel.mkMem 4 [(1%nat, 8)], Text (text "ab")) /\
  getString (ItemModel.mkMem 3 [(1%nat, 8)]) (ItemModel.Try 5 true false) [] = Some (ItemModel.mkMem 4 [(1%nat, 8)], Thrown) /\
  getString (ItemModel.mkMem 3 [(1%nat, 8)]) (ItemModel.Try 5 false true) [] = Some (ItemModel.mkMem 3 [(1%nat, 8)], Thrown) /\
  storedText ([3; 0] ++ text "ab" ++ [0]) (text "ab").
Proof. vm_compute. split; [reflexivity|]. split; [reflexivity|]. split; [reflexivity|]. split; [intuition discriminate|]. now exists 3, 0, []. Qed.

(* C103, refuted for a stored string without a zero: the end is not checked, memory after
   the item is read *)
Theorem meta_string_refuted : forall m bytes a b t, ~ In 0 t ->
  getString m (ItemModel.Try bytes true true) (a :: b :: t) = None.
Proof.
  intros m bytes a b t N. unfold getString. destruct (ItemModel.getFile _ _ _) as [((m1 & it) & [p|])|] eqn:G; try reflexivity.
  - unfold valueOffset. cbn [skipn]. now rewrite cstring_none.
  - cbn in G. unfold ItemModel.write in G. cbn [ItemModel.live ItemModel.sizeOf] in G. rewrite Nat.eqb_refl, Z.leb_refl in G. discriminate.
Qed.
Print Assumptions meta_string_refuted.

(* C104, an exception for a status has its code and its message *)
Theorem status_exception : forall s m fileName malloc2, In (s, m) messages ->
  exists t, StatusCodeException s fileName true malloc2 = Some t /\ getCode t = Some s /\
    filled m (match fileName with Some n => n | None => text "null" end) (what t).
Proof.
  intros s m fileName malloc2 I. unfold StatusCodeException. destruct (PropertiesStatus.status_message s m fileName malloc2 I) as (r & -> & F).
  eexists. split; [reflexivity|]. auto.
Qed.
Print Assumptions status_exception.
Example status_exception_ex : exists t, StatusCodeException 4 (Some (text "a.dat")) true true = Some t /\ getCode t = Some 4 /\
  what t = text "The data file 'a.dat' could not be found. Check the file path and that the program has sufficient read permissions.".
Proof. eexists. split; [vm_compute; reflexivity|]. split; vm_compute; reflexivity. Qed.

(* C104, an exception that exists has the code it was made for, whatever the code *)
Theorem status_exception_code : forall s fileName a b t, StatusCodeException s fileName a b = Some t -> getCode t = Some s.
Proof. intros s fileName a b t. unfold StatusCodeException. destruct (StatusGetMessage _ _ _ _); [|discriminate]. intros E. injection E as <-. reflexivity. Qed.
Print Assumptions status_exception_code.
Example status_exception_code_ex : exists t, StatusCodeException 77 None false true = Some t /\
  what t = text "Status code 77 does not have any message text.".
Proof. eexists. split; vm_compute; reflexivity. Qed.

(* C104, a fatal exception has the message of the exception: status, file, function and line *)
Theorem fatal_exception : forall e f g m malloc2, file e = Some f -> func e = Some g -> - 2 ^ 31 <= line e < 2 ^ 31 ->
  StatusGetMessage (status e) None true malloc2 = Some m ->
  exists t d, FatalException e true malloc2 true = Some t /\ isDecimal d (line e) /\
    what t = text "Message:  " ++ m ++ [13; 10] ++ text "Source:   " ++ f ++ [13; 10] ++ text "Function: " ++ g ++ [13; 10] ++ text "Line:     " ++ d ++ [13; 10].
Proof.
  intros e f g m malloc2 F G R M. destruct (PropertiesStatus.exception_message e f g F G R m malloc2 M) as (d & D & E).
  unfold FatalException. rewrite E. do 2 eexists. split; [reflexivity|]. split; [exact D|]. reflexivity.
Qed.
Print Assumptions fatal_exception.
Example fatal_exception_ex : exists t, FatalException (mkException 17 (Some (text "a.c")) (Some (text "f")) 12) true true true = Some t /\
  what t = text "Message:  Could not read the file." ++ [13; 10] ++ text "Source:   a.c" ++ [13; 10] ++ text "Function: f" ++ [13; 10] ++ text "Line:     12" ++ [13; 10].
Proof. eexists. split; vm_compute; reflexivity. Qed.

(* C104, refuted for the code of a fatal exception: it is never set *)
Theorem fatal_exception_refuted : forall e a b c t, FatalException e a b c = Some t -> getCode t = None.
Proof. intros e a b c t. unfold FatalException. destruct (ExceptionGetMessage _ _ _ _); [|discriminate]. intros E. injection E as <-. reflexivity. Qed.
Print Assumptions fatal_exception_refuted.

(* C104, the exception for no values has the text given or its own, and the one for an
   invalid property the text given *)
Theorem text_exceptions : forall m, (forall t, m = Some t -> NoValuesAvailableException m = Some t /\ InvalidPropertyException m = Some t) /\
  exists t, NoValuesAvailableException m = Some t /\ (m = None -> t = text "No values are available for the property requested").
Proof. intros [t|]; (split; [intros t' E; now injection E as ->|]) || (split; [discriminate|]); eexists; (split; [reflexivity|]); auto; discriminate. Qed.
Print Assumptions text_exceptions.
(* C104, refuted for an invalid property without a text: NULL is used *)
Theorem invalid_property_refuted : InvalidPropertyException None = None.
Proof. reflexivity. Qed.
Print Assumptions invalid_property_refuted.

(* C105, a setting is the last one given for the structure through any object *)
Theorem setting_last : forall calls later cs p o, allowed o ->
  (forall q o', In (q, o') later -> ~ (q = p /\ sameSetting o' o)) ->
  settingOf o (setAll (calls ++ (p, o) :: later) cs p) = given o.
Proof.
  intros calls later cs p o A N. unfold setAll. rewrite fold_left_app. cbn [fold_left]. generalize (fold_left set1 calls cs) as c. clear cs calls.
  assert (forall c, settingOf o (set1 c (p, o) p) = given o) as B.
  { intros c. cbn. unfold change. rewrite Nat.eqb_refl. destruct o; cbn in *; apply Z.mod_small; exact A. }
  intros c. rewrite <- (B c). generalize (set1 c (p, o)) as d. clear B c A.
  induction later as [|(q, o') later IH]; intros d; cbn [fold_left]; [reflexivity|].
  rewrite IH by (intros q' o'' I; apply N; now right). apply set1_other_setting. apply N. now left.
Qed.
Print Assumptions setting_last.
Example setting_last_ex : let cs := setAll [(1%nat, SetCapacity 5); (1%nat, SetConcurrency 65535); (2%nat, SetCapacity 9); (1%nat, SetCapacity 7)] (fun _ => mkSettings 3 0 0) in
  cs 1%nat = mkSettings 3 7 65535 /\ cs 2%nat = mkSettings 3 9 0.
Proof. vm_compute. auto. Qed.

(* C105, a setting that is not given stays *)
Theorem setting_kept : forall calls cs p o, (forall q o', In (q, o') calls -> ~ (q = p /\ sameSetting o' o)) ->
  settingOf o (setAll calls cs p) = settingOf o (cs p).
Proof.
  intros calls. induction calls as [|(q, o') calls IH]; intros cs p o N; cbn; [reflexivity|].
  fold (setAll calls (set1 cs (q, o'))). rewrite IH by (intros q' o'' I; apply N; now right). apply set1_other_setting. apply N. now left.
Qed.
Print Assumptions setting_kept.

(* C105, a date has the year, month and day of the four bytes in the data file *)
Theorem date_bytes : forall y m d rest, - 2 ^ 15 <= y < 2 ^ 15 -> 0 <= m < 256 -> 0 <= d < 256 ->
  dateFrom ((y mod 256) :: (y / 256) mod 256 :: m :: d :: rest) = Some (mkDate y m d).
Proof.
  intros y m d rest Hy Hm Hd. cbn [dateFrom]. do 2 f_equal.
  pose proof (Z.div_mod y 256). pose proof (Z.div_mod (y / 256) 256). pose proof (Z.mod_pos_bound y 256). pose proof (Z.mod_pos_bound (y / 256) 256).
  assert (y / 256 / 256 = 0 \/ y / 256 / 256 = -1). { rewrite Z.div_div by lia. change (256 * 256) with 65536. assert (-1 <= y / 65536 < 1); [|lia]. split; [apply Z.div_le_lower_bound; lia|apply Z.div_lt_upper_bound; lia]. }
  destruct (Z.ltb_spec (y mod 256 + 256 * ((y / 256) mod 256)) (2 ^ 15)); lia.
Qed.
Print Assumptions date_bytes.
Example date_bytes_ex : dateFrom [234; 7; 11; 16] = Some (mkDate 2026 11 16) /\ dateFrom [255; 255; 1; 2] = Some (mkDate (-1) 1 2).
Proof. vm_compute. auto. Qed.

(* C105, numbers are true unless zero, and true and false are 1 and 0 *)
Theorem bool_int : (forall b, IntToBool (BoolToInt b) = b) /\ (forall i, IntToBool i = false <-> i = 0) /\ (forall b, BoolToInt b = 0 \/ BoolToInt b = 1).
Proof.
  split; [now intros []|]. split; [|intros []; auto]. intros i. unfold IntToBool. rewrite negb_false_iff. apply Z.eqb_eq.
Qed.
Print Assumptions bool_int.
