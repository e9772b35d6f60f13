(* C93 - C95: values by name (value.c), strings of files (string.c) and
   coordinates (coordinate.c) *)
From Coq Require Import String Ascii.
From Verif Require Import SearchModel SearchSpec SearchProofs CollectionModel CollectionSpec IpModel IpSpec FloatModel FloatSpec PropertiesFloat PropertiesCollection ValueModel ValueSpec ValueProofs.
Local Open Scope Z_scope.

Definition text (s : string) : list Z := List.map (fun c => Z.of_nat (nat_of_ascii c)) (list_ascii_of_string s).

(* C93.  In a range of readable values of one form in increasing order the
   index returned is that of the value the text asks for, and -1 if there is
   none; each item got is released. *)
Theorem value_index_by_name :
  forall atof getString getValue property f content name,
  let first := firstValueIndex property in let last := lastValueIndex property in
  endsAtComma atof -> 0 <= first <= last -> last < 2 ^ 32 - 1 ->
  sortedValues getValue nameOffset getString ssize chars f content first last ->
  (forall c, asks atof NativeToFloat f name c ->
    exists r tr, ValueGetIndexByName atof true getString getValue property name = Some (r, true, tr) /\ paired tr = true /\
    ((first <= r <= last /\ content r = c) \/ (r = -1 /\ forall i, first <= i <= last -> content i <> c))) /\
  (foreign f name ->
    exists tr, ValueGetIndexByName atof true getString getValue property name = Some (-1, true, tr) /\ paired tr = true).
Proof.
  intros atof getString getValue property f content name first last Hcomma Hf Hl (Hread & Hsort). split.
  - intros c Ha. destruct (asks_search atof Hcomma getString getValue property f content name c ltac:(fold first last; lia) Hl (conj Hread Hsort) Ha)
      as (res & tr & E & Hne & C). unfold ValueGetIndexByName. rewrite E.
    destruct C as [(-> & Pa & C)|(Hr & C & tr1 & -> & Pa)].
    + destruct tr as [|[i|i] tr]; [exfalso; specialize (Hne eq_refl); fold first last in Hne; lia| |].
      * cbn in Pa. discriminate.
      * exists (-1), (SRelease i :: tr). auto.
    + destruct (Hread res Hr) as (v & s & Ev & _). rewrite Ev. exists res, (SRelease res :: SGet res :: tr1).
      split; auto. split; [cbn; now rewrite Z.eqb_refl|]. auto.
  - intros Hx. destruct (foreign_search atof getString getValue property f content name ltac:(fold first last; lia) Hl (conj Hread Hsort) Hx)
      as (tr & E & Hne & Pa). unfold ValueGetIndexByName. rewrite E.
    destruct tr as [|[i|i] tr]; [exfalso; specialize (Hne eq_refl); fold first last in Hne; lia|cbn in Pa; discriminate|].
    exists (SRelease i :: tr). auto.
Qed.
Print Assumptions value_index_by_name.

(* C93, the value: it is returned with its item held, all others are released. *)
Theorem value_by_name :
  forall atof getString getValue property f content name,
  let first := firstValueIndex property in let last := lastValueIndex property in
  endsAtComma atof -> 0 <= first <= last + 1 -> last < 2 ^ 32 - 1 ->
  sortedValues getValue nameOffset getString ssize chars f content first last ->
  (forall c, asks atof NativeToFloat f name c ->
    exists o tr, ValueGetByName atof true getString getValue property name = Some (o, true, tr) /\
    match o with
    | Some (i, v) => first <= i <= last /\ content i = c /\ getValue i = (Some v, true) /\ exists tr1, tr = SGet i :: tr1 /\ paired tr1 = true
    | None => paired tr = true /\ forall i, first <= i <= last -> content i <> c
    end) /\
  (foreign f name ->
    exists tr, ValueGetByName atof true getString getValue property name = Some (None, true, tr) /\ paired tr = true).
Proof.
  intros atof getString getValue property f content name first last Hcomma Hf Hl (Hread & Hsort).
  unfold ValueGetByName. fold first.
  destruct (Z.eqb_spec first (2 ^ 32 - 1)) as [E|_].
  { split; intros; [exists None|]; exists []; cbn; repeat split; auto. intros i Hi. lia. }
  split.
  - intros c Ha. destruct (asks_search atof Hcomma getString getValue property f content name c Hf Hl (conj Hread Hsort) Ha)
      as (res & tr & E & Hne & C). rewrite E.
    destruct C as [(-> & Pa & C)|(Hr & C & tr1 & -> & Pa)].
    + exists None, tr. auto.
    + destruct (Hread res Hr) as (v & s & Ev & _). exists (Some (res, v)), (SGet res :: tr1).
      destruct (Z.leb_spec 0 res); [|fold first last in Hr; lia]. cbn [andb itemValue]. rewrite Ev. split; auto. repeat split; eauto; tauto.
  - intros Hx. destruct (foreign_search atof getString getValue property f content name Hf Hl (conj Hread Hsort) Hx) as (tr & E & _ & Pa).
    rewrite E. exists tr. auto.
Qed.
Print Assumptions value_by_name.

(* concrete values: brands, addresses (two of one byte less or more than an IPv4
   address among them) and coordinates; [exAtof] reads whole numbers *)
Definition exAtof (l : list Z) : native := FloatModel.ofInt (digits 10 0 l).
Lemma exAtof_comma : endsAtComma exAtof.
Proof.
  intros a b _. unfold exAtof. f_equal. generalize 0 as acc. induction a as [|x a IH]; intros acc; cbn [digits app].
  - reflexivity.
  - destruct (digitVal x <? 10); auto.
Qed.
Definition exValue (n : Z) (i : Z) : option value * bool :=
  if (0 <=? i) && (i <? n) then (Some (mkValue (10 * i) 0 0), true) else (None, false).
Definition exString (l : list stored) (offset : Z) : option stored * bool := (nth_error l (Z.to_nat (offset / 10)), true).
Definition brands : list stored :=
  [mkStored 6 (text "Apple" ++ [0; 7]); mkStored 8 (text "Samsung" ++ [0]); mkStored 9 (text "Samsungs" ++ [0])].
Definition addresses : list stored :=
  [mkStored 4 [2; 9; 8; 7]; mkStored 5 [2; 9; 8; 7; 6; 0]; mkStored 6 [2; 9; 8; 7; 6; 0]; mkStored 17 (2 :: 254 :: repeat 0 14 ++ [1])].
Definition places : list stored := [mkStored 9 (1 :: littleEndian 1112014848 ++ littleEndian 1065353216)].
Definition brandName (i : Z) : list Z := nth (Z.to_nat i) [text "Apple"; text "Samsung"; text "Samsungs"] [].
Definition addressBytes (i : Z) : list Z := nth (Z.to_nat i) [[9; 8; 7]; [9; 8; 7; 6]; [9; 8; 7; 6; 0]; 254 :: repeat 0 14 ++ [1]] [].
Definition property (first last : Z) : range := mkRange first last.

Lemma upTo2 i : 0 <= i <= 2 -> i = 0 \/ i = 1 \/ i = 2.
Proof. lia. Qed.
Lemma upTo3 i : 0 <= i <= 3 -> i = 0 \/ i = 1 \/ i = 2 \/ i = 3.
Proof. lia. Qed.
Ltac printable := match goal with |- Forall ?P ?l => let l' := eval vm_compute in l in change (Forall P l') end; repeat (apply Forall_cons; [unfold isByte; lia|]); apply Forall_nil.
Example brands_sorted : sortedValues (exValue 3) nameOffset (exString brands) ssize chars Plain brandName 0 2.
Proof.
  split.
  - intros i Hi. apply upTo2 in Hi. destruct Hi as [-> |[-> | ->]]; (do 2 eexists; split; [reflexivity|]; split; [reflexivity|]).
    + apply (storedPlain (text "Apple") [7] 6); [printable|discriminate..].
    + apply (storedPlain (text "Samsung") [] 8); [printable|discriminate..].
    + apply (storedPlain (text "Samsungs") [] 9); [printable|discriminate..].
  - intros i j H1 H2 H3. assert (i = 0 /\ j = 1 \/ i = 0 /\ j = 2 \/ i = 1 /\ j = 2) as [(-> & ->)|[(-> & ->)|(-> & ->)]] by lia; reflexivity.
Qed.
Example addresses_sorted : sortedValues (exValue 4) nameOffset (exString addresses) ssize chars Address addressBytes 0 3.
Proof.
  split.
  - intros i Hi. apply upTo3 in Hi. destruct Hi as [-> |[-> |[-> | ->]]]; (do 2 eexists; split; [reflexivity|]; split; [reflexivity|]).
    + apply (storedAddress [9; 8; 7] []); [cbn; lia|printable].
    + apply (storedAddress [9; 8; 7; 6] [0]); [cbn; lia|printable].
    + apply (storedAddress [9; 8; 7; 6; 0] []); [cbn; lia|printable].
    + apply (storedAddress (254 :: repeat 0 14 ++ [1]) []); [cbn; lia|cbn; printable].
  - intros i j H1 H2 H3.
    assert (i = 0 /\ j = 1 \/ i = 0 /\ j = 2 \/ i = 0 /\ j = 3 \/ i = 1 /\ j = 2 \/ i = 1 /\ j = 3 \/ i = 2 /\ j = 3)
      as [(-> & ->)|[(-> & ->)|[(-> & ->)|[(-> & ->)|[(-> & ->)|(-> & ->)]]]]] by lia; reflexivity.
Qed.
Example places_sorted : sortedValues (exValue 1) nameOffset (exString places) ssize chars Coordinate
  (fun _ => littleEndian 1112014848 ++ littleEndian 1065353216) 0 0.
Proof.
  split.
  - intros i Hi. assert (i = 0) as -> by lia. do 2 eexists. split; [reflexivity|]. split; [reflexivity|].
    apply (storedCoordinate 1112014848 1065353216 [] 9).
  - intros; lia.
Qed.
Example value_by_name_cases :
  ValueGetIndexByName exAtof true (exString brands) (exValue 3) (property 0 2) (text "Samsung") = Some (1, true, [SRelease 1; SGet 1]) /\
  ValueGetIndexByName exAtof true (exString brands) (exValue 3) (property 0 2) (text "Sam") = Some (-1, true, [SRelease 0; SGet 0; SRelease 1; SGet 1]) /\
  asks exAtof NativeToFloat Address (text "9.8.7.6") [9; 8; 7; 6] /\
  ValueGetByName exAtof true (exString addresses) (exValue 4) (property 0 3) (text "9.8.7.6") =
    Some (Some (1, mkValue 10 0 0), true, [SGet 1]) /\
  ValueGetByName exAtof true (exString addresses) (exValue 4) (property 0 3) (text "fe00::1") =
    Some (Some (3, mkValue 30 0 0), true, [SGet 3; SRelease 2; SGet 2; SRelease 1; SGet 1]) /\
  foreign Address (text "none") /\
  asks exAtof NativeToFloat Coordinate (text "50,1") (littleEndian 1112014848 ++ littleEndian 1065353216) /\
  ValueGetByName exAtof true (exString places) (exValue 1) (property 0 0) (text "50,1") = Some (Some (0, mkValue 0 0 0), true, [SGet 0]) /\
  ValueGetByName exAtof true (exString places) (exValue 1) (property 0 0) (text "50,2") = Some (None, true, [SRelease 0; SGet 0]).
Proof.
  split; [reflexivity|]. split; [reflexivity|].
  split; [apply asksAddress with (v4 := true); apply (v4Text 9 8 7 6); unfold isByte; lia|].
  split; [reflexivity|]. split; [reflexivity|].
  split; [constructor; cbn; intuition discriminate|].
  split; [apply (asksCoordinate exAtof NativeToFloat (text "50") (text "1")); cbn; intuition discriminate|].
  split; reflexivity.
Qed.

(* C93 refuted.  A property without values releases an item that was never set
   (ValueGetIndexByName only). *)
Theorem value_index_no_values_refuted :
  forall atof memory getString getValue property name,
  0 <= lastValueIndex property < firstValueIndex property ->
  ValueGetIndexByName atof memory getString getValue property name = None /\
  (firstValueIndex property < 2 ^ 32 -> ValueGetByName atof memory getString getValue property name = Some (None, true, [])).
Proof.
  intros atof memory getString getValue property name H.
  assert (E : searchValues atof memory getString getValue property name = Some (-1, true, [])).
  { unfold searchValues, BinarySearch. rewrite search_empty by lia. reflexivity. }
  unfold ValueGetIndexByName, ValueGetByName. rewrite E. split; auto. intros _. destruct (_ =? _); reflexivity.
Qed.
Print Assumptions value_index_no_values_refuted.
Example value_index_no_values_case : 0 <= lastValueIndex (property 1 0) < firstValueIndex (property 1 0) /\ firstValueIndex (property 1 0) < 2 ^ 32.
Proof. cbn. lia. Qed.

(* C93 refuted.  When there is no memory for the address asked for, each address
   is taken for it; a text with fewer numbers than an address is compared by
   bytes that were not set, one with more writes past the memory of an address;
   a size of 0 compares -1 bytes. *)
Theorem value_address_refuted :
  ValueGetIndexByName exAtof false (exString addresses) (exValue 4) (property 0 3) (text "1.1.1.1") = Some (1, true, [SRelease 1; SGet 1]) /\
  ValueGetIndexByName exAtof true (exString addresses) (exValue 4) (property 0 3) (text "9.8.7") = None /\
  ValueGetIndexByName exAtof true (exString addresses) (exValue 4) (property 0 3) (text "9.8.7.6.5") = None /\
  ValueGetIndexByName exAtof true (exString [mkStored 0 [2; 1; 1; 1; 1]]) (exValue 1) (property 0 0) (text "1.1.1.1") = None.
Proof. repeat split; reflexivity. Qed.
Print Assumptions value_address_refuted.

(* C93 refuted.  A get that gives NULL without an exception (a full cache) ends
   the search with 0: the first index whatever the name, and the value of the
   item that was looked at before. *)
Theorem value_unread_refuted :
  let unread i := if i =? 2 then (None, true) else exValue 3 i in
  ValueGetIndexByName exAtof true (exString brands) unread (property 1 2) (text "Samsungs") = Some (0, true, [SGet 2; SRelease 1; SGet 1]) /\
  ValueGetByName exAtof true (exString brands) unread (property 1 2) (text "Samsungs") =
    Some (Some (1, mkValue 10 0 0), true, [SGet 2; SRelease 1; SGet 1]) /\
  brandName 1 = text "Samsung".
Proof. repeat split; reflexivity. Qed.
Print Assumptions value_unread_refuted.

(* C93, failures: with an exception there is no value, and the index is 0. *)
Theorem value_exception :
  forall atof memory getString getValue property name,
  (forall o tr, ValueGetByName atof memory getString getValue property name = Some (o, false, tr) -> o = None) /\
  (forall r tr, ValueGetIndexByName atof memory getString getValue property name = Some (r, false, tr) -> r = 0).
Proof.
  intros atof memory getString getValue p name. split; [apply byName_failed|apply indexByName_failed].
Qed.
Print Assumptions value_exception.
Example value_exception_case :
  ValueGetByName exAtof true (exString brands) (exValue 2) (property 0 2) (text "T") = Some (None, false, [SGet 2; SRelease 1; SGet 1]) /\
  ValueGetIndexByName exAtof true (exString brands) (exValue 2) (property 0 2) (text "T") = Some (0, false, [SGet 2; SRelease 1; SGet 1]).
Proof. split; reflexivity. Qed.

(* C94.  A string in a file is read with its two size bytes, whatever is around
   it. *)
Theorem string_read_whole : forall before size0 size1 body after start offset ci,
  isByte size0 -> isByte size1 -> size0 + 256 * size1 = Z.of_nat (List.length body) -> size1 < 128 ->
  List.length before = (start + Z.to_nat offset)%nat -> 0 <= offset < csize ci ->
  StringRead (before ++ size0 :: size1 :: body ++ after) start ci IoOk offset = Some (ROk (size0 :: size1 :: body)).
Proof. exact read_whole. Qed.
Print Assumptions string_read_whole.
Example string_read_whole_case :
  StringRead ([5; 5; 5] ++ 3 :: 0 :: text "ab" ++ [0; 9; 9]) 1 (mkC 0 0 20) IoOk 2 = Some (ROk (3 :: 0 :: text "ab" ++ [0])).
Proof. reflexivity. Qed.

(* C94.  Strings one after the other are the items of a variable size
   collection as the theorems on collections (C12 to C14) take them. *)
Theorem strings_are_items : forall bodies, Forall (fun b => Z.of_nat (List.length b) < 2 ^ 15) bodies ->
  itemsOK (VarSize 2 getFinalStringSize)
    (List.map (fun b => (Z.of_nat (List.length b) mod 256) :: (Z.of_nat (List.length b) / 256) :: b) bodies).
Proof. exact strings_items. Qed.
Print Assumptions strings_are_items.
Example strings_are_items_case :
  List.map (fun b => (Z.of_nat (List.length b) mod 256) :: (Z.of_nat (List.length b) / 256) :: b) [text "ab"; []] = [[2; 0; 97; 98]; [0; 0]] /\
  getFinalStringSize [2; 0] = 4.
Proof. split; reflexivity. Qed.

(* C94 refuted.  A size of -1 or -2 gives a block smaller than the two bytes
   copied to it. *)
Theorem string_negative_size_refuted : forall before size0 after start offset ci, size0 = 255 \/ size0 = 254 ->
  List.length before = (start + Z.to_nat offset)%nat -> 0 <= offset < csize ci ->
  StringRead (before ++ size0 :: 255 :: after) start ci IoOk offset = None.
Proof. exact read_negative. Qed.
Print Assumptions string_negative_size_refuted.
Example string_negative_size_case : StringRead [7; 7; 255; 255; 1; 1; 1; 1] 1 (mkC 0 0 7) IoOk 1 = None.
Proof. reflexivity. Qed.

(* C95.  Numbers stored as the coordinate of a string are given back (those that
   keep their value in the portable form, see C31); other strings give an
   exception and zeros. *)
Theorem coordinate_read : forall x y more size,
  isFloat x -> isFloat y -> x <> S754_infinity true -> y <> S754_infinity true ->
  (forall s m e, x = S754_finite s m e -> 2 ^ 22 <= Z.pos m) -> (forall s m e, y = S754_finite s m e -> 2 ^ 22 <= Z.pos m) ->
  exists x' y', IpiGetCoordinate (mkStored size (1 :: littleEndian (NativeToFloat x) ++ littleEndian (NativeToFloat y) ++ more)) = Some (x', y', true) /\
  sameValue x' x /\ sameValue y' y.
Proof.
  intros x y more size Hx Hy Nx Ny Mx My. exists (FloatToNative (NativeToFloat x)), (FloatToNative (NativeToFloat y)).
  split; [|split; apply float_encode_decode; auto].
  unfold IpiGetCoordinate. cbn [chars]. change (1 =? COORDINATE) with true. cbn iota.
  replace (_ <? 8)%nat with false.
  2:{ symmetry. apply Nat.ltb_ge. rewrite !app_length. cbn [List.length littleEndian]. lia. }
  change (firstn 4 (littleEndian (NativeToFloat x) ++ littleEndian (NativeToFloat y) ++ more)) with (littleEndian (NativeToFloat x)).
  change (firstn 4 (skipn 4 (littleEndian (NativeToFloat x) ++ littleEndian (NativeToFloat y) ++ more))) with (littleEndian (NativeToFloat y)).
  now rewrite !float_bytes by apply native_word.
Qed.
Print Assumptions coordinate_read.
Theorem coordinate_other : forall c l size, c <> 1 -> IpiGetCoordinate (mkStored size (c :: l)) = Some (S754_zero false, S754_zero false, false).
Proof. intros c l size H. unfold IpiGetCoordinate, COORDINATE. cbn [chars]. destruct (Z.eqb_spec c 1); [lia|reflexivity]. Qed.
Print Assumptions coordinate_other.
Example coordinate_read_case :
  IpiGetCoordinate (nth 0 places (mkStored 0 [])) = Some (ofInt 50, ofInt 1, true) /\ isFloat (ofInt 50) /\
  IpiGetCoordinate (nth 0 brands (mkStored 0 [])) = Some (S754_zero false, S754_zero false, false).
Proof. repeat split; reflexivity. Qed.
(* C95 refuted: the size is not tested. *)
Theorem coordinate_size_refuted : IpiGetCoordinate (mkStored 5 (1 :: littleEndian 1112014848)) = None.
Proof. reflexivity. Qed.
Print Assumptions coordinate_size_refuted.
