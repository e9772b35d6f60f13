(* C29, C30: text comparison and search (string.c) *)
From Verif Require Import StringModel StringSpec StringProofs.
From Coq Require Import Ascii String.
Open Scope string_scope.
Definition text (s : string) : list Z := map (fun c => Z.of_nat (nat_of_ascii c)) (list_ascii_of_string s).
Close Scope string_scope.

(* C29.  For all characters, also those outside ASCII. *)
Theorem string_compare_is_order : forall a b c,
  (StringCompare a b = 0%Z <-> sameText a b) /\
  (StringCompare a b < 0 <-> 0 < StringCompare b a)%Z /\
  (StringCompare a b <= 0 -> StringCompare b c <= 0 -> StringCompare a c <= 0)%Z /\
  (StringCompare a b < 0 -> StringCompare b c <= 0 -> StringCompare a c < 0)%Z.
Proof.
  intros a b c. split; [apply compare_zero|]. split; [rewrite (compare_opp a b); lia|].
  split; [apply compare_trans|]. intros H1 H2.
  assert (H3 := compare_trans a b c). assert (H4 := compare_trans b c a).
  rewrite (compare_opp a b), (compare_opp a c) in H4. lia.
Qed.
Print Assumptions string_compare_is_order.
Example string_compare_example :
  StringCompare (text "User-Agent") (text "user-agent") = 0%Z /\
  (StringCompare (text "Accept") (text "accept-language") < 0)%Z /\
  (0 < StringCompare (text "x") (text "Accept"))%Z.
Proof. repeat split. Qed.

(* C29 for the comparison by length, when one of the texts has that many
   characters: memory is read up to the terminators only and the result is zero
   exactly if the other text starts with the same characters. *)
Theorem string_compare_length_spec : forall n a b,
  Forall (fun c => c <> 0%Z) a -> Forall (fun c => c <> 0%Z) b -> n <= List.length a ->
  exists d, StringCompareLength n (cstr a) (cstr b) = Some d /\
    StringCompareLength n (cstr b) (cstr a) = Some (- d)%Z /\
    (d = 0%Z <-> exists b1 b2, b = b1 ++ b2 /\ sameText (firstn n a) b1).
Proof.
  intros n a b Ha Hb Hn. destruct (compareLength_text n a b Ha Hb Hn) as (d & H1 & H2).
  exists d. split; [exact H1|]. split; [|exact H2]. rewrite compareLength_opp, H1. reflexivity.
Qed.
Print Assumptions string_compare_length_spec.
Example string_compare_length_example :
  Forall (fun c => c <> 0%Z) (text "HTTP_Host") /\ 5 <= List.length (text "HTTP_Host") /\
  StringCompareLength 5 (cstr (text "HTTP_Host")) (cstr (text "http_x")) = Some 0%Z /\
  StringCompareLength 5 (cstr (text "HTTP_Host")) (cstr (text "htt")) = Some 112%Z.
Proof. repeat split; cbn; try lia. repeat constructor; discriminate. Qed.

(* Without that the loop runs over both terminators. *)
Theorem string_compare_length_overread_refuted :
  exists a b n, Forall (fun c => c <> 0%Z) a /\ Forall (fun c => c <> 0%Z) b /\
    StringCompareLength n (cstr a) (cstr b) = None.
Proof. exists (text "a"), (text "A"), 3. split; [|split; [|reflexivity]]; repeat constructor; discriminate. Qed.
Print Assumptions string_compare_length_overread_refuted.

(* C30 refuted: an end of the text that begins like the text searched counts as
   an occurrence; an empty text is never found. *)
Theorem string_substring_refuted :
  (exists a b p, StringSubString a b = Some p /\ forall q, ~ occursAt a b q) /\
  (exists a b, StringSubString a b = None /\ occursAt a b 0).
Proof.
  split.
  - exists (text "xab"), (text "abc"), 1. split; [reflexivity|].
    intros q (b1 & m & af & H1 & H2 & H3). pose proof (same_length _ _ H3) as L. change (List.length (text "abc")) with 3 in L.
    assert (M : b1 = [] /\ af = []).
    { assert (List.length (text "xab") = List.length b1 + List.length m + List.length af) by (rewrite H1, !app_length; lia).
      change (List.length (text "xab")) with 3 in H. split; apply length_zero_iff_nil; lia. }
    destruct M as (-> & ->). rewrite app_nil_r in H1. cbn in H1. subst m. inversion H3 as [|? ? ? ? H4 H5].
    unfold sameLetter, upperLower in H4. lia.
  - exists (text "a"), []. split; [reflexivity|]. exists [], [], (text "a"). repeat split. constructor.
Qed.
Print Assumptions string_substring_refuted.

(* C30, what does hold: for a non empty text b the position is the first one at
   which b occurs or the text ends inside b; so if the text nowhere ends inside
   b the result is exactly the first occurrence. *)
Theorem string_substring_spec : forall a b, b <> [] ->
  match StringSubString a b with
  | Some p => (occursAt a b p \/ endsInside a b p) /\ forall q, q < p -> ~ occursAt a b q /\ ~ endsInside a b q
  | None => forall q, ~ occursAt a b q /\ ~ endsInside a b q
  end.
Proof.
  intros a b Hb. pose proof (sub_spec a b Hb) as H. unfold hit in H. destruct (StringSubString a b) as [p|].
  - destruct H as (H1 & H2). split; [exact H1|]. intros q Hq. specialize (H2 q Hq). tauto.
  - intros q. specialize (H q). tauto.
Qed.
Print Assumptions string_substring_spec.
Theorem string_substring_exact : forall a b, b <> [] -> (forall q, ~ endsInside a b q) ->
  match StringSubString a b with
  | Some p => occursAt a b p /\ forall q, q < p -> ~ occursAt a b q
  | None => forall q, ~ occursAt a b q
  end.
Proof.
  intros a b Hb He. pose proof (string_substring_spec a b Hb) as H. destruct (StringSubString a b) as [p|].
  - destruct H as (H1 & H2). split; [destruct H1 as [H1|H1]; [exact H1|destruct (He p H1)]|]. intros q Hq. apply (H2 q Hq).
  - intros q. apply (H q).
Qed.
Print Assumptions string_substring_exact.
Example string_substring_example :
  StringSubString (text "xSETHeaderY") (text "SetHeader") = Some 1 /\
  StringSubString (text "aab ") (text "ab") = Some 1 /\ (forall q, ~ endsInside (text "aab ") (text "ab") q).
Proof.
  repeat split.
  intros q (b1 & e & c1 & c2 & H1 & H2 & H3 & H4 & H5 & H6).
  pose proof (same_length _ _ H6) as L.
  assert (L1 : List.length c1 = 1).
  { assert (List.length (text "ab") = List.length c1 + List.length c2) by (rewrite H3, app_length; lia).
    change (List.length (text "ab")) with 2 in H. destruct e; [congruence|]. destruct c2; [congruence|]. cbn in *; lia. }
  destruct c1 as [|c [|? ?]]; try discriminate L1. destruct e as [|x [|? ?]]; try discriminate L.
  change (text "aab ") with ([97; 97; 98] ++ [32])%Z in H1. apply app_inj_tail in H1. destruct H1 as (_ & <-).
  change (text "ab") with [97; 98]%Z in H3. injection H3 as <- _.
  inversion H6 as [|? ? ? ? S]. unfold sameLetter, upperLower in S. lia.
Qed.
