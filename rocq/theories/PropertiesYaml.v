(* C48, C49: yamlfile.c *)
From Coq Require Import String Ascii.
From Verif Require Import TextFileProofs YamlProofs.
Open Scope list_scope.

(* not negative is a limit on the documents *)
Definition documentsUpTo (limit : Z) (docs : list document) : list document := firstn (Z.to_nat (if Z.ltb limit 0 then 2 ^ 31 - 1 else limit)%Z) docs.

Lemma linesOf_shape text ls : linesOf text ls -> Forall (fun l => l <> [] /\ Forall (fun c => ~ eol c) l) ls.
Proof. induction 1; auto. Qed.

(* the documents with pairs are delivered in order with their keys and values; the
   length of the buffer does not matter *)
Theorem yaml_documents : forall buffer pairs limit docs text, 0 < buffer -> pairs <> [] -> (forall b, In b pairs -> 0 < length (fst b)) ->
  yamlText docs text -> Forall (Forall pairOk) docs -> Forall (documentFits pairs) docs -> limit <> 0%Z ->
  exists calls, YamlFileIterateWithLimit buffer pairs limit text = Some calls /\ Forall2 shows calls (documentsUpTo limit (nonEmptyDocs docs)).
Proof.
  intros buffer pairs limit docs text B NP HM (N0 & Hf & tail & Hl & Ht) Hok Hfit Hlim. destruct pairs as [|(kb, vb) M]; [congruence|]. set (P := (kb, vb) :: M) in *.
  unfold YamlFileIterateWithLimit. rewrite (setCurrent_at P 0 0 0 false 0 0 false (kb, vb) eq_refl eq_refl). cbn [fst].
  rewrite loop_result by (cbn [bufferLength ahead file app]; lia). cbn [ahead file app].
  destruct text as [|c text]; [congruence|]. rewrite (result_first _ _ _ 0 1 _ _ c text (Hf c text eq_refl)). rewrite (result_lines _ _ _ _ Hl) by reflexivity.
  set (lim := if Z.ltb limit 0 then INT_MAX else limit).
  assert (Hpos : (0 < lim)%Z) by (unfold lim, INT_MAX; destruct (Z.ltb_spec limit 0); lia).
  destruct (docs_run (Z.of_nat (length P)) lim tail Ht docs [] P 0%Z [] (mkState lineStart (mkPair P 0 0 false 0 (Z.of_nat (length kb) - 1)) 0 [])) as (new & R & F); auto.
  - exists kb, vb. split; reflexivity.
  - constructor.
  - split; [cbn; lia|]. split; [cbn; lia|]. intros [|i] p b X; discriminate X.
  - exists new. split; [exact R|]. rewrite Z.sub_0_r in F. exact F.
Qed.
Print Assumptions yaml_documents.
(* reading without a limit gives every document *)
Theorem yaml_all_documents : forall buffer pairs docs text, 0 < buffer -> pairs <> [] -> (forall b, In b pairs -> 0 < length (fst b)) ->
  yamlText docs text -> Forall (Forall pairOk) docs -> Forall (documentFits pairs) docs -> (Z.of_nat (length docs) < 2 ^ 31)%Z ->
  exists calls, YamlFileIterate buffer pairs text = Some calls /\ Forall2 shows calls (nonEmptyDocs docs).
Proof.
  intros buffer pairs docs text B NP HM Ht Hok Hfit Hn. destruct (yaml_documents buffer pairs (-1)%Z docs text B NP HM Ht Hok Hfit ltac:(discriminate)) as (calls & E & F).
  exists calls. split; [exact E|]. unfold documentsUpTo in F. rewrite firstn_all2 in F; [exact F|].
  assert (L : length (nonEmptyDocs docs) <= length docs) by (clear; unfold nonEmptyDocs, document in *; induction docs as [|d docs IH]; cbn [filter]; [lia|]; destruct d; cbn [length]; lia). change (if Z.ltb (-1) 0 then (2 ^ 31 - 1)%Z else (-1)%Z) with (2 ^ 31 - 1)%Z. unfold document in *. lia.
Qed.
Print Assumptions yaml_all_documents.
(* every buffer gives the same *)
Theorem yaml_buffer_length : forall buffer1 buffer2 pairs limit text, 0 < buffer1 -> 0 < buffer2 ->
  YamlFileIterateWithLimit buffer1 pairs limit text = YamlFileIterateWithLimit buffer2 pairs limit text.
Proof.
  intros b1 b2 pairs limit text B1 B2. unfold YamlFileIterateWithLimit. destruct (setCurrent false (mkPair pairs 0 0 false 0 0)); [|reflexivity].
  rewrite !loop_result by (cbn [bufferLength ahead file app]; lia). reflexivity.
Qed.
Print Assumptions yaml_buffer_length.

Fixpoint chars (s : string) : list Z := match s with EmptyString => [] | String c r => Z.of_nat (nat_of_ascii c) :: chars r end.
Definition lf : string := String "010"%char EmptyString.
Definition buf (n : nat) : list Z := repeat 88%Z n.
Definition somePairs (n : nat) : Pairs := repeat (buf 6, buf 8) n.
(* two documents, an empty one and one more, read with a buffer of two *)
Definition someDocs : list document := [[(chars "ab", Plain (chars "x:y")); (chars "k", Quoted (chars "it's"))]; []; [(chars "c", Plain [])]; [(chars "", Quoted (chars "-"))]].
Definition someText : list Z := chars ("---" ++ lf ++ "ab: x:y" ++ lf ++ lf ++ "k: 'it's'" ++ lf ++ "---" ++ lf ++ "---" ++ lf ++ "c: " ++ lf ++ "---" ++ lf ++ ": '-'" ++ lf ++ "... rest" ++ lf ++ "z: z")%string.
Example yaml_documents_meets :
  yamlText someDocs someText /\ Forall (Forall pairOk) someDocs /\ Forall (documentFits (somePairs 3)) someDocs /\
  (exists calls, YamlFileIterateWithLimit 2 (somePairs 3) (-1) someText = Some calls /\
    map (map (fun b => (cstring (fst b), cstring (snd b)))) calls =
      [[(Some (chars "ab"), Some (chars "x:y")); (Some (chars "k"), Some (chars "it's"))]; [(Some (chars "c"), Some [])]; [(Some [], Some (chars "-"))]]) /\
  (exists calls, YamlFileIterateWithLimit 2 (somePairs 3) 2 someText = Some calls /\ List.length calls = 2).
Proof.
  split; [|split; [|split; [|split]]].
  - split; [discriminate|]. split; [intros c r E; injection E as <- _; intros [X|X]; discriminate X|].
    exists [chars "... rest"; chars "z: z"]. split; [|right; now exists (chars " rest"), [chars "z: z"]].
    assert (L : forall a c t l, a <> [] -> forallb (fun c => negb (isEol c)) a = true -> isEol c = true -> linesOf t l -> linesOf (a ++ c :: t) (a :: l)).
    { intros a c t l N F E H. apply lines_more; auto; [|now apply isEol_iff]. apply Forall_forall. intros x I. rewrite forallb_forall in F. apply F in I. apply isEol_false. now apply negb_true_iff in I. }
    apply (L (chars "---") 10%Z); [discriminate|reflexivity|reflexivity|]. apply (L (chars "ab: x:y") 10%Z); [discriminate|reflexivity|reflexivity|]. apply lines_eol; [now right|].
    apply (L (chars "k: 'it's'") 10%Z); [discriminate|reflexivity|reflexivity|]. apply (L (chars "---") 10%Z); [discriminate|reflexivity|reflexivity|]. apply (L (chars "---") 10%Z); [discriminate|reflexivity|reflexivity|].
    apply (L (chars "c: ") 10%Z); [discriminate|reflexivity|reflexivity|]. apply (L (chars "---") 10%Z); [discriminate|reflexivity|reflexivity|]. apply (L (chars ": '-'") 10%Z); [discriminate|reflexivity|reflexivity|].
    apply (L (chars "... rest") 10%Z); [discriminate|reflexivity|reflexivity|]. apply lines_last; [discriminate|]. repeat constructor; intros [X|X]; discriminate X.
  - assert (LC : forall l, forallb (fun c => negb (Z.eqb c 0) && negb (isEol c)) l = true -> lineChars l).
    { intros l F. apply Forall_forall. intros x I. rewrite forallb_forall in F. apply F in I. apply andb_true_iff in I. destruct I as (I1 & I2). split; [now apply Z.eqb_neq, negb_true_iff|]. apply isEol_false. now apply negb_true_iff. }
    repeat (apply Forall_cons || apply Forall_nil); (split; [split; [now apply LC|]; split; [cbn; intuition discriminate|intros c r E; injection E as <- _ || discriminate E; split; discriminate]|split; [now apply LC|]]); try exact I; intros c r E; (injection E as <- _ || discriminate E); discriminate.
  - repeat (apply Forall_cons || apply Forall_nil); (split; [cbn; lia|split; [cbn; lia|]]); intros i p b Hp Hb;
      (assert (L : List.length (fst b) = 6 /\ List.length (snd b) = 8) by (apply nth_error_In in Hb; apply repeat_spec in Hb; subst b; split; reflexivity)); destruct L as (L1 & L2); rewrite L1, L2;
      destruct i as [|[|[|i]]]; try discriminate Hp; injection Hp as <-; cbn; lia.
  - vm_compute. eexists. split; reflexivity.
  - vm_compute. eexists. split; reflexivity.
Qed.

(* a limit of zero still gives a document *)
Theorem yaml_limit_zero_refuted : exists pairs text calls, YamlFileIterateWithLimit 10 pairs 0 text = Some calls /\ List.length calls = 1.
Proof. exists (somePairs 3), (chars ("---" ++ lf ++ "a: b")%string). vm_compute. eexists. split; reflexivity. Qed.
Print Assumptions yaml_limit_zero_refuted.
(* a document of as many pairs as there are buffers uses a pair after the last *)
Theorem yaml_full_document_refuted : exists pairs docs text, yamlText docs text /\ Forall (fun d => List.length d <= List.length pairs) docs /\
  YamlFileIterateWithLimit 10 pairs (-1) text = None.
Proof.
  exists (somePairs 1), [[(chars "a", Plain (chars "b"))]], (chars ("---" ++ lf ++ "a: b")%string). split; [|split].
  - split; [discriminate|]. split; [intros c r E; injection E as <- _; intros [X|X]; discriminate X|]. exists []. split; [|now left].
    apply (lines_more (chars "---") 10%Z (chars "a: b")); [discriminate| |now right|]; [repeat constructor; intros [X|X]; discriminate X|].
    apply lines_last; [discriminate|]. repeat constructor; intros [X|X]; discriminate X.
  - repeat constructor.
  - vm_compute. reflexivity.
Qed.
Print Assumptions yaml_full_document_refuted.
(* an empty file and a file that begins with an empty line give a pair that is not in
   the file *)
Theorem yaml_empty_refuted : exists calls1 calls2, YamlFileIterate 10 (somePairs 3) [] = Some calls1 /\ map (@List.length _) calls1 = [1] /\
  YamlFileIterate 10 (somePairs 3) (chars (lf ++ "a: b")%string) = Some calls2 /\ map (@List.length _) calls2 = [2].
Proof. vm_compute. do 2 eexists. repeat split; reflexivity. Qed.
Print Assumptions yaml_empty_refuted.

(* no content is written or read outside the buffers if there are fewer lines than
   pairs between the lines that begin with ---, no colon on those, and no value that
   is just a quote *)
Theorem yaml_safe : forall buffer pairs limit text lines, 0 < buffer -> (forall b, In b pairs -> 0 < List.length (fst b) /\ 1 < List.length (snd b)) ->
  linesOf text lines -> emptyStart text < List.length pairs -> smallDocuments (List.length pairs) (emptyStart text) lines ->
  YamlFileIterateWithLimit buffer pairs limit text <> None.
Proof.
  intros buffer pairs limit text lines B R Hl Hs Hd. destruct pairs as [|(kb, vb) M]; [cbn in Hs; lia|]. set (P := (kb, vb) :: M) in *.
  assert (Lk : 0 < List.length kb) by (apply (R (kb, vb)); now left).
  unfold YamlFileIterateWithLimit. rewrite (setCurrent_at P 0 0 0 false 0 0 false (kb, vb) eq_refl eq_refl). cbn [fst].
  rewrite loop_result by (cbn [bufferLength ahead file app]; lia). cbn [ahead file app]. set (lim := if Z.ltb limit 0 then INT_MAX else limit).
  (* an end of line at the beginning *)
  assert (NP : 1 < List.length P -> exists M', removeQuote (mkPair P 0 0 false 0 (Z.of_nat (List.length kb) - 1)) (mkFile 0 0 0 0 0 0) = Some (mkPair P 0 0 false 0 (Z.of_nat (List.length kb) - 1)) /\
    exists kb' vb', nth_error M' 1 = Some (kb', vb') /\ sizesOf M' = sizesOf P /\
      nextPair (mkPair P 0 0 false 0 (Z.of_nat (List.length kb) - 1)) = Some (mkPair M' 1 1 false 0 (Z.of_nat (List.length kb') - 1))).
  { intros L1. destruct (store_in P 0 0 false 0 (Z.of_nat (List.length kb) - 1) 0 kb vb eq_refl Lk) as (M' & kb1 & vb1 & E1 & ES & _). exists M'. split; [reflexivity|].
    destruct (nth_error M' 1) as [(kb', vb')|] eqn:E2; [|apply nth_error_None in E2; rewrite (sizesOf_len _ _ ES) in E2; lia].
    exists kb', vb'. split; [reflexivity|]. split; [exact ES|]. unfold nextPair. rewrite E1. cbn [pairs index currentPair inValue offset end_]. rewrite toInt16_small by lia.
    change (0 + 1)%Z with 1%Z. now rewrite (setCurrent_at M' 1 1 0 false 0 (Z.of_nat (List.length kb) - 1) false (kb', vb') E2 eq_refl). }
  destruct text as [|c text].
  - cbn [emptyStart] in Hs. destruct (NP Hs) as (M' & E1 & kb' & vb' & _ & _ & E2). unfold result. cbn [feed]. unfold step. cbn [fileState pairState newLineCount Nat.eqb].
    rewrite E1, E2. discriminate.
  - cbn [emptyStart] in Hs, Hd. destruct (Z.eqb c 10 || Z.eqb c 13) eqn:Ec.
    + assert (Ee : eol c) by (apply orb_true_iff in Ec; destruct Ec as [X|X]; apply Z.eqb_eq in X; [now right|now left]).
      destruct (NP Hs) as (M' & E1 & kb' & vb' & Hn & ES & E2).
      assert (Hl2 : linesOf text lines).
      { inversion Hl; subst; auto; exfalso.
        - rewrite Forall_cons_iff in *. tauto.
        - destruct line as [|c1 line]; [congruence|]. match goal with E : (c1 :: line) ++ _ = _ |- _ => injection E as -> _ end. rewrite Forall_cons_iff in *. tauto. }
      assert (E3 : result (Z.of_nat (List.length P)) lim (mkState (mkFile 0 0 0 0 0 0) (mkPair P 0 0 false 0 (Z.of_nat (List.length kb) - 1)) 0 []) (c :: text) =
        result (Z.of_nat (List.length P)) lim (mkState lineStart (mkPair M' 1 1 false 0 (Z.of_nat (List.length kb') - 1)) 0 []) text).
      { unfold result. cbn [feed]. rewrite (step_eol _ _ _ _ Ee). unfold step at 1. cbn [fileState pairState newLineCount count calls isEol Z.eqb Pos.eqb orb Nat.eqb]. rewrite E1, E2. reflexivity. }
      rewrite E3. rewrite (result_lines _ _ _ _ Hl2) by reflexivity.
      apply (lines_safe lim (List.length P) 1 lines Hd (linesOf_shape _ _ Hl2) M' 0%Z []); [|exists kb', vb'; now split|symmetry; exact (sizesOf_len _ _ ES)].
      eapply roomy_sizes; [symmetry; exact ES|exact R].
    + assert (Ee : ~ eol c) by (apply orb_false_iff in Ec; destruct Ec as (X & Y); apply Z.eqb_neq in X, Y; intros [Z1|Z1]; contradiction).
      rewrite (result_first _ _ _ 0 1 _ _ c text Ee). rewrite (result_lines _ _ _ _ Hl) by reflexivity.
      apply (lines_safe lim (List.length P) 0 lines Hd (linesOf_shape _ _ Hl) P 0%Z []); [exact R|exists kb, vb; now split|reflexivity].
Qed.
Print Assumptions yaml_safe.
(* too long keys and values, no colon, quotes, dots and dashes *)
Example yaml_safe_meets : let text := chars (lf ++ "- no pair 'here'" ++ lf ++ "--- some 'document'" ++ lf ++ "long key: long value that is cut:'" ++ lf ++ "--:'x'" ++ lf ++ ".. k:" ++ lf ++ "----" ++ lf ++ "a: 'b")%string in
  (exists lines, linesOf text lines /\ smallDocuments 4 1 lines) /\ emptyStart text = 1 /\ YamlFileIterateWithLimit 3 (somePairs 4) (-1) text <> None.
Proof.
  split; [|split; [reflexivity|vm_compute; discriminate]].
  exists (map chars ["- no pair 'here'"; "--- some 'document'"; "long key: long value that is cut:'"; "--:'x'"; ".. k:"; "----"; "a: 'b"]%string). split.
  - apply lines_eol; [now right|]. assert (L : forall a c t l, a <> [] -> forallb (fun c => negb (isEol c)) a = true -> isEol c = true -> linesOf t l -> linesOf (a ++ c :: t) (a :: l)).
    { intros a c t l N F E H. apply lines_more; auto; [|now apply isEol_iff]. apply Forall_forall. intros x I. rewrite forallb_forall in F. apply F in I. apply isEol_false. now apply negb_true_iff in I. }
    cbn [map]. do 6 (match goal with |- linesOf _ (?a :: _) => apply (L a 10%Z); [discriminate|reflexivity|reflexivity|] end). apply lines_last; [discriminate|]. repeat constructor; intros [X|X]; discriminate X.
  - cbn [map]. assert (Q : forall l, (forall a b, l <> a ++ [b; 39%Z]) -> ~ loneQuote l) by (intros l H (k & c & -> & _); apply (H (k ++ [58%Z]) c); rewrite <- app_assoc; reflexivity).
    assert (Q2 : forall l, match rev l with 39%Z :: _ => False | _ => True end -> ~ loneQuote l).
    { intros l H (k & c & -> & _). rewrite rev_app_distr in H. exact H. }
    assert (Q3 : forall k r, ~ In 58%Z k -> List.length r <> 2 -> ~ loneQuote (k ++ 58%Z :: r)).
    { intros k r N L (k2 & c & E & N2). destruct (first_colon _ _ _ _ E N N2) as (_ & ->). now apply L. }
    assert (N58 : forall l, forallb (fun c => negb (Z.eqb c 58)) l = true -> ~ In 58%Z l) by (intros l F I; rewrite forallb_forall in F; apply F in I; discriminate I).
    apply s_line; [reflexivity| |lia|lia|]; [intros (k & c & E & _); assert (X : In 58%Z (chars "- no pair 'here'")) by (rewrite E; apply in_or_app; right; now left); revert X; apply N58; reflexivity|].
    apply s_dashes; [reflexivity|now apply N58|]. apply s_line; [reflexivity| |lia|lia|]; [apply (Q3 (chars "long key") (chars " long value that is cut:'")); [now apply N58|discriminate]|].
    apply s_line; [reflexivity| |lia|lia|]; [apply (Q3 (chars "--") (chars "'x'")); [now apply N58|discriminate]|].
    apply s_line; [reflexivity| |lia|lia|]; [apply Q2; exact I|].
    apply s_dashes; [reflexivity|now apply N58|].
    apply s_line; [reflexivity| |lia|lia|apply s_nil].
    apply Q2. exact I.
Qed.
(* a colon after ---, a value that is a quote, too many lines *)
Theorem yaml_outside_refuted : exists pairs, (forall b, In b pairs -> 0 < List.length (fst b) /\ 1 < List.length (snd b)) /\ List.length pairs = 3 /\
  YamlFileIterate 10 pairs (chars "---:") = None /\ YamlFileIterate 10 pairs (chars "k: '") = None /\ YamlFileIterate 10 pairs (chars ("a" ++ lf ++ "b" ++ lf ++ "c" ++ lf)%string) = None.
Proof.
  exists (somePairs 3). split; [intros b I; apply repeat_spec in I; subst b; cbn; lia|]. vm_compute. repeat split.
Qed.
Print Assumptions yaml_outside_refuted.
