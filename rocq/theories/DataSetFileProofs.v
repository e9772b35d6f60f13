(* Helper lemmas for the files of data sets *)
From Verif Require Export DataSetFileSpec FileTempProofs PropertiesFileTemp.
From Coq Require Import Lia.

Lemma string_holds : forall buf s, stringIn buf = Some s <-> holds buf s.
Proof.
  induction buf as [|c buf IH]; intros s; cbn [stringIn].
  - split; [discriminate|]. intros (_ & rest & E). destruct s; discriminate E.
  - destruct (Z.eqb_spec c 0) as [->|N].
    + split; [intros E; injection E as <-; split; [intros []|exists buf; reflexivity]|]. intros (I & rest & E). destruct s as [|x s]; [reflexivity|]. injection E as <- _. exfalso. apply I. now left.
    + split.
      * destruct (stringIn buf) as [t|]; [|discriminate]. intros E. injection E as <-. destruct (proj1 (IH t) eq_refl) as (I & rest & ->). split; [intros [Q|Q]; [congruence|contradiction]|exists rest; reflexivity].
      * intros (I & rest & E). destruct s as [|x s]; [injection E as -> _; congruence|]. injection E as <- ->. rewrite (proj2 (IH s)); [reflexivity|]. split; [intros Q; apply I; now right|exists rest; reflexivity].
Qed.
Lemma copy_kept : forall io d s p d' st, FileCopy io d s p = Some (d', st) -> find p d = None -> kept d d'.
Proof.
  intros io d s p d' st E F q Q. unfold FileCopy in E. destruct (find s d) eqn:Fs; [|injection E as <- _; reflexivity].
  assert (N : s <> p) by congruence. assert (Nq : q <> p) by congruence. destruct (copy_exact io d s p N) as (d2 & st2 & E2 & K & _). unfold FileCopy in E2. rewrite Fs in E2. rewrite E in E2. injection E2 as <- _. auto.
Qed.
Lemma add_fresh : forall d base pid randoms buf ns length buf', addTempLoop d base pid randoms buf ns length = Ok (buf', Success) -> exists p, stringIn buf' = Some p /\ find p d = None.
Proof.
  intros d base pid. induction randoms as [|r randoms IH]; intros buf ns length buf' E; cbn [addTempLoop] in E; [discriminate|].
  destruct (snprintf _ _ _ _) as [b|]; [|discriminate]. destruct (_ >? _); [destruct (memset0 _ _ _); discriminate|]. destruct (stringIn b) as [p|] eqn:P; [|discriminate].
  unfold fileExists in E. destruct (find p d) eqn:F; [exact (IH _ _ _ _ E)|]. injection E as <-. exists p. auto.
Qed.
Lemma after_add : forall io d master b length d' buf' st, (exists p, stringIn b = Some p /\ find p d = None) ->
  match copyTemp io d master b with
  | Undefined => Undefined | Unending => Unending
  | Ok (d, status) => match reset length b status with Some buf => Ok (d, buf, status) | None => Undefined end
  end = Ok (d', buf', st) -> kept d d' /\ (st = Success -> exists p, stringIn buf' = Some p /\ find p d = None).
Proof.
  intros io d master b length d' buf' st (p & P & F) E. unfold copyTemp in E. rewrite P in E. destruct (FileCopy (io p) d master p) as [(d2 & st2)|] eqn:C; [|discriminate].
  destruct (reset length b st2) as [b2|] eqn:R; [|discriminate]. injection E as <- <- <-. split; [exact (copy_kept _ _ _ _ _ _ C F)|]. intros ->. cbn [reset] in R. injection R as <-. exists p. auto.
Qed.
Lemma here_kept : forall io d master pid randoms buf length d' buf' st, createTempFileWithoutPaths io d master pid randoms buf length = Ok (d', buf', st) ->
  kept d d' /\ (st = Success -> exists p, stringIn buf' = Some p /\ find p d = None).
Proof.
  intros io d master pid randoms buf length d' buf' st E. unfold createTempFileWithoutPaths in E.
  destruct (FileAddTempFileName _ _ _ _ _ _ _) as [(b & st1)| |] eqn:A; [|discriminate|discriminate].
  destruct st1; try (injection E as <- <- <-; split; [intros q _; reflexivity|discriminate]).
  apply (after_add _ _ _ _ _ _ _ _) in E; [exact E|]. unfold FileAddTempFileName in A. destruct (getBasenameWithoutExtension _ _) as [[base|]|]; [exact (add_fresh _ _ _ _ _ _ _ _ A)|discriminate|discriminate].
Qed.
Lemma path_kept : forall io d master pid randoms path buf length d' buf' st, createTempFileInPath io d master pid randoms path buf length = Ok (d', buf', st) ->
  kept d d' /\ (st = Success -> exists p, stringIn buf' = Some p /\ find p d = None).
Proof.
  intros io d master pid randoms path buf length d' buf' st E. unfold createTempFileInPath in E. cbv zeta in E.
  destruct (snprintf _ _ _ _) as [b0|]; [|discriminate]. destruct (_ >? _).
  - destruct (reset _ _ _); [|discriminate]. injection E as <- <- <-. split; [intros q _; reflexivity|discriminate].
  - destruct (FileAddTempFileName _ _ _ _ _ _ _) as [(b & st1)| |] eqn:A; [|discriminate|discriminate].
    destruct st1; try (destruct (reset _ _ _); [|discriminate]; injection E as <- <- <-; split; [intros q _; reflexivity|discriminate]).
    apply (after_add _ _ _ _ _ _ _ _) in E; [exact E|]. unfold FileAddTempFileName in A. destruct (getBasenameWithoutExtension _ _) as [[base|]|]; [exact (add_fresh _ _ _ _ _ _ _ _ A)|discriminate|discriminate].
Qed.
Lemma kept_trans : forall a b c, kept a b -> kept b c -> kept a c.
Proof. intros a b c H1 H2 q Q. rewrite <- (H1 q Q). apply H2. rewrite (H1 q Q). exact Q. Qed.
Lemma kept_none : forall a b p, kept a b -> find p b = None -> find p a = None.
Proof. intros a b p K F. destruct (find p a) eqn:E; [|reflexivity]. rewrite <- (K p) in E; [congruence|congruence]. Qed.
Lemma paths_kept : forall io master pid paths randoms d buf length st0 d' buf' st, createTempFileWithPaths io d master pid randoms paths buf length st0 = Ok (d', buf', st) ->
  kept d d' /\ (paths <> [] -> st = Success -> exists p, stringIn buf' = Some p /\ find p d = None).
Proof.
  intros io master pid. induction paths as [|path paths IH]; intros randoms d buf length st0 d' buf' st E; cbn [createTempFileWithPaths] in E.
  - injection E as <- <- <-. split; [intros q _; reflexivity|congruence].
  - destruct (createTempFileInPath _ _ _ _ _ _ _ _) as [((d1 & b1) & st1)| |] eqn:P; [|discriminate|discriminate]. destruct (path_kept _ _ _ _ _ _ _ _ _ _ _ P) as (K1 & S1).
    destruct (IH _ _ _ _ _ _ _ _ E) as (K2 & S2). split; [exact (kept_trans _ _ _ K1 K2)|]. intros _ ->. destruct paths as [|p2 paths].
    + cbn [createTempFileWithPaths] in E. injection E as <- <- ->. exact (S1 eq_refl).
    + destruct (S2 ltac:(discriminate) eq_refl) as (p & Sp & Fp). exists p. split; [exact Sp|exact (kept_none _ _ _ K1 Fp)].
Qed.
Lemma new_kept : forall io d master pid randoms paths buf d' buf' st, FileNewTempFile io d master pid randoms paths buf = Ok (d', buf', st) ->
  kept d d' /\ (st = Success -> exists p, stringIn buf' = Some p /\ find p d = None).
Proof.
  intros io d master pid randoms [|path paths] buf d' buf' st E; unfold FileNewTempFile in E; [exact (here_kept _ _ _ _ _ _ _ _ _ _ E)|].
  destruct (paths_kept _ _ _ _ _ _ _ _ _ _ _ _ E) as (K & H). split; [exact K|]. apply H. discriminate.
Qed.
Lemma cleared_repeat : forall buf, cleared buf -> buf = repeat 0 (List.length buf).
Proof. intros buf (_ & F). induction F as [|c buf <- F IH]; [reflexivity|]. cbn [List.length repeat]. now f_equal. Qed.
Lemma repeat_cleared : forall n, (0 < n)%nat -> cleared (repeat 0 n).
Proof. intros n L. split; [destruct n; [lia|discriminate]|]. apply Forall_forall. intros x I. symmetry. exact (repeat_spec _ _ _ I). Qed.
Lemma cleared_string : forall buf, cleared buf -> stringIn buf = Some [].
Proof. intros buf (N & F). destruct F as [|c buf <- F]; [congruence|reflexivity]. Qed.
Lemma memset_all : forall buf b, memset0 buf 0 (len buf) = Some b -> b = repeat 0 (List.length buf).
Proof.
  intros buf b E. unfold memset0 in E. replace (0 + len buf >? len buf) with false in E by (symmetry; rewrite Z.gtb_ltb; apply Z.ltb_ge; lia). injection E as <-.
  unfold write. cbn [Z.to_nat firstn app Nat.add]. unfold len. rewrite repeat_length, Nat2Z.id, skipn_all2 by lia. apply app_nil_r.
Qed.
Lemma new_failed : forall io d master pid randoms paths buf d' buf' st, cleared buf -> FileNewTempFile io d master pid randoms paths buf = Ok (d', buf', st) -> st <> Success -> cleared buf'.
Proof.
  intros io d master pid randoms [|path paths] buf d' buf' st C E N.
  - assert (L : (0 < List.length buf)%nat) by (destruct C as (H & _); destruct buf; [congruence|cbn; lia]).
    unfold FileNewTempFile, createTempFileWithoutPaths in E. unfold FileAddTempFileName in E.
    destruct (getBasenameWithoutExtension _ _) as [[base|]|]; [|injection E as <- <- <-; exact C|discriminate].
    destruct (addTempLoop _ _ _ _ _ _ _) as [(b & st1)| |] eqn:A; [|discriminate|discriminate].
    assert (Lb : List.length b = List.length buf). { apply add_keeps in A; [exact A|lia]. }
    assert (Z : st1 <> Success -> b = repeat 0 (List.length buf)).
    { clear E. intros N1. revert A. generalize (hd [] randoms) as rs. intros rs. assert (Hl : forall rs b0, List.length b0 = List.length buf -> addTempLoop d base pid rs b0 0 (len buf) = Ok (b, st1) -> b = repeat 0 (List.length buf)); [|exact (Hl rs buf eq_refl)].
      induction rs0 as [|r rs0 IH]; intros b0 L0 A; cbn [addTempLoop] in A; [discriminate|]. destruct (snprintf _ _ _ _) as [b1|] eqn:P; [|discriminate]. apply snprintf_keeps in P; [|lia].
      destruct (_ >? _).
      - destruct (memset0 _ _ _) as [b2|] eqn:M; [|discriminate]. injection A as <- _. replace (len buf) with (len b1) in M by (unfold len; lia). apply memset_all in M. now rewrite P, L0 in M.
      - destruct (stringIn b1); [|discriminate]. destruct (fileExists _ _); [apply (IH b1); [lia|exact A]|]. injection A as _ <-. congruence. }
    destruct st1; try (injection E as <- <- <-; rewrite Z by discriminate; now apply repeat_cleared).
    destruct (copyTemp _ _ _ _) as [(d2 & st2)| |]; [|discriminate|discriminate]. destruct (reset _ _ _) as [b2|] eqn:R; [|discriminate]. injection E as <- <- <-.
    replace (len buf) with (len b) in R by (unfold len; lia). apply reset_cleared in R; [|exact N|unfold len; lia]. rewrite R. apply repeat_cleared. lia.
  - destruct C as (Hb & _). rewrite (new_temp_cleared _ _ _ _ _ _ _ _ _ _ _ Hb E N). apply repeat_cleared. destruct buf; [congruence|cbn; lia].
Qed.
Lemma strncpy_all : forall buf s, len s < len buf -> strncpy buf s (len buf) = Some (s ++ repeat 0 (List.length buf - List.length s)).
Proof.
  intros buf s L. unfold strncpy. replace (len buf >? len buf) with false by (symmetry; rewrite Z.gtb_ltb; apply Z.ltb_ge; lia). f_equal. unfold write. unfold len in *. rewrite Nat2Z.id. cbn [firstn app Nat.add].
  rewrite skipn_all2 by (rewrite firstn_length, app_length, repeat_length; lia). rewrite app_nil_r, firstn_app, firstn_all2 by lia. f_equal.
  replace (List.length buf) with ((List.length buf - List.length s) + List.length s)%nat at 2 by lia. rewrite repeat_app, firstn_app, repeat_length, firstn_all2 by (rewrite repeat_length; lia). rewrite Nat.sub_diag. cbn [firstn]. apply app_nil_r.
Qed.
Lemma strncpy_part : forall buf s, len s < len buf -> exists rest, strncpy buf s (len s + 1) = Some (s ++ 0 :: rest) /\ len (s ++ 0 :: rest) = len buf.
Proof.
  intros buf s L. unfold strncpy. replace (len s + 1 >? len buf) with false by (symmetry; rewrite Z.gtb_ltb; apply Z.ltb_ge; lia). unfold write. unfold len in *.
  replace (Z.to_nat (Z.of_nat (List.length s) + 1)) with (List.length s + 1)%nat by lia. rewrite firstn_app_2. replace (List.length s + 1)%nat with (1 + List.length s)%nat by lia. cbn [repeat firstn Nat.add]. 
  exists (skipn (List.length (s ++ [0])) buf). cbn [Z.to_nat firstn app Nat.add]. rewrite <- app_assoc. cbn [app]. split; [reflexivity|]. rewrite app_length. cbn [List.length]. rewrite skipn_length, app_length. cbn [List.length]. lia.
Qed.
Lemma strncmp_same : forall s r1 r2, isString s -> strncmpSame (List.length s + 1) (s ++ 0 :: r1) (s ++ 0 :: r2) = Some true.
Proof.
  induction s as [|c s IH]; intros r1 r2 I; [reflexivity|]. cbn [List.length Nat.add app strncmpSame]. rewrite Z.eqb_refl. destruct (Z.eqb_spec c 0) as [->|]; [exfalso; apply I; now left|]. apply IH. intros Q. apply I. now right.
Qed.
Lemma init_start : forall s c d f name n, isString name -> len name < len (masterFileName f) -> len name < len (fileName f) ->
  let f1 := mkDataSetFiles (name ++ repeat 0 (List.length (masterFileName f) - List.length name)) (fileName f) in
  holds (masterFileName f1) name /\
  DataSetInitFromFile s c d f name n =
    if useTempFile c then initWithTempFile s c d f1 n
    else match strncpy (fileName f) name (len name + 1) with
         | Some file => Ok (d, mkDataSetFiles (masterFileName f1) file, FileStatus Success) | None => Undefined end.
Proof.
  intros s c d f name n I L1 L2 f1.
  assert (Hr : exists r, repeat 0 (List.length (masterFileName f) - List.length name) = 0 :: r). { unfold len in L1. destruct (List.length (masterFileName f) - List.length name)%nat as [|k] eqn:K; [lia|]. exists (repeat 0 k). reflexivity. }
  destruct Hr as (r & Er).
  assert (H : holds (masterFileName f1) name) by (split; [exact I|]; exists r; unfold f1; cbn [masterFileName]; now rewrite Er).
  split; [exact H|]. unfold DataSetInitFromFile.
  replace (len name + 1 >? len (masterFileName f)) with false by (symmetry; rewrite Z.gtb_ltb; apply Z.ltb_ge; lia).
  replace (len name + 1 >? len (fileName f)) with false by (symmetry; rewrite Z.gtb_ltb; apply Z.ltb_ge; lia). cbn [orb]. rewrite strncpy_all by exact L1. cbv zeta.
  replace (Z.to_nat (len name + 1)) with (List.length name + 1)%nat by (unfold len; lia). rewrite Er. rewrite strncmp_same by exact I. cbn [fileName]. unfold f1. cbn [masterFileName]. rewrite Er.
  destruct (useTempFile c); [reflexivity|]. rewrite (proj2 (string_holds (name ++ 0 :: r) name)) by (split; [exact I|eexists; reflexivity]).
  destruct (strncpy_part (fileName f) name L2) as (rest & -> & _). rewrite strncmp_same by exact I. reflexivity.
Qed.
Lemma matched_other : forall d master base n dir names p, matchFiles d master base n dir names = Found p -> p <> master /\ len p + 1 <= maxPath /\ find p d <> None.
Proof.
  intros d master base n dir. induction names as [|name names IH]; intros p E; cbn [matchFiles] in E; [discriminate|]. destruct (Z.gtb_spec (len (dir ++ name) + 1) maxPath) as [|L]; [discriminate|].
  destruct (iteratorFileCompare d master base n (dir ++ name)) eqn:C; [|exact (IH _ E)|discriminate|discriminate]. injection E as <-. unfold iteratorFileCompare in C. destruct (startsWith _ _); [|discriminate].
  destruct (compareFiles d master (dir ++ name) n) eqn:K; try discriminate. destruct (fileNamesMatch (dir ++ name) master) eqn:M; [discriminate|]. split; [|split; [lia|]].
  - intros Q. rewrite Q in M. unfold fileNamesMatch in M. rewrite streq_refl in M. discriminate.
  - intros Q. unfold compareFiles in K. rewrite Q in K. destruct (_ && _); [discriminate|]. destruct (find master d); discriminate.
Qed.
Lemma found_other : forall d master paths n p, FileGetExistingTempFile d master paths n = Found p -> p <> master /\ len p + 1 <= maxPath /\ find p d <> None.
Proof.
  intros d master paths n p E. unfold FileGetExistingTempFile in E. destruct (getBasenameWithoutExtension _ _) as [[base|]|]; [|discriminate|discriminate].
  assert (M : forall path, iterateFilesMatch d master base n path = Found p -> p <> master /\ len p + 1 <= maxPath /\ find p d <> None).
  { intros path Q. unfold iterateFilesMatch in Q. destruct (_ >? _); [discriminate|]. exact (matched_other _ _ _ _ _ _ _ Q). }
  destruct paths as [|path paths]; [exact (M _ E)|]. revert E. generalize (List.length (path :: paths)) as k. induction k as [|k IH]; intros E; cbn [getExistingLoop] in E; [discriminate|].
  destruct (iterateFilesMatch d master base n path) eqn:Q; [|exact (IH E)|discriminate]. injection E as ->. exact (M _ Q).
Qed.
