(* The properties of copies, temporary files, reading a file and the search for a data
   file (file.c) *)
From Verif Require Import FileTempProofs PropertiesFilePath.

Definition fine : IO := mkIO true true None None None true.

(* C80, a copy that succeeds without an error of fseek, fread or fclose is exact and
   changes no other file; one that fails leaves no destination, or the disk as it was *)
Theorem copy_exact : forall io d s p, s <> p -> exists d' st, FileCopy io d s p = Some (d', st) /\
  (forall q, q <> p -> find q d' = find q d) /\
  (st = Success -> noErrors io -> find s d <> None /\ find p d' = find s d) /\
  (st <> Success -> removes io = true -> find p d' = None \/ d' = d).
Proof.
  intros io d s p N. destruct (copy_total io d s p) as (d' & st & E). exists d', st. split; [exact E|].
  destruct (copy_cases _ _ _ _ _ _ E N) as [(H & -> & ->)|[(b & H1 & H2 & -> & ->)|[(b & c & H1 & H2 & -> & (H3 & H4) & H5)|(b & H1 & H2 & -> & H3 & H4 & H5)]]].
  - split; [auto|]. split; [discriminate|auto].
  - split; [auto|]. split; [discriminate|auto].
  - split; [exact H4|]. split; [|congruence]. intros _ Q. split; [congruence|]. rewrite H1, H3. f_equal. auto.
  - split; [exact H4|]. split; [discriminate|auto].
Qed.
Print Assumptions copy_exact.
(* C80, a copy succeeds if the file can be read and all of it written *)
Theorem copy_succeeds : forall io d s p b, s <> p -> find s d = Some b -> canWrite io = true -> accepts io = None -> exists d', FileCopy io d s p = Some (d', Success).
Proof.
  intros io d s p b N F W A. destruct (copy_total io d s p) as (d' & st & E). exists d'. rewrite E. f_equal. f_equal.
  destruct (copy_cases _ _ _ _ _ _ E N) as [(H & _)|[(b0 & H1 & H2 & _)|[(b0 & c & H1 & H2 & -> & _)|(b0 & H1 & H2 & _ & H3 & _)]]]; congruence.
Qed.
Print Assumptions copy_succeeds.
Example copy_example : FileCopy fine [([97], [1; 2; 3])] [97] [98] = Some ([([98], [1; 2; 3]); ([97], [1; 2; 3])], Success) /\
  FileCopy (mkIO true true None (Some 2%nat) None true) [([97], [1; 2; 3])] [97] [98] = Some ([([97], [1; 2; 3])], FileCopyError).
Proof. split; reflexivity. Qed.

(* C80, not a copy of a file to itself: it is emptied and success reported *)
Theorem copy_same_refuted : forall d p b, find p d = Some b -> exists d', FileCopy fine d p p = Some (d', Success) /\ find p d' = Some [].
Proof.
  intros d p b F. unfold FileCopy. rewrite F. cbn [fine canWrite]. rewrite find_store, streq_refl. cbn. eexists. split; [reflexivity|]. cbn. rewrite streq_refl. reflexivity.
Qed.
Print Assumptions copy_same_refuted.
(* C80, not with an error of fseek, fread or fclose: success is reported though bytes
   are missing *)
Theorem copy_errors_refuted : let d := [([97], [1; 2; 3])] in
  FileCopy (mkIO false true None None None true) d [97] [98] = Some (([98], []) :: d, Success) /\
  FileCopy (mkIO true true (Some 1%nat) None None true) d [97] [98] = Some (([98], [1]) :: d, Success) /\
  FileCopy (mkIO true true None None (Some 2%nat) true) d [97] [98] = Some (([98], [1; 2]) :: d, Success).
Proof. cbv zeta. repeat split. Qed.
Print Assumptions copy_errors_refuted.

(* C81, a temporary file: the path is that of a new file in the directory, which is a
   copy of the master file; nothing else changes.  If it fails nothing changes.  The
   memory has the size given, and the directory with a slash is not just as long. *)
Theorem new_temp : forall io d master pid randoms path dir buf,
  isString master -> isString pid -> isString path -> Forall (Forall isString) randoms -> len master < 2 ^ 63 -> len buf < 2 ^ 64 -> tempDir path dir -> len dir <> len buf ->
  match FileNewTempFile io d master pid randoms [path] buf with
  | Undefined => False
  | Unending => True
  | Ok (d', buf', status) => List.length buf' = List.length buf /\
      match status with
      | Success => exists p name b c, stringIn buf' = Some p /\ p = dir ++ name /\ find p d = None /\ find master d = Some b /\ made d d' p c /\ (noErrors (io p) -> c = b)
      | _ => (forall p, removes (io p) = true) -> unchanged d d'
      end
  end.
Proof.
  intros io d master pid randoms path dir buf Ms Ps Hs Rs Lm Lb Td Ne. apply tempDir_iff in Td. subst dir.
  assert (Rh : Forall isString (hd [] randoms)) by (destruct Rs; [constructor|assumption]).
  pose proof (in_path io d master pid (hd [] randoms) path buf Ms Ps Hs Rh Lm Lb Ne) as T. cbn [FileNewTempFile createTempFileWithPaths].
  destruct (createTempFileInPath io d master pid (hd [] randoms) path buf (len buf)) as [((d', buf'), status)| |]; [|exact T|exact T]. destruct T as (L & T). split; [exact L|].
  destruct status; try exact T. destruct T as (p & b & c & base & r & _ & T1 & T2 & T3 & T4 & T5 & T6 & _ & _). exists p, (firstn (Z.to_nat (len buf - len (withSlash path) - 1 - 1)) (tempName base pid r)), b, c. split; [exact T1|]. split; [exact T6|]. split; [exact T2|]. split; [exact T3|]. split; [exact T4|exact T5].
Qed.
Print Assumptions new_temp.
(* C81, and it succeeds when it can: the names fit, one of them is not taken, and the
   copy is not refused *)
Theorem new_temp_succeeds : forall io d master name base pid randoms path dir buf b, (forall p, noErrors (io p) /\ canWrite (io p) = true /\ accepts (io p) = None) ->
  isString master -> isString pid -> isString path -> Forall (Forall isString) randoms -> len master < 2 ^ 63 -> len buf < 2 ^ 64 -> tempDir path dir ->
  isFileName master name -> isBaseName name base -> len base < 4096 -> find master d = Some b ->
  Forall (fun r => len (dir ++ base ++ [45] ++ pid ++ [45] ++ r) + 1 < len buf) (hd [] randoms) ->
  (exists r, In r (hd [] randoms) /\ find (dir ++ base ++ [45] ++ pid ++ [45] ++ r) d = None) ->
  exists d' buf' r, FileNewTempFile io d master pid randoms [path] buf = Ok (d', buf', Success) /\
    In r (hd [] randoms) /\ let p := dir ++ base ++ [45] ++ pid ++ [45] ++ r in stringIn buf' = Some p /\ find p d = None /\ made d d' p b.
Proof.
  intros io d master name base pid randoms path dir buf b Io Ms Ps Hs Rs Lm Lb Td Fn Bn L4 Fm Fit (r0 & I0 & F0). apply tempDir_iff in Td. subst dir.
  change (fun r => len (withSlash path ++ base ++ [45] ++ pid ++ [45] ++ r) + 1 < len buf) with (fun r => len (withSlash path ++ tempName base pid r) + 1 < len buf) in Fit.
  change (find (withSlash path ++ tempName base pid r0) d = None) in F0. rewrite Forall_forall in Fit.
  assert (Rh : Forall isString (hd [] randoms)) by (destruct Rs; [constructor|assumption]).
  assert (Ne : len (withSlash path) <> len buf) by (pose proof (Fit r0 I0) as Q; unfold len in *; rewrite app_length in Q; lia).
  pose proof (in_path io d master pid (hd [] randoms) path buf Ms Ps Hs Rh Lm Lb Ne) as T.
  pose proof (proj1 (path_name master name) Fn) as Nm. assert (Sn : isString name) by (rewrite <- Nm; apply isString_skipn, Ms).
  assert (Ln : len name <= len master) by (rewrite <- Nm; unfold len; rewrite skipn_length; lia).
  assert (Fn' : isFileName name name) by (split; [exact (proj1 Fn)|now left]).
  assert (B : getBasenameWithoutExtension name maxPath = Some (PathSuccess base)).
  { rewrite (path_base_name name name base maxPath Fn' Bn (fun H => H)); [|unfold len in *; lia|unfold maxPath; lia]. unfold maxPath, len in *. replace (Z.of_nat (List.length base) <? 4096) with true by (symmetry; apply Z.ltb_lt; lia). reflexivity. }
  assert (Sb : isString base) by exact (base_string _ _ _ Sn B).
  cbn [FileNewTempFile createTempFileWithPaths]. assert (E : exists d1 b1, createTempFileInPath io d master pid (hd [] randoms) path buf (len buf) = Ok (d1, b1, Success)).
  { unfold createTempFileInPath in *. rewrite Nm in *. set (dir := withSlash path) in *. pose proof (Fit r0 I0) as Q0. assert (Ld : len dir + 1 < len buf) by (unfold len in *; rewrite app_length in Q0; lia).
    destruct (snprintf buf 0 (len buf) dir) as [b1|] eqn:Sp; [|destruct T].
    assert (B1 : exists rest, b1 = dir ++ rest /\ len rest = len buf - len dir).
    { unfold snprintf in Sp. destruct (Z.eqb_spec (len buf) 0) as [Q|_]; [unfold len in *; lia|]. destruct (_ >? _) in Sp; [discriminate|]. injection Sp as <-.
      replace (firstn (Z.to_nat (Z.min (len buf - 1) (len dir))) dir) with dir by (symmetry; apply firstn_all2; unfold len in *; lia).
      exists ([0] ++ skipn (List.length dir + 1) buf). unfold write. change (Z.to_nat 0) with 0%nat. cbn [firstn]. split.
      - rewrite app_length. cbn [List.length]. cbn [app]. rewrite <- app_assoc. reflexivity.
      - unfold len in *. rewrite app_length, skipn_length. cbn [List.length]. lia. }
    destruct B1 as (rest & -> & Lr). destruct (Z.gtb_spec (len dir) (len buf)) as [G|G]; [lia|].
    assert (Sz : size_t (len buf - len dir - 1) = len buf - len dir - 1) by (unfold size_t; apply Z.mod_small; unfold len in *; lia). rewrite Sz in *.
    unfold FileAddTempFileName in *. rewrite B in *.
    pose proof (add_loop d base pid dir (len buf - len dir - 1) Sb Ps (withSlash_string path Hs) ltac:(lia) (hd [] randoms) rest Rh ltac:(lia)) as A.
    destruct (addTempLoop d base pid (hd [] randoms) (dir ++ rest) (len dir) (len buf - len dir - 1)) as [(b2, st)| |]; [|destruct A|exfalso; apply (A r0 I0); [unfold len in *; rewrite app_length in Q0; lia|exact F0]].
    destruct A as (_ & A). destruct st; try contradiction.
    - destruct A as (r & nm & _ & Sn2 & Fp & _ & _). unfold copyTemp in *. rewrite Sn2 in *. set (p := dir ++ nm) in *. destruct (Io p) as (_ & Q2 & Q3). assert (N : master <> p) by (intros Q; rewrite Q in Fm; congruence).
      destruct (copy_total (io p) d master p) as (d' & st & C). rewrite C in *. destruct (copy_cases _ _ _ _ _ _ C N) as [(H & _)|[(b0 & H1 & H2 & _)|[(b0 & c & H1 & H2 & -> & H3 & H4)|(b0 & H1 & H2 & _ & H3 & _)]]]; try congruence.
      cbn [reset]. eexists. eexists. reflexivity.
    - exfalso. destruct A as (r & Ir & G'). pose proof (Fit r Ir) as Q. unfold len in *. rewrite app_length in Q. lia. }
  destruct E as (d1 & b1 & E). rewrite E in *. cbn [tempResult] in T. destruct T as (_ & p & b0 & c & base0 & r & Ir & T1 & T2 & T3 & T4 & T5 & T6 & T7 & T8).
  rewrite Nm, B in T8. injection T8 as <-. pose proof (Fit r Ir) as Q. rewrite firstn_all2 in T6 by (unfold len in *; rewrite app_length in Q; lia). rewrite Fm in T3. injection T3 as <-.
  rewrite (T5 (proj1 (Io p))) in T4. exists d1, b1, r. split; [reflexivity|]. split; [exact Ir|]. cbv zeta. change ([45] ++ pid ++ [45] ++ r) with ([hyphen] ++ pid ++ [hyphen] ++ r). fold (tempName base pid r). rewrite <- T6. split; [exact T1|]. split; [exact T2|exact T4].
Qed.
Print Assumptions new_temp_succeeds.
Example new_temp_succeeds_example : let master := [109; 46; 100] in isFileName master master /\ isBaseName master [109] /\ tempDir [97] [97; 47] /\ len ([97; 47] ++ [109] ++ [45] ++ [49] ++ [45] ++ [65]) + 1 < 20 /\
  exists d' buf', FileNewTempFile (fun _ => fine) [(master, [5])] master [49] [[[65]]] [[97]] (repeat 7 20) = Ok (d', buf', Success).
Proof.
  cbv zeta. split; [apply path_name; reflexivity|]. split; [right; exists [100]; split; [intros [Q|[]]; discriminate|reflexivity]|]. split; [apply tempDir_iff; reflexivity|]. split; [reflexivity|]. do 2 eexists. reflexivity.
Qed.

(* C81, and it is one that the search for copies finds (C78): its name is another that
   begins with the name of the master file without its extension *)
Theorem new_temp_is_copy : forall io d master pid randoms path dir buf d' buf' n, (forall p, noErrors (io p)) ->
  isString master -> isString pid -> isString path -> Forall (Forall isString) randoms -> len master < 2 ^ 63 -> len buf < 2 ^ 64 -> tempDir path dir -> len dir <> len buf ->
  (forall c, In c pid -> ~ isSep c) -> Forall (Forall (fun r => r <> [] /\ forall c, In c r -> ~ isSep c)) randoms -> path <> [] ->
  FileNewTempFile io d master pid randoms [path] buf = Ok (d', buf', Success) ->
  exists p, stringIn buf' = Some p /\ inDir path p /\ isCopy d' n master p.
Proof.
  intros io d master pid randoms path dir buf d' buf' n Io Ms Ps Hs Rs Lm Lb Td Ne Psep Rsep Np E. apply tempDir_iff in Td. subst dir.
  assert (Rh : Forall isString (hd [] randoms)) by (destruct Rs; [constructor|assumption]). assert (Rp : Forall (fun r => r <> [] /\ forall c, In c r -> ~ isSep c) (hd [] randoms)) by (destruct Rsep; [constructor|assumption]).
  pose proof (in_path io d master pid (hd [] randoms) path buf Ms Ps Hs Rh Lm Lb Ne) as T. cbn [FileNewTempFile createTempFileWithPaths] in E.
  destruct (createTempFileInPath io d master pid (hd [] randoms) path buf (len buf)) as [((d1, buf1), status)| |]; [|discriminate E|discriminate E]. injection E as -> -> ->. destruct T as (L & T).
  destruct T as (p & b & c & base & r & Ir & T1 & T2 & T3 & (T4 & T4') & T5 & T6 & T7 & T8). exists p. split; [exact T1|].
  set (name := skipn (getNameFromPath master) master) in *. assert (Fn : isFileName master name) by apply getName_isFileName.
  rewrite Forall_forall in Rp. destruct (Rp r Ir) as (Rne & Rs').
  (* the base name *)
  assert (Bn : isBaseName name base).
  { assert (Hn : exists b0, isBaseName name b0) by (destruct (char_split 46 name) as [Nd|(a & e & Q & Nd)]; [exists name; now left|exists a; right; exists e; auto]). destruct Hn as (b0 & B0).
    assert (F0 : isFileName name name) by (split; [exact (proj1 Fn)|now left]). unfold len in *.
    rewrite (path_base_name name name b0 maxPath F0 B0 (fun H => H)) in T8; [|unfold name; rewrite skipn_length; lia|unfold maxPath; lia]. destruct (Z.of_nat (List.length b0) <? maxPath); [injection T8 as <-; exact B0|discriminate T8]. }
  assert (Bsep : forall x, In x base -> ~ isSep x). { intros x Ix. apply (proj1 Fn). destruct Bn as [(_ & ->)|(e & _ & ->)]; [exact Ix|]. apply in_or_app. now left. }
  (* the name of the temporary file *)
  set (k := Z.to_nat (len buf - len (withSlash path) - 1 - 1)) in *. set (rest := hyphen :: pid ++ [hyphen] ++ r). assert (Tn : tempName base pid r = base ++ rest) by reflexivity.
  assert (Lr : (2 <= List.length rest)%nat) by (unfold rest; cbn [List.length]; rewrite !app_length; cbn [List.length]; lia).
  assert (Kb : (List.length base + 1 <= k)%nat). { unfold len in *. rewrite Tn, app_length in T7. unfold k. lia. }
  assert (Sp : firstn k (tempName base pid r) = base ++ hyphen :: firstn (k - List.length base - 1) (pid ++ [hyphen] ++ r)).
  { rewrite Tn, firstn_app, firstn_all2 by lia. f_equal. unfold rest. destruct (k - List.length base)%nat eqn:Q; [lia|]. cbn [firstn]. f_equal. f_equal. lia. }
  rewrite Sp in T6. set (tl' := firstn (k - List.length base - 1) (pid ++ [hyphen] ++ r)) in *.
  assert (Tsep : forall x, In x tl' -> ~ isSep x).
  { intros x Ix. assert (I2 : In x (pid ++ [hyphen] ++ r)) by (rewrite <- (firstn_skipn (k - List.length base - 1)); apply in_or_app; left; exact Ix). apply in_app_or in I2. destruct I2 as [I2|[<-|I2]]; [auto| |auto]. intros [Q|Q]; discriminate Q. }
  assert (Nsep : forall x, In x (base ++ hyphen :: tl') -> ~ isSep x). { intros x Ix. apply in_app_or in Ix. destruct Ix as [Ix|[<-|Ix]]; [auto| |auto]. intros [Q|Q]; discriminate Q. }
  assert (Pn : isFileName p (base ++ hyphen :: tl')).
  { split; [exact Nsep|]. right. destruct (withSlash_ne path Np) as (dd & s & Ep & W). destruct (sepb s) eqn:Sb.
    - exists dd, s. split; [now apply sepb_iff|]. rewrite T6, W, Ep, <- app_assoc. reflexivity.
    - exists path, slash. split; [now left|]. rewrite T6, W, <- app_assoc. reflexivity. }
  split.
  - exists (base ++ hyphen :: tl'). split; [destruct base; discriminate|]. split; [intros I47; apply (Nsep 47 I47); now left|]. apply joins_iff. auto.
  - assert (Nm : master <> p) by (intros Q; rewrite Q in T3; congruence). exists b, c, name, base, (base ++ hyphen :: tl'), (hyphen :: tl'). split; [rewrite T4' by exact Nm; exact T3|]. split; [exact T4|].
    split; [rewrite (T5 (Io p)); split; auto|]. split; [exact Fn|]. split; [exact Bn|]. split; [exact Pn|]. split; [|reflexivity].
    destruct Bn as [(_ & ->)|(e & _ & Q)]; [intros Q; rewrite <- (app_nil_r name) in Q at 2; apply app_inv_head in Q; discriminate Q|]. rewrite Q. intros Q2. apply app_inv_head in Q2. discriminate Q2.
Qed.
Print Assumptions new_temp_is_copy.
(* the same without paths, in the working directory *)
Theorem new_temp_here : forall io d master pid randoms buf,
  isString master -> isString pid -> Forall (Forall isString) randoms -> len master < 2 ^ 63 ->
  match FileNewTempFile io d master pid randoms [] buf with
  | Undefined => False
  | Unending => True
  | Ok (d', buf', status) => List.length buf' = List.length buf /\
      match status with
      | Success => exists p b c, stringIn buf' = Some p /\ find p d = None /\ find master d = Some b /\ made d d' p c /\ (noErrors (io p) -> c = b)
      | _ => (forall p, removes (io p) = true) -> unchanged d d'
      end
  end.
Proof.
  intros io d master pid randoms buf Ms Ps Rs Lm. assert (Rh : Forall isString (hd [] randoms)) by (destruct Rs; [constructor|assumption]).
  pose proof (without_paths io d master pid (hd [] randoms) buf Ms Ps Rh Lm) as T. cbn [FileNewTempFile].
  destruct (createTempFileWithoutPaths io d master pid (hd [] randoms) buf (len buf)) as [((d', buf'), status)| |]; [|exact T|exact T]. destruct T as (L & T). split; [exact L|].
  destruct status; try exact T. destruct T as (p & b & c & base & r & _ & T1 & T2 & T3 & T4 & T5 & T6 & _). exists p, b, c. split; [exact T1|]. split; [exact T2|]. split; [exact T3|]. split; [exact T4|exact T5].
Qed.
Print Assumptions new_temp_here.

(* C81, after a failure with paths the name is cleared *)
Lemma snprintf_keeps buf off size s b : 0 <= off -> snprintf buf off size s = Some b -> List.length b = List.length buf.
Proof.
  intros O E. unfold snprintf in E. destruct (size =? 0); [injection E as <-; reflexivity|]. match type of E with (if ?c then _ else _) = _ => destruct c eqn:Q end; [discriminate|]. injection E as <-.
  apply write_length. rewrite Z.gtb_ltb in Q. apply Z.ltb_ge in Q. unfold len in *. lia.
Qed.
Lemma memset_keeps buf off size b : 0 <= off -> memset0 buf off size = Some b -> List.length b = List.length buf.
Proof.
  intros O E. unfold memset0 in E. match type of E with (if ?c then _ else _) = _ => destruct c eqn:Q end; [discriminate|]. injection E as <-. unfold write. rewrite !app_length, firstn_length, skipn_length, repeat_length.
  rewrite Z.gtb_ltb in Q. apply Z.ltb_ge in Q. unfold len in Q. lia.
Qed.
Lemma add_keeps d base pid start length : 0 <= start -> forall randoms buf b st, addTempLoop d base pid randoms buf start length = Ok (b, st) -> List.length b = List.length buf.
Proof.
  intros O. induction randoms as [|r randoms IH]; intros buf b st E; [discriminate|]. cbn [addTempLoop] in E. destruct (snprintf buf start length (tempName base pid r)) as [b1|] eqn:P; [|discriminate]. apply snprintf_keeps in P; [|exact O].
  destruct (_ >? _).
  - destruct (memset0 b1 start length) as [b2|] eqn:M; [|discriminate]. injection E as <- _. apply memset_keeps in M; [|exact O]. congruence.
  - destruct (stringIn b1) as [p|]; [|discriminate]. destruct (fileExists d p); [rewrite (IH _ _ _ E); exact P|]. injection E as <- _. exact P.
Qed.
Lemma reset_cleared buf b st : st <> Success -> 0 < len buf -> reset (len buf) buf st = Some b -> b = repeat 0 (List.length buf).
Proof.
  intros N L E. assert (M : memset0 buf 0 (len buf) = Some b). { unfold reset in E. replace (len buf >? 0) with true in E by (symmetry; rewrite Z.gtb_ltb; apply Z.ltb_lt; lia). destruct st; congruence. }
  unfold memset0 in M. replace (0 + len buf >? len buf) with false in M by (symmetry; rewrite Z.gtb_ltb; apply Z.ltb_ge; lia). injection M as <-. unfold write, len. rewrite Nat2Z.id, repeat_length, skipn_all2 by (cbn; lia). cbn [Z.to_nat firstn app]. now rewrite app_nil_r.
Qed.
Lemma in_path_cleared io d master pid randoms path buf d' buf' st : 0 < len buf -> createTempFileInPath io d master pid randoms path buf (len buf) = Ok (d', buf', st) ->
  List.length buf' = List.length buf /\ (st <> Success -> buf' = repeat 0 (List.length buf)).
Proof.
  intros L E. unfold createTempFileInPath in E. destruct (snprintf buf 0 (len buf) (withSlash path)) as [b1|] eqn:P; [|discriminate]. apply snprintf_keeps in P; [|lia]. assert (Lb : len b1 = len buf) by (unfold len; lia).
  assert (W : forall b d0 st0, List.length b = List.length buf -> match reset (len buf) b st0 with Some b' => Ok (d0, b', st0) | None => Undefined end = Ok (d', buf', st) -> List.length buf' = List.length buf /\ (st <> Success -> buf' = repeat 0 (List.length buf))).
  { intros b d0 st0 Q H. destruct (reset (len buf) b st0) as [b'|] eqn:R; [|discriminate]. injection H as <- <- <-. replace (len buf) with (len b) in R by (unfold len; lia). split.
    - destruct (reset_ok (len b) b st0) as (b2 & R2 & L2 & _); [unfold len; lia|]. rewrite R in R2. injection R2 as <-. lia.
    - intros N. rewrite <- Q. eapply reset_cleared; [exact N|unfold len in *; lia|exact R]. }
  destruct (len (withSlash path) >? len buf); [exact (W _ _ _ P E)|].
  unfold FileAddTempFileName in E. destruct (getBasenameWithoutExtension _ _) as [[base|]|]; [|exact (W _ _ _ P E)|discriminate].
  destruct (addTempLoop d base pid randoms b1 (len (withSlash path)) (size_t (len buf - len (withSlash path) - 1))) as [(b2, st2)| |] eqn:A; [|discriminate|discriminate]. apply add_keeps in A; [|unfold len; lia]. assert (Q2 : List.length b2 = List.length buf) by congruence.
  destruct st2; try exact (W _ _ _ Q2 E). destruct (copyTemp io d master b2) as [(d2, st3)| |]; [|discriminate|discriminate]. exact (W _ _ _ Q2 E).
Qed.
Theorem new_temp_cleared : forall io d master pid randoms path paths buf d' buf' st, buf <> [] ->
  FileNewTempFile io d master pid randoms (path :: paths) buf = Ok (d', buf', st) -> st <> Success -> buf' = repeat 0 (List.length buf).
Proof.
  intros io d master pid randoms path paths buf d' buf' st Ne E N. assert (L : 0 < len buf) by (unfold len; destruct buf; [congruence|cbn; lia]). unfold FileNewTempFile in E.
  assert (H : forall paths randoms d b st0, List.length b = List.length buf -> (st0 <> Success -> paths = [] -> b = repeat 0 (List.length buf)) ->
    createTempFileWithPaths io d master pid randoms paths b (len buf) st0 = Ok (d', buf', st) -> buf' = repeat 0 (List.length buf)).
  { clear E. induction paths0 as [|q paths0 IH]; intros rs dd b st0 Lb Cb E; cbn [createTempFileWithPaths] in E.
    - injection E as <- <- <-. apply Cb; [exact N|reflexivity].
    - replace (len buf) with (len b) in E by (unfold len; lia). destruct (createTempFileInPath io dd master pid (hd [] rs) q b (len b)) as [((d1, b1), st1)| |] eqn:I; [|discriminate|discriminate].
      apply in_path_cleared in I; [|unfold len in *; lia]. destruct I as (L1 & C1). replace (len b) with (len buf) in E by (unfold len; lia). eapply IH; [| |exact E]; [congruence|]. intros S1 _. rewrite C1 by exact S1. congruence. }
  refine (H (path :: paths) randoms d buf NotSet eq_refl _ E). intros _ Q. discriminate Q.
Qed.
Print Assumptions new_temp_cleared.

(* master file m.d; directories a and b; 1 is the process id *)
Definition mfile : cstring := [109; 46; 100].
Definition aTemp : cstring := [97; 47; 109; 45; 49; 45; 65].
Definition bTemp : cstring := [98; 47; 109; 45; 49; 45; 66].
Example new_temp_example : exists buf, FileNewTempFile (fun _ => fine) [(mfile, [5])] mfile [49] [[[65]]] [[97]] (repeat 7 20) = Ok ([(aTemp, [5]); (mfile, [5])], buf, Success) /\ stringIn buf = Some aTemp.
Proof. eexists. split; reflexivity. Qed.
(* a name that is taken is not used *)
Example new_temp_taken_example : exists buf, FileNewTempFile (fun _ => fine) [(mfile, [5]); (aTemp, [])] mfile [49] [[[65]; [66]]] [[97]] (repeat 7 20) = Ok ([([97; 47; 109; 45; 49; 45; 66], [5]); (mfile, [5]); (aTemp, [])], buf, Success).
Proof. eexists. reflexivity. Qed.
Example new_temp_small_example : FileNewTempFile (fun _ => fine) [(mfile, [5])] mfile [49] [[[65]]] [[97]] (repeat 7 7) = Ok ([(mfile, [5])], repeat 0 7, InsufficientMemory).
Proof. reflexivity. Qed.
(* C81, without paths it is not: a base name that is too long leaves what was there *)
Theorem new_temp_cleared_refuted : FileNewTempFile (fun _ => fine) [] (repeat 109 4096) [49] [[[65]]] [] [7; 7] = Ok ([], [7; 7], InsufficientMemory).
Proof. vm_compute. reflexivity. Qed.
Print Assumptions new_temp_cleared_refuted.

(* C81, any number of paths: in each directory one copy of the master file is made or
   none, other files do not change, and the status and the name are those of the last
   path *)
Theorem new_temp_paths : forall io d master pid randoms paths dirs buf,
  (forall p, noErrors (io p) /\ removes (io p) = true) -> isString master -> isString pid -> Forall isString paths -> Forall (Forall isString) randoms -> len master < 2 ^ 63 -> len buf < 2 ^ 64 ->
  paths <> [] -> Forall2 tempDir paths dirs -> Forall (fun dir => len dir <> len buf) dirs ->
  match FileNewTempFile io d master pid randoms paths buf with
  | Undefined => False
  | Unending => True
  | Ok (d', buf', status) => List.length buf' = List.length buf /\
      exists new, copies d d' master dirs new /\ (status = Success <-> last new None <> None) /\ (forall p, last new None = Some p -> stringIn buf' = Some p)
  end.
Proof.
  intros io d master pid randoms paths dirs buf Io Ms Ps Hs Rs Lm Lb Np Td Nd.
  assert (Ed : dirs = map withSlash paths) by (clear - Td; induction Td as [|x y l l' H T IH]; [reflexivity|]; cbn [map]; apply tempDir_iff in H; congruence).
  subst dirs. rewrite Forall_map in Nd. pose proof (with_paths io master pid Ms Ps Lm Io paths randoms d buf (List.length buf) NotSet Hs Rs eq_refl Lb Nd) as T.
  unfold FileNewTempFile. destruct paths as [|path paths]; [congruence|]. unfold len at 1. destruct (createTempFileWithPaths io d master pid randoms (path :: paths) buf (Z.of_nat (List.length buf)) NotSet) as [((d', buf'), st)| |]; [|exact T|exact T].
  destruct T as (L & new & C & Sn). split; [exact L|]. exists new. split; [exact C|]. destruct new as [|o new]; [destruct C as (C & _); inversion C|].
  destruct (last (o :: new) None) as [p|]; [destruct Sn as (-> & Sp)|]; (split; [split; congruence|]); [intros x Q; congruence|discriminate].
Qed.
Print Assumptions new_temp_paths.
Example new_temp_paths_example : let io p := mkIO true (negb (streq p aTemp)) None None None true in
  (forall p, noErrors (io p) /\ removes (io p) = true) /\ Forall2 tempDir [[97]; [98]] [[97; 47]; [98; 47]] /\ Forall (fun dir => len dir <> 20) [[97; 47]; [98; 47]] /\
  exists buf, FileNewTempFile io [(mfile, [5])] mfile [49] [[[65]]; [[66]]] [[97]; [98]] (repeat 7 20) = Ok ([(bTemp, [5]); (mfile, [5])], buf, Success) /\ stringIn buf = Some bTemp /\
    copies [(mfile, [5])] [(bTemp, [5]); (mfile, [5])] mfile [[97; 47]; [98; 47]] [None; Some bTemp].
Proof.
  cbv zeta. split; [intros p; repeat split|]. split; [do 2 (constructor; [apply tempDir_iff; reflexivity|]); constructor|]. split; [repeat constructor; discriminate|].
  eexists. split; [reflexivity|]. split; [reflexivity|]. apply (copies_skip _ [(mfile, [5])]); [intros q; reflexivity|].
  apply (copies_add _ [(bTemp, [5]); (mfile, [5])] _ _ [98; 47] (skipn 2 bTemp) [] [] [5]); [reflexivity|reflexivity| |apply copies_none].
  split; [reflexivity|]. intros q N. change ([98; 47] ++ skipn 2 bTemp) with bTemp in N. cbn [find]. apply streq_false in N. rewrite N. reflexivity.
Qed.

(* C81, not if the directory with a slash is just as long as the memory: bytes after
   the end of it are written *)
Theorem new_temp_overflow_refuted : FileNewTempFile (fun _ => fine) [(mfile, [5])] mfile [49] [[[65]]] [[97]] (repeat 7 2) = Undefined.
Proof. reflexivity. Qed.
Print Assumptions new_temp_overflow_refuted.
(* C81, not with several paths: a file is left in each directory that can be written,
   not in the first only *)
Theorem new_temp_each_refuted : exists buf, FileNewTempFile (fun _ => fine) [(mfile, [5])] mfile [49] [[[65]]; [[66]]] [[97]; [98]] (repeat 7 20) = Ok ([(bTemp, [5]); (aTemp, [5]); (mfile, [5])], buf, Success) /\ stringIn buf = Some bTemp.
Proof. eexists. split; reflexivity. Qed.
Print Assumptions new_temp_each_refuted.
(* C81, failure is reported if the last directory cannot be written, though one before
   it can and a file is left there *)
Theorem new_temp_last_refuted : let io p := mkIO true (negb (streq p bTemp)) None None None true in
  exists buf, FileNewTempFile io [(mfile, [5])] mfile [49] [[[65]]; [[66]]] [[97]; [98]] (repeat 7 20) = Ok ([(aTemp, [5]); (mfile, [5])], buf, FileWriteError).
Proof. eexists. reflexivity. Qed.
Print Assumptions new_temp_last_refuted.

(* C81, the old method uses the first directory that can be written *)
Theorem create_temp : forall io d master randoms path rest dir b, tempDir path dir -> len dir + 20 < 4096 -> len path < 4096 -> find master d = Some b ->
  (forall p, noErrors (io p) /\ canWrite (io p) = true /\ accepts (io p) = None) -> (exists r, In r (hd [] randoms) /\ find (dir ++ r) d = None) ->
  exists d' r, FileCreateTempFile io d master randoms (path :: rest) = Ok (d', Some (dir ++ r), Success) /\ find (dir ++ r) d = None /\ made d d' (dir ++ r) b.
Proof.
  intros io d master randoms path rest dir b Td L Lp Fm Io (r & Ir & Fr). apply tempDir_iff in Td. subst dir. cbn [FileCreateTempFile createTempLoop]. unfold maxPath, TEMP_UNIQUE_STRING_LENGTH.
  replace (len path + 1 >? 4096) with false by (symmetry; rewrite Z.gtb_ltb; apply Z.ltb_ge; lia). replace (len (withSlash path) + 20 <? 4096) with true by (symmetry; apply Z.ltb_lt; lia).
  match goal with |- context [getUniqueLegacyFileName ?x ?y ?z] => destruct (getUniqueLegacyFileName x y z) as [p|] eqn:E end.
  - destruct (legacy_fresh _ _ _ _ E) as (Fp & r' & _ & ->). set (p := withSlash path ++ r') in *. destruct (Io p) as (Q1 & Q2 & Q3). assert (N : master <> p) by (intros Q; rewrite Q in Fm; congruence).
    destruct (copy_total (io p) d master p) as (d' & st & C). rewrite C. destruct (copy_cases _ _ _ _ _ _ C N) as [(H & _)|[(b0 & H1 & H2 & _)|[(b0 & c & H1 & H2 & -> & H3 & H4)|(b0 & H1 & H2 & _ & H3 & _)]]]; try congruence.
    exists d', r'. split; [reflexivity|]. split; [exact Fp|]. rewrite Fm in H1. injection H1 as <-. rewrite <- (H4 Q1). exact H3.
  - exfalso. exact (legacy_found _ _ _ _ Ir Fr E).
Qed.
Print Assumptions create_temp.
Example create_temp_example : FileCreateTempFile (fun _ => fine) [(mfile, [5])] mfile [[[65]]] [[97]; [98]] = Ok ([([97; 47; 65], [5]); (mfile, [5])], Some [97; 47; 65], Success).
Proof. reflexivity. Qed.
(* and the next if not *)
Example create_temp_next_example : FileCreateTempFile (fun p => mkIO true (streq p [98; 47; 66]) None None None true) [(mfile, [5])] mfile [[[65]]; [[66]]] [[97]; [98]] = Ok ([([98; 47; 66], [5]); (mfile, [5])], Some [98; 47; 66], Success).
Proof. reflexivity. Qed.

(* C81, the old method with any paths: a success is one new file in one of the
   directories, and a failure no file, when the copy was refused in each directory or
   its name is too long *)
Theorem create_temp_any : forall io d master randoms paths dirs, Forall (fun path => len path < 4096) paths -> (paths = [] /\ dirs = [[]] \/ paths <> [] /\ Forall2 tempDir paths dirs) -> (forall p, noErrors (io p) /\ removes (io p) = true) ->
  match FileCreateTempFile io d master randoms paths with
  | Undefined => False
  | Unending => True
  | Ok (d', Some p, status) => status = Success /\ find p d = None /\ (exists dir name, In dir dirs /\ p = dir ++ name) /\ exists b, find master d = Some b /\ made d d' p b
  | Ok (d', None, status) => status <> Success /\ unchanged d d' /\ (find master d <> None -> Forall (refused io) dirs)
  end.
Proof.
  intros io d master randoms paths dirs Lp Td Io.
  assert (Cp : forall d dir l p, getUniqueLegacyFileName d dir l = Some p -> exists d' st, FileCopy (io p) d master p = Some (d', st) /\ find p d = None /\ (exists name, p = dir ++ name) /\
    (st = Success -> exists b, find master d = Some b /\ made d d' p b) /\ (st <> Success -> unchanged d d' /\ (find master d <> None -> refused io dir))).
  { clear - Io. intros d dir l p E. destruct (legacy_fresh _ _ _ _ E) as (Fp & r & _ & Ep). assert (Rf : canWrite (io p) = false \/ accepts (io p) <> None -> refused io dir) by (intros H; right; exists r; rewrite <- Ep; exact H). destruct (copy_total (io p) d master p) as (d' & st & C). exists d', st. split; [exact C|]. split; [exact Fp|]. split; [exists r; exact Ep|].
    destruct (find master d) as [bm|] eqn:Fm.
    - assert (N : master <> p) by (intros Q; rewrite Q in Fm; congruence). destruct (Io p) as (I1 & I2).
      destruct (copy_cases _ _ _ _ _ _ C N) as [(H & _)|[(b0 & H1 & H2 & -> & ->)|[(b0 & c & H1 & H2 & -> & H3 & H4)|(b0 & H1 & H2 & -> & H3 & H4 & H5)]]].
      + congruence.
      + split; [discriminate|]. intros _. split; [intros q; reflexivity|]. intros _. apply Rf. auto.
      + split; [|congruence]. intros _. exists bm. split; [reflexivity|]. rewrite Fm in H1. injection H1 as <-. rewrite <- (H4 I1). exact H3.
      + split; [discriminate|]. intros _. split; [|intros _; apply Rf; right; exact H3]. intros q. destruct (streq q p) eqn:Q; [apply streq_iff in Q; subst q; rewrite (H5 I2), Fp; reflexivity|]. apply streq_false in Q. auto.
    - unfold FileCopy in C. rewrite Fm in C. injection C as <- <-. split; [discriminate|]. intros _. split; [intros q; reflexivity|congruence]. }
  destruct Td as [(-> & ->)|(Np & Td)].
  - cbn [FileCreateTempFile]. destruct (getUniqueLegacyFileName d [] (hd [] randoms)) as [p|] eqn:E; [|exact I]. destruct (Cp _ _ _ _ E) as (d' & st & C & Fp & (name & En) & Ys & No). rewrite C.
    destruct st; try (split; [discriminate|]; destruct (No ltac:(discriminate)) as (U & Rf); split; [exact U|intros M; constructor; [exact (Rf M)|constructor]]). split; [reflexivity|]. split; [exact Fp|]. split; [exists [], name; split; [left; reflexivity|exact En]|exact (Ys eq_refl)].
  - assert (H : forall paths dirs, Forall2 tempDir paths dirs -> Forall (fun path => len path < 4096) paths -> forall randoms d0 st0, unchanged d d0 -> st0 <> Success ->
      match createTempLoop io d0 master randoms paths st0 with
      | Undefined => False
      | Unending => True
      | Ok (d', Some p, status) => status = Success /\ find p d = None /\ (exists dir name, In dir dirs /\ p = dir ++ name) /\ exists b, find master d = Some b /\ made d d' p b
      | Ok (d', None, status) => status <> Success /\ unchanged d d' /\ (find master d <> None -> Forall (refused io) dirs)
      end).
    { clear - Cp. intros paths dirs Td. induction Td as [|path dir paths dirs T Td IH]; intros Lp randoms d0 st0 U N; cbn [createTempLoop]; [split; [assumption|]; split; [assumption|constructor]|]. inversion_clear Lp as [|? ? L1 L2].
      unfold maxPath. replace (len path + 1 >? 4096) with false by (symmetry; rewrite Z.gtb_ltb; apply Z.ltb_ge; lia). apply tempDir_iff in T. rewrite <- T.
      assert (W : forall randoms d1 st1, unchanged d d1 -> st1 <> Success -> (find master d <> None -> refused io dir) ->
        match createTempLoop io d1 master randoms paths st1 with
        | Undefined => False
        | Unending => True
        | Ok (d', Some p, status) => status = Success /\ find p d = None /\ (exists dir0 name, In dir0 (dir :: dirs) /\ p = dir0 ++ name) /\ exists b, find master d = Some b /\ made d d' p b
        | Ok (d', None, status) => status <> Success /\ unchanged d d' /\ (find master d <> None -> Forall (refused io) (dir :: dirs))
        end).
      { intros rs d1 st1 U1 N1 R1. specialize (IH L2 rs d1 st1 U1 N1). destruct (createTempLoop io d1 master rs paths st1) as [((d2, [p|]), st2)| |]; try exact IH.
        2: { destruct IH as (H1 & H2 & H3). split; [exact H1|]. split; [exact H2|]. intros M. constructor; [exact (R1 M)|exact (H3 M)]. }
        destruct IH as (H1 & H2 & (dir0 & name & H3 & H4) & H5). split; [exact H1|]. split; [exact H2|]. split; [exists dir0, name; split; [right; exact H3|exact H4]|exact H5]. }
      destruct (Z.ltb_spec (len dir + TEMP_UNIQUE_STRING_LENGTH) 4096) as [G|G]; [|apply W; [exact U|discriminate|intros _; left; exact G]]. destruct (getUniqueLegacyFileName d0 dir (hd [] randoms)) as [p|] eqn:E; [|exact I].
      destruct (Cp _ _ _ _ E) as (d' & st & C & Fp & (name & En) & Ys & No). rewrite C.
      destruct st; try (destruct (No ltac:(discriminate)) as (U' & Rf); apply W; [intros q; rewrite (U' q); apply U|discriminate|rewrite <- (U master); exact Rf]).
      split; [reflexivity|]. split; [rewrite <- (U p); exact Fp|]. split; [exists dir, name; split; [left; reflexivity|exact En]|]. destruct (Ys eq_refl) as (b & Fb & Mb & Mo). exists b. rewrite <- (U master). split; [exact Fb|].
      split; [exact Mb|]. intros q Nq. rewrite <- (U q). auto. }
    destruct paths as [|path paths]; [congruence|]. exact (H (path :: paths) dirs Td Lp randoms d NotSet (fun q => eq_refl) ltac:(discriminate)).
Qed.
Print Assumptions create_temp_any.
Example create_temp_any_example : Forall2 tempDir [[97]; [98]] [[97; 47]; [98; 47]] /\
  FileCreateTempFile (fun _ => mkIO true false None None None true) [(mfile, [5])] mfile [[[65]]; [[66]]] [[97]; [98]] = Ok ([(mfile, [5])], None, FileWriteError).
Proof. split; [do 2 (constructor; [apply tempDir_iff; reflexivity|]); constructor|reflexivity]. Qed.

(* C82, a file that is read into memory is all there *)
Theorem read_file : forall d p mallocs reads st mem, FileReadToByteArray d p mallocs reads = (st, mem) ->
  (st = Success -> exists b, find p d = Some b /\ mem = Some b) /\ (st <> Success -> mem = None) /\
  (forall b, find p d = Some b -> b <> [] -> mallocs = true -> reads = None -> st = Success) /\
  (find p d = None -> st = FileNotFound) /\ (forall b, find p d = Some b -> mallocs = false -> st = InsufficientMemory).
Proof.
  intros d p mallocs reads st mem E. unfold FileReadToByteArray in E. destruct (find p d) as [b|] eqn:F.
  - destruct mallocs; [|injection E as <- <-; repeat split; congruence]. destruct ((List.length b =? 0)%nat || (List.length (upTo reads b) <? List.length b)%nat) eqn:Q; injection E as <- <-.
    + split; [discriminate|]. split; [reflexivity|]. split; [|split; [discriminate|discriminate]]. intros b0 H N _ ->. injection H as <-. cbn [upTo] in Q. rewrite Nat.ltb_irrefl, orb_false_r in Q. apply Nat.eqb_eq in Q. destruct b; [congruence|discriminate Q].
    + split; [intros _; exists b; auto|]. split; [congruence|]. split; [auto|]. split; discriminate.
  - injection E as <- <-. repeat split; congruence.
Qed.
Print Assumptions read_file.
Example read_file_example : FileReadToByteArray [([97], [1; 2])] [97] true None = (Success, Some [1; 2]) /\ FileReadToByteArray [([97], [1; 2])] [97] true (Some 1%nat) = (FileFailure, None).
Proof. split; reflexivity. Qed.
(* C82, not an empty file, nor can one be written without failure being reported *)
Theorem read_file_refuted : FileReadToByteArray [([97], [])] [97] true None = (FileFailure, None) /\ FileWrite fine [] [97] [] = ([([97], [])], FileFailure).
Proof. split; reflexivity. Qed.
Print Assumptions read_file_refuted.
(* C82, what is written is in the file *)
Theorem write_file : forall io d p data, snd (FileWrite io d p data) = Success -> reaches io = None -> made d (fst (FileWrite io d p data)) p data.
Proof.
  intros io d p data H R. unfold FileWrite in *. destruct (canWrite io); [|discriminate H]. cbn [fst snd] in *. rewrite R. cbn [upTo].
  destruct ((List.length data =? 0)%nat || (List.length (upTo (accepts io) data) <? List.length data)%nat) eqn:Q; [discriminate H|]. apply orb_false_elim in Q. destruct Q as (_ & Q). apply Nat.ltb_ge in Q.
  assert (U : upTo (accepts io) data = data). { destruct (accepts io) as [k|]; [|reflexivity]. cbn [upTo] in *. rewrite firstn_length in Q. apply firstn_all2. lia. }
  rewrite U. split; [rewrite find_store, streq_refl; reflexivity|]. intros q N. rewrite find_store. now replace (streq q p) with false by (symmetry; now apply streq_false).
Qed.
Print Assumptions write_file.
Example write_file_example : FileWrite fine [([98], [9])] [97] [1; 2] = ([([97], [1; 2]); ([98], [9])], Success) /\ snd (FileWrite (mkIO true true None (Some 1%nat) None true) [] [97] [1; 2]) = FileFailure.
Proof. split; reflexivity. Qed.

(* C83, the data file found is that in the nearest directory above the working
   directory; if none is found there is none below the root *)
Theorem data_path : forall d cwd folder file size, isString cwd -> len cwd < 4096 ->
  match FileGetPath d cwd folder file size with
  | (Success, Some p) => exists a, above cwd a /\ p = dataPath a folder file /\ find p d <> None /\ len p < size /\
      forall a', above cwd a' -> len a < len a' -> find (dataPath a' folder file) d = None
  | (FileNotFound, None) => forall a, above cwd a -> find (dataPath a folder file) d = None
  | (InsufficientMemory, None) => exists a, above cwd a /\ (4096 <= len (dataPath a folder file) \/ (find (dataPath a folder file) d <> None /\ size <= len (dataPath a folder file)))
  | _ => False
  end.
Proof.
  intros d cwd folder file size Cs L. unfold FileGetPath, maxPath. replace (len cwd <? 4096) with true by (symmetry; apply Z.ltb_lt; lia). set (tail := [slash] ++ folder ++ [slash] ++ file).
  assert (Dp : forall k, firstn k cwd ++ tail = dataPath (firstn k cwd) folder file) by reflexivity.
  assert (Ex : forall p, fileExists d p = true <-> find p d <> None) by (intros p; unfold fileExists; destruct (find p d); split; congruence).
  assert (Ef : forall p, fileExists d p = false -> find p d = None) by (intros p; unfold fileExists; destruct (find p d); congruence).
  pose proof (path_loop d cwd tail size Cs (List.length cwd) (le_n _)) as P. destruct (getPathLoop d cwd tail size (List.length cwd)) as ([], [p|]); try exact P.
  - destruct P as (k & K1 & K2 & K3 & K4 & K5 & K6 & K7). exists (firstn k cwd). split; [apply above_iff; exists k; auto|]. split; [exact K3|]. split; [now apply Ex|]. split; [exact K6|].
    intros a' A La. apply above_iff in A. destruct A as (j & J1 & J2 & ->). apply Ef. rewrite <- Dp. apply K7; [|exact J2]. unfold len in La. rewrite !firstn_length in La. lia.
  - intros a A. apply above_iff in A. destruct A as (j & J1 & J2 & ->). apply Ef. rewrite <- Dp. apply P; auto.
  - destruct P as (k & K1 & K2 & K3). exists (firstn k cwd). split; [apply above_iff; exists k; auto|]. rewrite <- Dp. destruct K3 as [K3|(K3 & K4)]; [left; exact K3|right; split; [now apply Ex|exact K4]].
Qed.
Print Assumptions data_path.
Example data_path_example : FileGetPath [([47; 97; 47; 100; 47; 102], [1]); ([47; 97; 47; 98; 47; 99; 47; 100; 47; 102], [1])] [47; 97; 47; 98] [100] [102] 100 = (Success, Some [47; 97; 47; 100; 47; 102])
  /\ above [47; 97; 47; 98] [47; 97] /\ dataPath [47; 97] [100] [102] = [47; 97; 47; 100; 47; 102].
Proof. split; [reflexivity|]. split; [|reflexivity]. split; [discriminate|]. right. exists 47, [98]. split; [now left|reflexivity]. Qed.
(* C83, not in the root: the search does not come to it *)
Theorem data_path_root_refuted : find [47; 100; 47; 102] [([47; 100; 47; 102], [1])] = Some [1] /\ dataPath [] [100] [102] = [47; 100; 47; 102] /\ FileGetPath [([47; 100; 47; 102], [1])] [47; 97] [100] [102] 100 = (FileNotFound, None).
Proof. repeat split. Qed.
Print Assumptions data_path_root_refuted.
