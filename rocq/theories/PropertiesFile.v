(* The properties of comparing, finding and deleting temporary files (file.c) *)
From Verif Require Import FileProofs.

(* C58, files are equal exactly when their sizes and the bytes compared are, if the
   first is not empty and the bytes compared fit the buffer *)
Theorem compare_files : forall d a b n x y, find a d = Some x -> find b d = Some y -> x <> [] -> n <= 1024 \/ len x <= 1024 ->
  (compareFiles d a b n = Equal <-> sameStart n x y) /\ (compareFiles d a b n = Different <-> ~ sameStart n x y).
Proof.
  intros d a b n x y A B X N. destruct (compare_exact d a b n x y A B X N) as [(E & S)|(E & S)]; rewrite E; split; split; intros; try discriminate; try contradiction; auto.
Qed.
Print Assumptions compare_files.
Example compare_files_example :
  let d := [([97], [1; 2; 3]); ([98], [1; 2; 4]); ([99], [1; 2; 3; 4])] in
  compareFiles d [97] [98] (-1) = Different /\ compareFiles d [97] [98] 2 = Equal /\ compareFiles d [97] [99] 2 = Different /\ compareFiles d [97] [97] (-1) = Equal.
Proof. vm_compute. repeat split. Qed.
(* more bytes than the buffer takes at once *)
Example compare_files_long_example :
  let d := [([97], repeat 7 3000); ([98], repeat 7 2999 ++ [8])] in
  compareFiles d [97] [98] (-1) = Different /\ compareFiles d [97] [97] (-1) = Equal /\ compareFiles d [97] [98] 1024 = Equal.
Proof. vm_compute. repeat split. Qed.

(* C58, a file that cannot be read is not equal to another *)
Theorem compare_files_missing : forall d a b n, find a d = None \/ find b d = None -> compareFiles d a b n = Different.
Proof. intros d a b n H. exact (proj2 (compare_missing d a b n H)). Qed.
Print Assumptions compare_files_missing.

(* C58, the buffers overflow if more than their size is to be compared *)
Theorem compare_files_overflow_refuted : forall d a b n x y, find a d = Some x -> find b d = Some y -> len x = len y -> 1024 < len x -> 1024 < n -> compareFiles d a b n = Overflow.
Proof.
  intros d a b n x y A B E L N. rewrite (compare_cases d a b n x y A B). unfold len in *. destruct x as [|c x]; [cbn in L; lia|].
  replace (List.length (c :: x) =? List.length y)%nat with true by (symmetry; apply Nat.eqb_eq; lia). cbn [negb]. replace (n <? 0) with false by (symmetry; apply Z.ltb_ge; lia).
  unfold bufferSize, len. replace (n >? 1024) with true by (symmetry; rewrite Z.gtb_ltb; apply Z.ltb_lt; lia). replace (Z.of_nat (List.length (c :: x)) >? 1024) with true by (symmetry; rewrite Z.gtb_ltb; apply Z.ltb_lt; lia). reflexivity.
Qed.
Print Assumptions compare_files_overflow_refuted.
Example compare_files_overflow_example : compareFiles [([97], repeat 1 1025); ([98], repeat 2 1025)] [97] [98] 1025 = Overflow.
Proof. vm_compute. reflexivity. Qed.

(* C58, an empty file is equal to any other *)
Theorem compare_files_empty_refuted : forall d a b n y, find a d = Some [] -> find b d = Some y -> compareFiles d a b n = Equal.
Proof. intros d a b n y A B. now rewrite (compare_cases d a b n [] y A B). Qed.
Print Assumptions compare_files_empty_refuted.
Example compare_files_empty_example : compareFiles [([97], []); ([98], [1])] [97] [98] (-1) = Equal /\ ~ sameStart (-1) [] [1].
Proof. split; [reflexivity|]. intros (H & _). discriminate H. Qed.

(* the base name of the master file can be got (C57) *)
Definition goodMaster (master masterName base : cstring) : Prop :=
  isFileName master masterName /\ isBaseName masterName base /\ (In 46 master -> In 46 masterName) /\ len master < 2 ^ 63 /\ len base < 4096.
Lemma good_base master masterName base : goodMaster master masterName base -> getBasenameWithoutExtension master maxPath = Some (PathSuccess base).
Proof.
  intros (F & B & D & L & Lb). unfold getBasenameWithoutExtension. pose proof (isFileName_fun _ _ _ (getName_isFileName master) F) as N. rewrite N. unfold dotChar, maxPath, len in *.
  assert (Ln : (List.length masterName <= List.length master)%nat) by (rewrite <- N; rewrite skipn_length; lia).
  destruct (base_cases master masterName F) as [Nd|[(dir & b & ext & E1 & E2 & E3 & E4 & E5)|(dot & Nd & E & _)]].
  - assert (Nn : ~ In 46 masterName) by (intros I; apply Nd; rewrite <- N in I; rewrite <- (firstn_skipn (getNameFromPath master) master); apply in_or_app; now right).
    unfold strrchr. rewrite (strrchr_none 46 master Nd). assert (base = masterName) as -> by (apply (isBaseName_fun masterName); [exact B|now left]).
    unfold size_t. rewrite Z.mod_small by lia. replace (Z.of_nat (List.length masterName) + 1 >? 4096) with false by (symmetry; rewrite Z.gtb_ltb; apply Z.ltb_ge; lia). now rewrite Nat2Z.id, firstn_all.
  - assert (base = b) as -> by (apply (isBaseName_fun masterName); [exact B|right; exists ext; auto]). rewrite E4, E2.
    replace (Z.of_nat (List.length dir + List.length b) - Z.of_nat (List.length dir)) with (Z.of_nat (List.length b)) by lia.
    unfold size_t. rewrite (Z.mod_small (Z.of_nat (List.length b))) by lia. rewrite Z.mod_small by lia. replace (Z.of_nat (List.length b) + 1 >? 4096) with false by (symmetry; rewrite Z.gtb_ltb; apply Z.ltb_ge; lia).
    rewrite Nat2Z.id, E3, firstn_app, Nat.sub_diag, firstn_all, firstn_O, app_nil_r. reflexivity.
  - exfalso. apply Nd, D. destruct (char_split 46 master) as [Np|(a & b & -> & _)]; [unfold strrchr in E; rewrite (strrchr_none 46 master Np) in E; discriminate E|]. apply in_or_app. right. now left.
Qed.

(* C78, a file found in the first directory is a copy of the master file, and one is
   found if there is one *)
Theorem temp_found : forall d master masterName base path0 rest n m,
  goodMaster master masterName base -> find master d = Some m -> m <> [] ->
  (forall p, FileGetExistingTempFile d master (path0 :: rest) n = Found p -> inDir path0 p /\ isCopy d n master p) /\
  (FileGetExistingTempFile d master (path0 :: rest) n = NotFound -> forall p, inDir path0 p -> ~ isCopy d n master p).
Proof.
  intros d master masterName base path0 rest n m G Fm Ne. unfold FileGetExistingTempFile. rewrite (good_base _ _ _ G). destruct G as (F & B & _).
  destruct (loop_sound master base masterName n m F B Ne d path0 (List.length (path0 :: rest)) Fm) as (L1 & L2). split; [exact L1|]. apply L2. cbn. lia.
Qed.
Print Assumptions temp_found.
(* nothing overflows if the paths fit and the bytes compared do *)
Theorem temp_found_safe : forall d master masterName base path0 rest n m,
  goodMaster master masterName base -> find master d = Some m -> m <> [] -> n <= 1024 \/ len m <= 1024 -> len path0 + 1 < 4096 -> (forall p, In p (map fst d) -> inDir path0 p -> len p < 4096) ->
  FileGetExistingTempFile d master (path0 :: rest) n <> SearchOverflow.
Proof.
  intros d master masterName base path0 rest n m G Fm Ne N L LP. unfold FileGetExistingTempFile. rewrite (good_base _ _ _ G). destruct G as (F & B & _).
  exact (loop_total master base n m Ne d path0 (List.length (path0 :: rest)) Fm N L LP).
Qed.
Print Assumptions temp_found_safe.

(* master file m.d, copies in directories a and b *)
Definition mfile : cstring := [47; 109; 46; 100].
Definition aCopy : cstring := [97; 47; 109; 45; 49].
Definition bCopy : cstring := [98; 47; 109; 45; 50].
Lemma mfile_good : goodMaster mfile [109; 46; 100] [109].
Proof.
  split; [split; [intros c; cbn; intuition (subst; unfold isSep in *; intuition discriminate)|right; exists [], 47; split; [now left|reflexivity]]|].
  split; [right; exists [100]; split; [cbn; intuition discriminate|reflexivity]|]. split; [intros _; cbn; auto|split; reflexivity].
Qed.
Example temp_found_example : goodMaster mfile [109; 46; 100] [109] /\ find mfile [(mfile, [1; 2]); (aCopy, [1; 2])] = Some [1; 2] /\
  FileGetExistingTempFile [(mfile, [1; 2]); (aCopy, [1; 2])] mfile [[97]] (-1) = Found aCopy /\
  FileGetExistingTempFile [(mfile, [1; 2]); (aCopy, [1; 3])] mfile [[97]] (-1) = NotFound.
Proof. split; [exact mfile_good|]. vm_compute. repeat split. Qed.

(* C78, not in the other directories: a copy there is not found *)
Lemma aCopy_copy : isCopy [(mfile, [1; 2]); (bCopy, [1; 2])] (-1) mfile bCopy.
Proof.
  exists [1; 2], [1; 2], [109; 46; 100], [109], [109; 45; 50], [45; 50]. destruct mfile_good as (F & B & _).
  split; [reflexivity|]. split; [reflexivity|]. split; [split; auto|]. split; [exact F|]. split; [exact B|]. split; [|split; [discriminate|reflexivity]].
  split; [intros c; cbn; intuition (subst; unfold isSep in *; intuition discriminate)|right; exists [98], 47; split; [now left|reflexivity]].
Qed.
Theorem temp_found_refuted : let d := [(mfile, [1; 2]); (bCopy, [1; 2])] in
  inDir [98] bCopy /\ isCopy d (-1) mfile bCopy /\ FileGetExistingTempFile d mfile [[97]; [98]] (-1) = NotFound.
Proof.
  cbv zeta. split; [|split; [exact aCopy_copy|reflexivity]]. exists [109; 45; 50]. split; [discriminate|]. split; [cbn; intuition discriminate|].
  exists [], 98. split; [reflexivity|]. right. split; [intros [H|H]; discriminate H|reflexivity].
Qed.
Print Assumptions temp_found_refuted.
Lemma base_defined : forall master, len master < 2 ^ 63 -> getBasenameWithoutExtension master maxPath <> None.
Proof.
  intros master L. unfold getBasenameWithoutExtension, maxPath. set (name := skipn (getNameFromPath master) master).
  assert (F : isFileName master name) by apply getName_isFileName. pose proof (skipn_length (getNameFromPath master) master) as Ls. fold name in Ls. unfold len in L.
  assert (G : (getNameFromPath master <= List.length master)%nat).
  { destruct (path_split master) as [N|(d1 & s & n1 & I & E & N)]; [rewrite getName_none by exact N; lia|rewrite E, getName_some by assumption; rewrite app_length; cbn; lia]. }
  unfold dotChar. destruct (base_cases master name F) as [Nd|[(dir & b & ext & E1 & E2 & E3 & E4 & E5)|(dot & Nd & E & D)]].
  - unfold strrchr. rewrite (strrchr_none 46 master Nd). unfold size_t. rewrite Z.mod_small by lia. destruct (_ >? 4096); discriminate.
  - rewrite E4, E2. replace (Z.of_nat (List.length dir + List.length b) - Z.of_nat (List.length dir)) with (Z.of_nat (List.length b)) by lia.
    assert (Lb : (List.length b <= List.length name)%nat) by (rewrite E3, app_length; lia). unfold size_t. rewrite (Z.mod_small (Z.of_nat (List.length b))) by lia. rewrite Z.mod_small by lia. destruct (_ >? 4096); discriminate.
  - rewrite E. unfold size_t. rewrite <- (Z.mod_unique (Z.of_nat dot - Z.of_nat (getNameFromPath master)) (2 ^ 64) (-1) (2 ^ 64 + (Z.of_nat dot - Z.of_nat (getNameFromPath master)))) by lia. rewrite Z.mod_small by lia.
    destruct (Z.gtb_spec (2 ^ 64 + (Z.of_nat dot - Z.of_nat (getNameFromPath master)) + 1) 4096); [discriminate|lia].
Qed.
(* C78, not without paths: the working directory is never searched *)
Theorem temp_found_none_refuted : forall d master n, len master < 2 ^ 63 -> FileGetExistingTempFile d master [] n = NotFound.
Proof.
  intros d master n L. unfold FileGetExistingTempFile. destruct (getBasenameWithoutExtension master maxPath) as [[b|]|] eqn:E; [reflexivity|reflexivity|]. exfalso. exact (base_defined master L E).
Qed.
Print Assumptions temp_found_none_refuted.

(* C79, exactly the copies in the first directory that are not in use and can be
   removed are deleted, and they are counted modulo 256 *)
Theorem temp_deleted : forall u d master masterName base path0 rest n m d' k,
  goodMaster master masterName base -> find master d = Some m -> m <> [] -> onePath d -> n <= 1024 \/ len m <= 1024 ->
  FileDeleteUnusedTempFiles u d master (path0 :: rest) n = Some (d', k) ->
  (forall p, inDir path0 p -> isCopy d n master p -> inUse u p = false -> keeps u p = false -> find p d' = None) /\
  (forall p, ~ (inDir path0 p /\ isCopy d n master p /\ inUse u p = false /\ keeps u p = false) -> find p d' = find p d) /\
  (List.length d' <= List.length d)%nat /\ k = Z.of_nat (List.length d - List.length d') mod 256.
Proof.
  intros u d master masterName base path0 rest n m d' k G Fm Ne O N E. unfold FileDeleteUnusedTempFiles in E. rewrite (good_base _ _ _ G) in E. destruct G as (F & B & _).
  destruct (loop_delete master base n u path0 (List.length (path0 :: rest)) d 0 d' k ltac:(cbn; lia) O E ltac:(lia)) as (_ & L & K & FP).
  assert (Gi : forall p, goes master base n u d p = true <-> isCopy d n master p /\ inUse u p = false /\ keeps u p = false).
  { intros p. unfold goes. destruct (iter_sound master base masterName n m F B Ne d p Fm) as (S1 & S2). destruct (iter_total master base n m Ne d p Fm N) as [Q|Q]; rewrite Q in *.
    - rewrite andb_true_iff, !negb_true_iff. split; [intros H; split; [auto|exact H]|tauto].
    - split; [discriminate|]. intros (C & _). exfalso. exact (S2 eq_refl C). }
  split; [|split; [|split; [exact L|exact K]]].
  - intros p D C U Kp. apply (FP p). split; [|exact D]. apply Gi. auto.
  - intros p H. apply (FP p). intros (Q & D). apply Gi in Q. tauto.
Qed.
Print Assumptions temp_deleted.
Example temp_deleted_example : let d := [(mfile, [1; 2]); (aCopy, [1; 2]); ([97; 47; 109], [1; 2]); ([97; 47; 110], [1; 2]); (bCopy, [1; 2])] in
  onePath d /\ FileDeleteUnusedTempFiles {| inUse := fun p => streq p [97; 47; 109]; keeps := fun _ => false |} d mfile [[97]; [98]] (-1) = Some ([(mfile, [1; 2]); ([97; 47; 109], [1; 2]); ([97; 47; 110], [1; 2]); (bCopy, [1; 2])], 1).
Proof. cbv zeta. split; [repeat constructor; cbn; intuition discriminate|vm_compute; reflexivity]. Qed.

(* C79, not the number deleted: 256 copies are deleted and none is reported *)
Definition manyNames : list cstring := flat_map (fun i => map (fun j => [97; 47; 109; 128 + Z.of_nat i; 128 + Z.of_nat j]) (seq 0 16)) (seq 0 16).
Theorem temp_deleted_refuted : let d := (mfile, [1]) :: map (fun p => (p, [1])) manyNames in
  List.length manyNames = 256%nat /\ FileDeleteUnusedTempFiles {| inUse := fun _ => false; keeps := fun _ => false |} d mfile [[97]] (-1) = Some ([(mfile, [1])], 0).
Proof. vm_compute. split; reflexivity. Qed.
Print Assumptions temp_deleted_refuted.
(* C79, not in the other directories *)
Theorem temp_deleted_others_refuted : let d := [(mfile, [1; 2]); (bCopy, [1; 2])] in
  inDir [98] bCopy /\ isCopy d (-1) mfile bCopy /\ FileDeleteUnusedTempFiles {| inUse := fun _ => false; keeps := fun _ => false |} d mfile [[97]; [98]] (-1) = Some (d, 0).
Proof. cbv zeta. destruct temp_found_refuted as (H1 & H2 & _). split; [exact H1|]. split; [exact H2|reflexivity]. Qed.
Print Assumptions temp_deleted_others_refuted.
(* C79, without paths nothing is deleted *)
Theorem temp_deleted_none_refuted : forall u d master n, len master < 2 ^ 63 -> FileDeleteUnusedTempFiles u d master [] n = Some (d, 0).
Proof.
  intros u d master n L. unfold FileDeleteUnusedTempFiles. destruct (getBasenameWithoutExtension master maxPath) as [[b|]|] eqn:E; [reflexivity|reflexivity|]. exfalso. exact (base_defined master L E).
Qed.
Print Assumptions temp_deleted_none_refuted.
