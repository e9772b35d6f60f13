(* C91: the files of a data set *)
From Verif Require Export DataSetFileProofs PropertiesFile.

(* C91: without temp files the working file is the master file, and neither
   initialising nor freeing the data set changes the disk. *)
Theorem dataset_file_direct : forall s c d f name n, useTempFile c = false -> isString name -> len name < len (masterFileName f) -> len name < len (fileName f) ->
  exists f', DataSetInitFromFile s c d f name n = Ok (d, f', FileStatus Success) /\ holds (masterFileName f') name /\ holds (fileName f') name /\
    freeTempFile s c d f' = Some d.
Proof.
  intros s c d f name n U I L1 L2. destruct (init_start s c d f name n I L1 L2) as (H & E). rewrite E, U. destruct (strncpy_part (fileName f) name L2) as (rest & -> & _).
  eexists. split; [reflexivity|]. split; [exact H|]. split; [split; [exact I|exists rest; reflexivity]|]. unfold freeTempFile. now rewrite U.
Qed.
Print Assumptions dataset_file_direct.
(* C91: a name that does not fit is refused, and nothing is changed. *)
Theorem dataset_file_long : forall s c d f name n, len (masterFileName f) <= len name \/ len (fileName f) <= len name ->
  DataSetInitFromFile s c d f name n = Ok (d, f, FileStatus FilePathTooLong).
Proof.
  intros s c d f name n H. unfold DataSetInitFromFile. destruct (Z.gtb_spec (len name + 1) (len (masterFileName f))); [reflexivity|]. destruct (Z.gtb_spec (len name + 1) (len (fileName f))); [reflexivity|]. lia.
Qed.
Print Assumptions dataset_file_long.

(* C91: with one temp directory a new temp file is a copy of the master under a new
   name, nothing else changes, the content read into memory is that of the master, and
   freeing the data set leaves the disk as it was before. *)
Theorem dataset_file_new : forall s c d f name n path dir d' f',
  useTempFile c = true -> tempDirs c = [path] -> (reuseTempFile c = false \/ FileGetExistingTempFile d name [path] n = NotFound) ->
  (forall p, noErrors (sysIo s p)) -> (forall p, sysKeeps s p = false) ->
  isString name -> isString (sysPid s) -> isString path -> Forall (Forall isString) (sysRandoms s) -> tempDir path dir -> len dir <> len (fileName f) ->
  len name < len (masterFileName f) -> len name < len (fileName f) -> len (fileName f) < 2 ^ 63 ->
  DataSetInitFromFile s c d f name n = Ok (d', f', FileStatus Success) ->
  exists p b, holds (masterFileName f') name /\ holds (fileName f') p /\ find p d = None /\ find name d = Some b /\ made d d' p b /\
    (exists rest, p = dir ++ rest) /\
    (forall mallocs reads mem, DataSetInitInMemory d' f' mallocs reads = Some (Success, mem) -> mem = Some b) /\
    exists d'', freeTempFile s c d' f' = Some d'' /\ unchanged d d''.
Proof.
  intros s c d f name n path dir d' f' U Ps Nf Io Kp I Ip Ih Ir Td Nd L1 L2 L3 E. destruct (init_start s c d f name n I L1 L2) as (H & E'). rewrite E', U in E. clear E'.
  unfold initWithTempFile in E. rewrite (proj2 (string_holds _ _) H) in E. cbn [fileName masterFileName] in E. rewrite Ps in E.
  assert (T : match FileNewTempFile (sysIo s) d name (sysPid s) (sysRandoms s) [path] (fileName f) with
      | Ok (d', buf, status) => Ok (d', mkDataSetFiles (name ++ repeat 0 (List.length (masterFileName f) - List.length name)) buf, FileStatus status)
      | Undefined => Undefined | Unending => Unending end = Ok (d', f', FileStatus Success)).
  { destruct (reuseTempFile c); [|exact E]. destruct Nf as [Nf|Nf]; [discriminate|]. rewrite Nf in E. exact E. }
  clear E. pose proof (new_temp (sysIo s) d name (sysPid s) (sysRandoms s) path dir (fileName f) I Ip Ih Ir ltac:(lia) ltac:(lia) Td Nd) as W.
  destruct (FileNewTempFile _ _ _ _ _ _ _) as [((d1 & buf) & st)| |]; [|discriminate|discriminate]. injection T as <- <- ->. destruct W as (_ & p & nm & b & b' & Sp & Ep & Fp & Fm & M & C). rewrite (C (Io p)) in M.
  exists p, b. split; [exact H|]. split; [now apply string_holds|]. split; [exact Fp|]. split; [exact Fm|]. split; [exact M|]. split; [now exists nm|]. split.
  - intros mallocs reads mem Q. unfold DataSetInitInMemory in Q. cbn [fileName] in Q. rewrite Sp in Q. cbn [option_map] in Q. injection Q as Q. unfold FileReadToByteArray in Q. rewrite (proj1 M) in Q. destruct mallocs; [|discriminate]. destruct (_ || _); [discriminate|]. injection Q as <-. reflexivity.
  - unfold freeTempFile. rewrite U. cbn [fileName]. rewrite Sp. cbn [option_map]. rewrite (Kp p). eexists. split; [reflexivity|]. intros q. rewrite find_remove. destruct (streq p q) eqn:Q; [apply streq_iff in Q; congruence|]. apply (proj2 M). intros ->. rewrite streq_refl in Q. discriminate.
Qed.
Print Assumptions dataset_file_new.

(* C91: a temp file that is used again is a copy of the master in the temp directory,
   and nothing is written. *)
Theorem dataset_file_reused : forall s c d f name masterName base n path0 rest m p,
  useTempFile c = true -> reuseTempFile c = true -> tempDirs c = path0 :: rest -> goodMaster name masterName base -> find name d = Some m -> m <> [] ->
  isString name -> len (masterFileName f) = 4096 -> len (fileName f) = 4096 -> len name < 4096 -> isString p ->
  FileGetExistingTempFile d name (path0 :: rest) n = Found p ->
  exists f', DataSetInitFromFile s c d f name n = Ok (d, f', FileStatus Success) /\ holds (masterFileName f') name /\ holds (fileName f') p /\ inDir path0 p /\ isCopy d n name p /\ p <> name.
Proof.
  intros s c d f name masterName base n path0 rest m p U R T G F Ne I L1 L2 L Ip E. destruct (init_start s c d f name n I ltac:(lia) ltac:(lia)) as (H & E'). rewrite E', U. clear E'.
  unfold initWithTempFile. rewrite (proj2 (string_holds _ _) H). cbn [fileName masterFileName]. rewrite R, T, E.
  destruct (found_other _ _ _ _ _ E) as (N & Lp & _). unfold strcpy. unfold maxPath in Lp. replace (len p + 1 >? len (fileName f)) with false by (symmetry; rewrite Z.gtb_ltb; apply Z.ltb_ge; lia).
  eexists. split; [reflexivity|]. split; [exact H|]. cbn [fileName]. split; [split; [exact Ip|]; unfold write; cbn [firstn app]; rewrite <- app_assoc; eexists; reflexivity|].
  destruct (temp_found d name masterName base path0 rest n m G F Ne) as (W & _). destruct (W p E) as (W1 & W2). auto.
Qed.
Print Assumptions dataset_file_reused.

(* C91: whatever succeeds or fails, and whatever the configuration, the master file is
   the same after a data set was initialised and freed, and so is every file that was
   there if temp files are not used again. *)
Theorem dataset_file_keeps : forall s c d f name n d' f' st d'', isString name -> cleared (fileName f) -> (forall q, find q d <> None -> q <> [] /\ isString q) ->
  DataSetInitFromFile s c d f name n = Ok (d', f', st) -> freeTempFile s c d' f' = Some d'' ->
  kept d d' /\ forall q, find q d <> None -> q = name \/ reuseTempFile c = false -> find q d'' = find q d.
Proof.
  intros s c d f name n d' f' st d'' I C Em E Fr. unfold freeTempFile in Fr.
  assert (Rm : forall p q, p <> q -> find q (remove p d') = find q d'). { intros p q Q. rewrite find_remove. destruct (streq p q) eqn:Sq; [apply streq_iff in Sq; congruence|reflexivity]. }
  assert (Ar : forall p, stringIn (fileName f') = Some p -> forall q, p <> q -> find q d'' = find q d').
  { intros p Sp q Q. rewrite Sp in Fr. destruct (useTempFile c); [|now injection Fr as <-]. cbn [option_map] in Fr. injection Fr as <-. destruct (sysKeeps s p); [reflexivity|now apply Rm]. }
  assert (Kc : cleared (fileName f') -> kept d d' -> forall q, find q d <> None -> find q d'' = find q d).
  { intros Cf K q Q. rewrite (Ar [] (cleared_string _ Cf)); [now apply K|]. intros <-. now destruct (Em [] Q). }
  destruct (Z_lt_le_dec (len name) (len (masterFileName f))) as [L1|L1]; [|rewrite dataset_file_long in E by auto; injection E as <- <- <-; split; [intros q _; reflexivity|]; intros q Q _; apply Kc; [exact C|intros r _; reflexivity|exact Q]].
  destruct (Z_lt_le_dec (len name) (len (fileName f))) as [L2|L2]; [|rewrite dataset_file_long in E by auto; injection E as <- <- <-; split; [intros q _; reflexivity|]; intros q Q _; apply Kc; [exact C|intros r _; reflexivity|exact Q]].
  destruct (init_start s c d f name n I L1 L2) as (H & E'). rewrite E' in E. clear E'. destruct (useTempFile c) eqn:U.
  - unfold initWithTempFile in E. rewrite (proj2 (string_holds _ _) H) in E. cbn [fileName masterFileName] in E.
    set (mbuf := name ++ repeat 0 (List.length (masterFileName f) - List.length name)) in *.
    assert (New : match FileNewTempFile (sysIo s) d name (sysPid s) (sysRandoms s) (tempDirs c) (fileName f) with
      | Ok (d', buf, status) => Ok (d', mkDataSetFiles mbuf buf, FileStatus status) | Undefined => Undefined | Unending => Unending end = Ok (d', f', st) ->
      kept d d' /\ forall q, find q d <> None -> q = name \/ reuseTempFile c = false -> find q d'' = find q d).
    { intros T. destruct (FileNewTempFile _ _ _ _ _ _ _) as [((d1 & buf) & st1)| |] eqn:W; [|discriminate|discriminate]. injection T as <- <- <-. cbn [fileName] in *.
      destruct (new_kept _ _ _ _ _ _ _ _ _ _ W) as (K & Sc). split; [exact K|]. intros q Q _. destruct st1; try (apply Kc; [exact (new_failed _ _ _ _ _ _ _ _ _ _ C W ltac:(discriminate))|exact K|exact Q]).
      destruct (Sc eq_refl) as (p & Sp & Fp). rewrite (Ar p Sp); [now apply K|]. intros <-. congruence. }
    destruct (reuseTempFile c) eqn:R; [|exact (New E)]. destruct (FileGetExistingTempFile d name (tempDirs c) n) as [p| |] eqn:G; [|exact (New E)|discriminate].
    unfold strcpy in E. destruct (_ >? _); [discriminate|]. injection E as <- <- <-. split; [intros q _; reflexivity|]. intros q Q [->|?]; [|discriminate].
    destruct (found_other _ _ _ _ _ G) as (N & _ & Fp). cbn [option_map fileName] in Fr, Ar.
    apply (Ar p); [|exact N]. apply string_holds. split; [exact (proj2 (Em p Fp))|]. unfold write. cbn [firstn app]. rewrite <- app_assoc. eexists. reflexivity.
  - destruct (strncpy_part (fileName f) name L2) as (rest & Es & _). rewrite Es in E. injection E as <- <- <-. injection Fr as <-. split; intros q; auto.
Qed.
Print Assumptions dataset_file_keeps.

(* a master file /m.d; the temp directory is a *)
Definition sys1 : System := mkSystem (fun _ => fine) [49] [[[65]]; [[66]]] (fun _ => false).
Definition noFiles : DataSetFiles := mkDataSetFiles (repeat 0 20) (repeat 0 20).
(* the disk after the data set was initialised, the name of the working file, the status,
   and the disk after the data set was freed *)
Definition lifeOf (c : FileConfig) (d : Disk) (n : Z) :=
  match DataSetInitFromFile sys1 c d noFiles mfile n with
  | Ok (d', f, st) => Some (d', stringIn (fileName f), st, freeTempFile sys1 c d' f)
  | _ => None
  end.
Example dataset_file_example :
  lifeOf (mkFileConfig false true [[97]]) [(mfile, [5])] (-1) = Some ([(mfile, [5])], Some mfile, FileStatus Success, Some [(mfile, [5])]) /\
  lifeOf (mkFileConfig true true [[97]]) [(mfile, [5])] (-1) = Some ([(aTemp, [5]); (mfile, [5])], Some aTemp, FileStatus Success, Some [(mfile, [5])]) /\
  lifeOf (mkFileConfig true false [[97]]) [] (-1) = Some ([], Some [], FileStatus FileNotFound, Some []) /\
  cleared (fileName noFiles).
Proof. repeat split; try reflexivity; [discriminate|repeat constructor]. Qed.
Example dataset_file_reused_example : FileGetExistingTempFile [(mfile, [5]); (aTemp, [5])] mfile [[97]] (-1) = Found aTemp /\
  lifeOf (mkFileConfig true true [[97]]) [(mfile, [5]); (aTemp, [5])] (-1) = Some ([(mfile, [5]); (aTemp, [5])], Some aTemp, FileStatus Success, Some [(mfile, [5])]).
Proof. split; reflexivity. Qed.

(* C91, not with several temp directories: when the data set is freed the copies in the
   others are left *)
Theorem dataset_file_left_refuted : exists d' w,
  lifeOf (mkFileConfig true false [[97]; [98]]) [(mfile, [5])] (-1) = Some (d', Some bTemp, FileStatus Success, Some w) /\ find aTemp [(mfile, [5])] = None /\ find aTemp w = Some [5].
Proof. do 2 eexists. split; [reflexivity|]. split; reflexivity. Qed.
Print Assumptions dataset_file_left_refuted.
(* C91, not if only some bytes are compared: a working file that is used again may
   have other content than the master *)
Theorem dataset_file_content_refuted : exists d, lifeOf (mkFileConfig true true [[97]]) d 1 = Some (d, Some aTemp, FileStatus Success, Some [(mfile, [5; 6])]) /\ find aTemp d <> find mfile d.
Proof. exists [(mfile, [5; 6]); (aTemp, [5; 7])]. split; [reflexivity|discriminate]. Qed.
Print Assumptions dataset_file_content_refuted.

