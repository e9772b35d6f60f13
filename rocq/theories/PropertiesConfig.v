(* C89: ConfigBase.cpp *)
From Verif Require Export ConfigProofs.

(* C89: after any calls the configuration has the settings of the last call of each
   kind, and the C code reads the directories that were set last, as C strings. *)
Theorem config_set : forall upper use reuse calls, exists w, runs true calls (newConfig upper use reuse) = Some w /\
  usesUpperPrefixedHeaders (config w) = lastOf upperOf upper calls /\ useTempFile (config w) = lastOf useOf use calls /\ reuseTempFile (config w) = lastOf reuseOf reuse calls /\
  let dirs := lastOf dirsOf [] calls in
  strings w = dirs /\ tempDirCount (config w) = Z.of_nat (List.length dirs) /\
  forall i s, nth_error dirs i = Some s -> exists t, tempDir w i = Some t /\ textBefore s t.
Proof.
  intros upper use reuse calls. destruct (runs_good calls (newConfig upper use reuse) 0) as (w & E & G & A1 & A2 & A3 & A4); [repeat split; constructor|].
  exists w. split; [exact E|]. split; [exact A2|]. split; [exact A3|]. split; [exact A4|]. cbv zeta. cbn [newConfig strings] in A1. rewrite <- A1. split; [reflexivity|].
  destruct G as (G1 & _ & _ & _ & G5). split; [exact G1|]. intros i s N. cbn [Nat.add] in G5. destruct (setsDirs calls).
  - destruct G5 as (_ & Es). rewrite Es in N. destruct i; discriminate N.
  - destruct G5 as (a & rest & T & Ar). assert (L : (i < List.length (strings w))%nat) by (apply nth_error_Some; congruence).
    exists (cText s). split; [|apply ctext_before]. unfold tempDir. rewrite T, Ar. cbn [find fst]. rewrite Nat.eqb_refl.
    assert (P : nth_error (map (mkPointer (now w)) (seq 0 (List.length (strings w)))) i = Some (mkPointer (now w) i)).
    { rewrite (map_nth_error _ _ _ (d := i)); [reflexivity|]. rewrite (nth_error_nth' _ 0%nat) by (rewrite seq_length; exact L). f_equal. now rewrite seq_nth. }
    rewrite P. unfold textAt. cbn [version at_]. rewrite Nat.eqb_refl, N. reflexivity.
Qed.
Print Assumptions config_set.
Example config_set_example : match runs true [SetDirs [[97]; [98; 0; 99]]; SetUse true; SetDirs [[100]; [101; 0; 102]]; SetUse false; SetUpper true] (newConfig false false true) with
  | Some w => tempDir w 0 = Some [100] /\ tempDir w 1 = Some [101] /\ tempDirCount (config w) = 2 /\ useTempFile (config w) = false /\ usesUpperPrefixedHeaders (config w) = true /\ reuseTempFile (config w) = true
  | None => False end.
Proof. vm_compute. repeat split. Qed.

(* C89: the destructor leaves the configuration without directories; one array for each
   call that set directories, but the last, is still allocated. *)
Theorem config_destroyed : forall upper use reuse calls, exists w w', runs true calls (newConfig upper use reuse) = Some w /\ destroy w = Some w' /\
  tempDirs (config w') = None /\ tempDirCount (config w') = 0 /\ List.length (arrays w') = pred (setsDirs calls) /\
  destroy w' <> None.
Proof.
  intros upper use reuse calls. destruct (runs_good calls (newConfig upper use reuse) 0) as (w & E & G & _); [repeat split; constructor|].
  exists w. destruct G as (_ & _ & G3 & _ & G5). cbn [Nat.add] in *. unfold destroy, freeTempDirectories. destruct (setsDirs calls) as [|k].
  - destruct G5 as (T & _). rewrite T. eexists. split; [exact E|]. split; [reflexivity|]. cbn. repeat split; [exact G3|discriminate].
  - destruct G5 as (a & rest & T & Ar). rewrite T, Ar. cbn [freeArray fst]. rewrite Nat.eqb_refl. eexists. split; [exact E|]. split; [reflexivity|]. cbn. repeat split; [|discriminate]. rewrite Ar in G3. cbn in G3. lia.
Qed.
Print Assumptions config_destroyed.
(* so all memory is freed if directories are set at most once *)
Theorem config_freed : forall upper use reuse calls, (setsDirs calls <= 1)%nat ->
  exists w w', runs true calls (newConfig upper use reuse) = Some w /\ destroy w = Some w' /\ arrays w' = [].
Proof.
  intros upper use reuse calls H. destruct (config_destroyed upper use reuse calls) as (w & w' & E & D & _ & _ & L & _). exists w, w'. split; [exact E|]. split; [exact D|]. destruct (arrays w'); [reflexivity|]. cbn in L. lia.
Qed.
Print Assumptions config_freed.
Example config_freed_example : exists w w', runs true [SetUse true; SetDirs [[97]]; SetReuse true] (newConfig false false false) = Some w /\ List.length (arrays w) = 1%nat /\ destroy w = Some w' /\ arrays w' = [].
Proof. do 2 eexists. repeat split. Qed.
(* C89, not if they are set twice *)
Theorem config_freed_refuted : exists calls w w', runs true calls (newConfig false false false) = Some w /\ destroy w = Some w' /\ arrays w' <> [].
Proof. exists [SetDirs [[97]]; SetDirs [[98]]]. do 2 eexists. split; [reflexivity|]. split; [reflexivity|]. discriminate. Qed.
Print Assumptions config_freed_refuted.
(* C89, not without memory: NULL is written to *)
Theorem config_memory_refuted : forall w d dirs, run false (SetDirs (d :: dirs)) w = None.
Proof. reflexivity. Qed.
Print Assumptions config_memory_refuted.
(* C89, an empty list of directories needs no memory: the count is 0 whatever was set *)
Theorem config_no_dirs : forall w, exists w', run false (SetDirs []) w = Some w' /\
  tempDirs (config w') = None /\ tempDirCount (config w') = 0 /\ strings w' = [] /\
  usesUpperPrefixedHeaders (config w') = usesUpperPrefixedHeaders (config w) /\ useTempFile (config w') = useTempFile (config w) /\
  reuseTempFile (config w') = reuseTempFile (config w).
Proof. intros w. eexists. split; [reflexivity|]. cbn. auto 10. Qed.
Print Assumptions config_no_dirs.
Example config_no_dirs_example : exists w w', runs true [SetDirs [[97]; [98]]] (newConfig false true false) = Some w /\
  tempDirCount (config w) = 2 /\ run false (SetDirs []) w = Some w' /\ tempDirCount (config w') = 0.
Proof. do 2 eexists. repeat split. Qed.
