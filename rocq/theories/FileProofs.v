(* Proofs about comparing, finding and deleting files *)
From Verif Require Export FilePathProofs FileSpec.

Lemma streq_refl s : streq s s = true.
Proof. now apply streq_iff. Qed.
Lemma streq_false a b : streq a b = false <-> a <> b.
Proof. pose proof (streq_iff a b) as H. destruct (streq a b); split; try congruence; intros N. - exfalso. apply N. now apply H. - intros E. apply H in E. discriminate. Qed.

(* ---- comparison ---- *)
Lemma streq_split k : forall f g : cstring, streq f g = streq (firstn k f) (firstn k g) && streq (skipn k f) (skipn k g).
Proof.
  induction k as [|k IH]; intros f g; [reflexivity|]. destruct f as [|x f], g as [|y g]; cbn; try reflexivity.
  - rewrite IH. now rewrite andb_assoc.
Qed.
Lemma loop_all size n : n < 0 -> forall fuel pos f g, (List.length f < fuel)%nat -> List.length f = List.length g -> len f = size - pos ->
  compareLoop fuel size pos n f g = if streq f g then Equal else Different.
Proof.
  intros Hn. induction fuel as [|fuel IH]; intros pos f g L E S; [lia|]. cbn [compareLoop].
  replace (n <? 0) with true by (symmetry; apply Z.ltb_lt; lia). rewrite orb_true_l, andb_true_r. replace (n >? 0) with false by (symmetry; rewrite Z.gtb_ltb; apply Z.ltb_ge; lia).
  unfold len in *. destruct (Z.ltb_spec pos size) as [P|P].
  - set (read := if size - pos <? bufferSize then size - pos else bufferSize). assert (R : 0 < read <= bufferSize /\ read <= size - pos) by (unfold read, bufferSize; destruct (Z.ltb_spec (size - pos) 1024); lia).
    replace (read >? bufferSize) with false by (symmetry; rewrite Z.gtb_ltb; apply Z.ltb_ge; lia). cbv zeta.
    replace (List.length f <? Z.to_nat read)%nat with false by (symmetry; apply Nat.ltb_ge; lia). replace (List.length g <? Z.to_nat read)%nat with false by (symmetry; apply Nat.ltb_ge; lia).
    rewrite (streq_split (Z.to_nat read) f g). destruct (streq (firstn (Z.to_nat read) f) (firstn (Z.to_nat read) g)); cbn [negb andb]; [|reflexivity].
    apply IH; rewrite ?skipn_length; lia.
  - destruct f as [|x f]; [|cbn in S; lia]. destruct g; [reflexivity|discriminate E].
Qed.
Lemma loop_some fuel size n f g : 0 < n -> f <> [] -> (List.length f < fuel)%nat -> List.length f = List.length g -> len f = size ->
  compareLoop fuel size 0 n f g = if Z.min n size >? bufferSize then Overflow else if streq (firstn (Z.to_nat n) f) (firstn (Z.to_nat n) g) then Equal else Different.
Proof.
  intros Hn Nf L E S. destruct fuel as [|[|fuel]]; [lia|destruct f; [congruence|cbn in L; lia]|]. unfold len in S. assert (0 < size) by (destruct f; [congruence|cbn in S; lia]).
  cbn [compareLoop]. replace (0 <? size) with true by (symmetry; apply Z.ltb_lt; lia). replace (0 <? n) with true by (symmetry; apply Z.ltb_lt; lia). rewrite orb_true_r. cbn [andb].
  replace (n >? 0) with true by (symmetry; rewrite Z.gtb_ltb; apply Z.ltb_lt; lia). rewrite Z.sub_0_r. cbv zeta.
  replace (if size <? n then size else n) with (Z.min n size) by (destruct (Z.ltb_spec size n); lia). set (read := Z.min n size) in *.
  destruct (Z.gtb_spec read bufferSize) as [G|G]; [reflexivity|].
  replace (List.length f <? Z.to_nat read)%nat with false by (symmetry; apply Nat.ltb_ge; lia). replace (List.length g <? Z.to_nat read)%nat with false by (symmetry; apply Nat.ltb_ge; lia).
  assert (F : forall l : list Z, List.length l = List.length f -> firstn (Z.to_nat n) l = firstn (Z.to_nat read) l).
  { intros l El. unfold read. destruct (Z.min_spec n size) as [(A & ->)|(A & ->)]; [reflexivity|]. rewrite !firstn_all2 by lia. reflexivity. }
  rewrite <- !F by lia. destruct (streq (firstn (Z.to_nat n) f) (firstn (Z.to_nat n) g)); cbn [negb]; [|reflexivity].
  rewrite Z.add_0_l. replace ((read <? size) && ((n <? 0) || (read <? n))) with false; [reflexivity|]. symmetry.
  unfold read. destruct (Z.ltb_spec (Z.min n size) size), (Z.ltb_spec n 0), (Z.ltb_spec (Z.min n size) n); cbn; lia || reflexivity.
Qed.
(* the result for files that can be read *)
Lemma compare_cases d a b n x y : find a d = Some x -> find b d = Some y ->
  compareFiles d a b n = match x with
    | [] => Equal
    | _ => if negb (List.length x =? List.length y)%nat then Different
           else if n <? 0 then (if streq x y then Equal else Different)
           else if (n >? bufferSize) && (len x >? bufferSize) then Overflow
           else if streq (firstn (Z.to_nat n) x) (firstn (Z.to_nat n) y) then Equal else Different
    end.
Proof.
  intros A B. unfold compareFiles, FileGetSize. rewrite A, B. destruct x as [|c x].
  - cbn [len List.length Z.of_nat]. replace (0 >? 0) with false by reflexivity. cbn [andb]. cbn [compareLoop]. reflexivity.
  - set (f := c :: x). assert (Lf : len f >? 0 = true) by (unfold len, f; cbn [List.length]; rewrite Z.gtb_ltb; apply Z.ltb_lt; lia). rewrite Lf. cbn [andb].
    replace (len f =? len y) with (List.length f =? List.length y)%nat by (unfold len; destruct (Nat.eqb_spec (List.length f) (List.length y)), (Z.eqb_spec (Z.of_nat (List.length f)) (Z.of_nat (List.length y))); lia).
    destruct (Nat.eqb_spec (List.length f) (List.length y)) as [E|E]; cbn [negb]; [|reflexivity].
    destruct (Z.ltb_spec n 0) as [N|N]; [apply loop_all; try lia; unfold len; lia|].
    destruct (Z.eq_dec n 0) as [->|Nz].
    + cbn [compareLoop]. replace (0 <? 0) with false by reflexivity. cbn [orb]. rewrite andb_false_r. reflexivity.
    + rewrite loop_some; try lia; [|discriminate]. replace (Z.min n (len f) >? bufferSize) with ((n >? bufferSize) && (len f >? bufferSize)); [reflexivity|].
      destruct (Z.gtb_spec n bufferSize), (Z.gtb_spec (len f) bufferSize), (Z.gtb_spec (Z.min n (len f)) bufferSize); cbn; lia || reflexivity.
Qed.
Lemma sameStart_iff n x y : sameStart n x y <-> (List.length x =? List.length y)%nat && (if n <? 0 then streq x y else streq (firstn (Z.to_nat n) x) (firstn (Z.to_nat n) y)) = true.
Proof.
  unfold sameStart. rewrite andb_true_iff, Nat.eqb_eq. destruct (Z.ltb_spec n 0); rewrite streq_iff; split; intros H'; [split; [tauto|apply H'; lia]|split; [tauto|split; [tauto|lia]]|split; [tauto|apply H'; lia]|split; [tauto|split; [lia|tauto]]].
Qed.
Lemma compare_exact d a b n x y : find a d = Some x -> find b d = Some y -> x <> [] -> n <= bufferSize \/ len x <= bufferSize ->
  (compareFiles d a b n = Equal /\ sameStart n x y) \/ (compareFiles d a b n = Different /\ ~ sameStart n x y).
Proof.
  intros A B X N. rewrite (compare_cases d a b n x y A B), sameStart_iff. destruct x as [|c x]; [congruence|]. set (f := c :: x) in *.
  destruct (List.length f =? List.length y)%nat; cbn [negb andb]; [|right; split; [reflexivity|discriminate]].
  destruct (n <? 0); [destruct (streq f y); [left|right]; auto|].
  replace ((n >? bufferSize) && (len f >? bufferSize)) with false by (destruct (Z.gtb_spec n bufferSize), (Z.gtb_spec (len f) bufferSize); cbn; lia || reflexivity).
  destruct (streq (firstn (Z.to_nat n) f) (firstn (Z.to_nat n) y)); [left|right]; auto.
Qed.
Lemma compare_sound d a b n x y : find a d = Some x -> find b d = Some y -> x <> [] ->
  (compareFiles d a b n = Equal -> sameStart n x y) /\ (compareFiles d a b n = Different -> ~ sameStart n x y).
Proof.
  intros A B X. rewrite (compare_cases d a b n x y A B), sameStart_iff. destruct x as [|c x]; [congruence|]. set (f := c :: x) in *.
  destruct (List.length f =? List.length y)%nat; cbn [negb andb]; [|split; [discriminate|discriminate]].
  destruct (n <? 0); [destruct (streq f y); split; congruence|]. destruct ((n >? bufferSize) && (len f >? bufferSize)); [split; discriminate|].
  destruct (streq (firstn (Z.to_nat n) f) (firstn (Z.to_nat n) y)); split; congruence.
Qed.
Lemma compare_missing d a b n : find a d = None \/ find b d = None -> compareFiles d a b n <> Equal /\ (compareFiles d a b n = Different).
Proof.
  intros H. assert (E : compareFiles d a b n = Different).
  { unfold compareFiles. destruct ((FileGetSize d a >? 0) && negb (FileGetSize d a =? FileGetSize d b)); [reflexivity|]. destruct (find a d); [|reflexivity]. destruct H as [H|H]; [discriminate H|]. now rewrite H. }
  rewrite E. split; [discriminate|reflexivity].
Qed.

(* ---- disks ---- *)
Lemma find_some_in p d b : find p d = Some b -> In p (map fst d).
Proof.
  induction d as [|(q, c) d IH]; cbn; [discriminate|]. destruct (streq p q) eqn:E; [apply streq_iff in E; auto|auto].
Qed.
Lemma find_in p d : In p (map fst d) -> exists b, find p d = Some b.
Proof.
  induction d as [|(q, c) d IH]; cbn; [intros []|]. destruct (streq p q) eqn:E; [eauto|]. intros [->|I]; [rewrite streq_refl in E; discriminate|auto].
Qed.
Lemma find_none p d : find p d = None <-> ~ In p (map fst d).
Proof.
  split; [intros H I; apply find_in in I; destruct I; congruence|]. intros N. destruct (find p d) eqn:E; [|reflexivity]. apply find_some_in in E. contradiction.
Qed.
Lemma find_remove p q d : find q (remove p d) = if streq p q then None else find q d.
Proof.
  induction d as [|(r, b) d IH]; cbn [remove filter find fst]; [destruct (streq p q); reflexivity|]. fold (remove p d).
  destruct (streq p r) eqn:E; cbn [negb].
  - apply streq_iff in E. subst r. rewrite IH. destruct (streq p q) eqn:Q; [reflexivity|]. destruct (streq q p) eqn:Q2; [apply streq_iff in Q2; subst; rewrite streq_refl in Q; discriminate|reflexivity].
  - cbn [find]. rewrite IH. destruct (streq p q) eqn:Q; [|reflexivity]. apply streq_iff in Q. subst q. now rewrite E.
Qed.
Lemma find_store p b q d : find q (store p b d) = if streq q p then Some b else find q d.
Proof.
  cbn [store find]. destruct (streq q p) eqn:E; [reflexivity|]. rewrite find_remove. destruct (streq p q) eqn:Q; [apply streq_iff in Q; subst; rewrite streq_refl in E; discriminate|reflexivity].
Qed.
Lemma remove_one p d : onePath d -> onePath (remove p d).
Proof.
  unfold onePath. induction d as [|(q, b) d IH]; intros N; cbn; [constructor|]. cbn in N. inversion N as [|? ? N1 N2]; subst. specialize (IH N2).
  destruct (streq p q); cbn [negb]; [exact IH|]. cbn. constructor; [|exact IH]. intros I. apply N1. apply in_map_iff in I. destruct I as ((r, c) & E & I). cbn in E. subst r. unfold remove in I. apply filter_In in I. destruct I as (I & _). apply in_map_iff. exists (q, c). auto.
Qed.
Lemma remove_length p d : onePath d -> List.length (remove p d) = (List.length d - (if fileExists d p then 1 else 0))%nat.
Proof.
  unfold onePath, fileExists. induction d as [|(q, b) d IH]; intros N; [reflexivity|]. cbn in N. inversion N as [|? ? N1 N2]; subst. specialize (IH N2).
  cbn [remove filter find fst]. fold (remove p d). destruct (streq p q) eqn:E; cbn [negb List.length].
  - apply streq_iff in E. subst q. rewrite (proj2 (find_none p d) N1) in IH. rewrite IH. lia.
  - rewrite IH. destruct (find p d) eqn:F; [|lia]. apply find_some_in in F. destruct d; [destruct F|]. cbn [List.length]. lia.
Qed.

(* ---- directories ---- *)
Lemma withSlash_ne path : path <> [] -> exists d s, path = d ++ [s] /\ withSlash path = if sepb s then path else path ++ [slash].
Proof.
  intros N. destruct (exists_last N) as (d & s & E). exists d, s. split; [exact E|]. unfold withSlash. destruct path as [|c path]; [congruence|]. rewrite E, last_last. reflexivity.
Qed.
Lemma joins_iff dir name p : joins dir name p <-> dir <> [] /\ p = withSlash dir ++ name.
Proof.
  split.
  - intros (d & s & E & H). assert (N : dir <> []) by (intros ->; destruct d; discriminate E). split; [exact N|]. destruct (withSlash_ne dir N) as (d' & s' & E' & W).
    rewrite E in E'. apply app_inj_tail in E'. destruct E' as (<- & <-). rewrite W. destruct H as [(I & ->)|(I & ->)].
    + apply sepb_iff in I. now rewrite I.
    + apply sepb_no in I. rewrite I. now rewrite <- app_assoc.
  - intros (N & ->). destruct (withSlash_ne dir N) as (d & s & E & W). exists d, s. split; [exact E|]. rewrite W. destruct (sepb s) eqn:Q.
    + left. split; [now apply sepb_iff|reflexivity].
    + right. split; [now apply sepb_no|]. now rewrite <- app_assoc.
Qed.
Lemma startsWith_iff a s r : startsWith a s = Some r <-> s = a ++ r.
Proof.
  revert s. induction a as [|x a IH]; intros s; cbn; [split; [intros H; injection H as <-; reflexivity|intros ->; reflexivity]|].
  destruct s as [|y s]; [split; discriminate|]. destruct (Z.eqb_spec x y) as [->|N]; [rewrite IH; split; [intros ->; reflexivity|intros H; injection H; auto]|split; [discriminate|intros H; injection H; congruence]].
Qed.
Lemma existsb_slash n : existsb (fun x => x =? slash) n = false <-> ~ In 47 n.
Proof.
  split.
  - intros E I. assert (T : existsb (fun x => x =? slash) n = true) by (apply existsb_exists; exists 47; auto). congruence.
  - intros N. destruct (existsb (fun x => x =? slash) n) eqn:E; [|reflexivity]. apply existsb_exists in E. destruct E as (x & I & Q). apply Z.eqb_eq in Q. subst x. contradiction.
Qed.
Lemma readdir_iff d path name : In name (readdir d path) <-> path <> [] /\ name <> [] /\ ~ In 47 name /\ In (withSlash path ++ name) (map fst d).
Proof.
  unfold readdir. destruct path as [|c path]; [split; [intros []|intros (H & _); congruence]|]. set (p := c :: path). rewrite in_flat_map. split.
  - intros ((q, b) & I & H). cbn [fst] in H. split; [discriminate|]. destruct (startsWith (withSlash p) q) as [[|x n]|] eqn:E; try destruct H.
    destruct (existsb (fun x => x =? slash) (x :: n)) eqn:X; [destruct H|]. destruct H as [<-|[]]. apply existsb_slash in X. apply startsWith_iff in E. split; [discriminate|]. split; [exact X|]. apply in_map_iff. exists (q, b). auto.
  - intros (_ & N & X & I). apply in_map_iff in I. destruct I as ((q, b) & E & I). cbn in E. exists (q, b). split; [exact I|]. cbn [fst].
    assert (St : startsWith (withSlash p) q = Some name) by (apply startsWith_iff; exact E). rewrite St. destruct name as [|x n]; [congruence|]. apply existsb_slash in X. rewrite X. now left.
Qed.
Lemma inDir_iff d path p b : find p d = Some b -> (inDir path p <-> exists name, In name (readdir d path) /\ p = withSlash path ++ name).
Proof.
  intros F. apply find_some_in in F. split.
  - intros (name & N & X & J). apply joins_iff in J. destruct J as (P & ->). exists name. split; [|reflexivity]. apply readdir_iff. auto.
  - intros (name & I & ->). apply readdir_iff in I. destruct I as (P & N & X & I). exists name. split; [exact N|]. split; [exact X|]. apply joins_iff. auto.
Qed.

(* ---- the comparison with the master file ---- *)
Section Master.
Variables (master base masterName : cstring) (n : Z) (m : list Z).
Hypotheses (Fn : isFileName master masterName) (Bn : isBaseName masterName base) (Ne : m <> []).

Lemma iter_sound d p : find master d = Some m ->
  (iteratorFileCompare d master base n p = Equal -> isCopy d n master p) /\ (iteratorFileCompare d master base n p = Different -> ~ isCopy d n master p).
Proof.
  intros Fm. unfold iteratorFileCompare. pose proof (getName_isFileName p) as Pn. set (name := skipn (getNameFromPath p) p) in *. destruct (startsWith base name) as [rest|] eqn:S.
  - destruct (find p d) as [c|] eqn:Fp.
    + pose proof (compare_sound d master p n m c Fm Fp Ne) as (CE & CD). assert (Nm : fileNamesMatch p master = true <-> name = masterName).
      { unfold fileNamesMatch. rewrite streq_iff. fold name. assert (E : skipn (getNameFromPath master) master = masterName) by exact (isFileName_fun _ _ _ (getName_isFileName master) Fn). now rewrite E. }
      destruct (compareFiles d master p n) eqn:C; try (split; discriminate).
      * destruct (fileNamesMatch p master) eqn:M.
        -- split; [discriminate|]. intros _ (m' & c' & mn & b' & nm & r & H1 & H2 & H3 & H4 & H5 & H6 & H7 & H8).
           apply H7. rewrite (isFileName_fun _ _ _ H6 Pn), (isFileName_fun _ _ _ H4 Fn). now apply Nm.
        -- split; [|discriminate]. intros _. apply startsWith_iff in S. exists m, c, masterName, base, name, rest. split; [exact Fm|]. split; [exact Fp|]. split; [exact (CE eq_refl)|]. split; [exact Fn|]. split; [exact Bn|]. split; [exact Pn|]. split; [|exact S]. intros E. apply Nm in E. discriminate.
      * split; [discriminate|]. intros _ (m' & c' & mn & b' & nm & r & H1 & H2 & H3 & _). rewrite Fm in H1. rewrite Fp in H2. injection H1 as <-. injection H2 as <-. exact (CD eq_refl H3).
    + rewrite (proj2 (compare_missing d master p n (or_intror Fp))). split; [discriminate|]. intros _ (m' & c' & mn & b' & nm & r & H1 & H2 & _). congruence.
  - split; [discriminate|]. intros _ (m' & c' & mn & b' & nm & r & H1 & H2 & H3 & H4 & H5 & H6 & H7 & H8). rewrite (isFileName_fun _ _ _ H4 Fn) in H5. rewrite (isBaseName_fun _ _ _ H5 Bn) in H8. rewrite (isFileName_fun _ _ _ H6 Pn) in H8. apply startsWith_iff in H8. congruence.
Qed.
Lemma iter_total d p : find master d = Some m -> n <= bufferSize \/ len m <= bufferSize -> iteratorFileCompare d master base n p = Equal \/ iteratorFileCompare d master base n p = Different.
Proof.
  intros Fm N. unfold iteratorFileCompare. destruct (startsWith base (skipn (getNameFromPath p) p)) as [rest0|]; [|auto]. destruct (find p d) as [cc|] eqn:Fp.
  - destruct (compare_exact d master p n m cc Fm Fp Ne N) as [(CQ & _)|(CQ & _)]; rewrite CQ; [destruct (fileNamesMatch p master); auto|auto].
  - rewrite (proj2 (compare_missing d master p n (or_intror Fp))). auto.
Qed.
Lemma iter_exists d p : iteratorFileCompare d master base n p = Equal -> p <> master /\ fileExists d p = true.
Proof.
  unfold iteratorFileCompare. destruct (startsWith base (skipn (getNameFromPath p) p)); [|discriminate]. destruct (compareFiles d master p n) eqn:C; try discriminate. destruct (fileNamesMatch p master) eqn:M; [discriminate|]. intros _. split.
  - intros ->. unfold fileNamesMatch in M. rewrite streq_refl in M. discriminate.
  - unfold fileExists. destruct (find p d) eqn:F; [reflexivity|]. destruct (compare_missing d master p n (or_intror F)) as (H & _). congruence.
Qed.
(* it depends on the two files only *)
Lemma iter_ext d d' p : find master d' = find master d -> find p d' = find p d -> iteratorFileCompare d' master base n p = iteratorFileCompare d master base n p.
Proof. intros H1 H2. unfold iteratorFileCompare, compareFiles, FileGetSize. rewrite H1, H2. reflexivity. Qed.

Lemma match_sound d dir : find master d = Some m -> forall names,
  (forall p, matchFiles d master base n dir names = Found p -> exists name, In name names /\ p = dir ++ name /\ isCopy d n master p) /\
  (matchFiles d master base n dir names = NotFound -> forall name, In name names -> ~ isCopy d n master (dir ++ name)).
Proof.
  intros Fm. induction names as [|name names (IH1 & IH2)]; cbn [matchFiles]; [split; [discriminate|intros _ ? []]|]. destruct (len (dir ++ name) + 1 >? maxPath); [split; discriminate|].
  pose proof (iter_sound d (dir ++ name) Fm) as (SE & SD). destruct (iteratorFileCompare d master base n (dir ++ name)); try (split; discriminate).
  - split; [|discriminate]. intros p H. injection H as <-. exists name. split; [now left|]. auto.
  - split.
    + intros p H. destruct (IH1 p H) as (x & I & E). exists x. split; [now right|exact E].
    + intros H x [<-|I]; auto.
Qed.
Lemma match_total d dir names : find master d = Some m -> n <= bufferSize \/ len m <= bufferSize -> (forall name, In name names -> len (dir ++ name) < maxPath) -> matchFiles d master base n dir names <> SearchOverflow.
Proof.
  intros Fm N. induction names as [|name names IH]; intros L; cbn [matchFiles]; [discriminate|]. replace (len (dir ++ name) + 1 >? maxPath) with false by (symmetry; rewrite Z.gtb_ltb; apply Z.ltb_ge; specialize (L name (or_introl eq_refl)); lia).
  destruct (iter_total d (dir ++ name) Fm N) as [-> | ->]; [discriminate|]. apply IH. intros x I. apply L. now right.
Qed.

Lemma iterate_sound d path : find master d = Some m ->
  (forall p, iterateFilesMatch d master base n path = Found p -> inDir path p /\ isCopy d n master p) /\
  (iterateFilesMatch d master base n path = NotFound -> forall p, inDir path p -> ~ isCopy d n master p).
Proof.
  intros Fm. unfold iterateFilesMatch. destruct (len path + 1 >? maxPath); [split; discriminate|]. destruct (match_sound d (withSlash path) Fm (readdir d path)) as (M1 & M2). split.
  - intros p H. destruct (M1 p H) as (name & I & E & C). split; [|exact C]. pose proof C as (m' & c & ? & ? & ? & ? & _ & Fc & _). apply (inDir_iff d path p c Fc). eauto.
  - intros H p D C. pose proof C as (m' & c & ? & ? & ? & ? & _ & Fc & _). apply (inDir_iff d path p c Fc) in D. destruct D as (name & I & ->). exact (M2 H name I C).
Qed.
Lemma loop_sound d path count : find master d = Some m ->
  (forall p, getExistingLoop count d master base n path = Found p -> inDir path p /\ isCopy d n master p) /\
  ((0 < count)%nat -> getExistingLoop count d master base n path = NotFound -> forall p, inDir path p -> ~ isCopy d n master p).
Proof.
  intros Fm. destruct (iterate_sound d path Fm) as (I1 & I2). induction count as [|count (IH1 & IH2)]; cbn [getExistingLoop]; [split; [discriminate|lia]|].
  destruct (iterateFilesMatch d master base n path) as [q| |] eqn:E.
  - split; [intros p H; injection H as <-; auto|discriminate].
  - split; [exact IH1|]. intros _ _. auto.
  - split; discriminate.
Qed.
Lemma loop_total d path count : find master d = Some m -> n <= bufferSize \/ len m <= bufferSize -> len path + 1 < maxPath -> (forall p, In p (map fst d) -> inDir path p -> len p < maxPath) ->
  getExistingLoop count d master base n path <> SearchOverflow.
Proof.
  intros Fm N Lp L. assert (I : iterateFilesMatch d master base n path <> SearchOverflow).
  { unfold iterateFilesMatch. replace (len path + 1 >? maxPath) with false by (symmetry; rewrite Z.gtb_ltb; apply Z.ltb_ge; lia). apply match_total; auto. intros name I. apply readdir_iff in I. destruct I as (P & Nn & X & I). apply L; [exact I|]. exists name. split; [exact Nn|]. split; [exact X|]. apply joins_iff. auto. }
  induction count as [|count IH]; cbn [getExistingLoop]; [discriminate|]. destruct (iterateFilesMatch d master base n path); congruence.
Qed.

(* ---- deletion ---- *)
Variable u : Use.
Definition goes (d : Disk) (p : cstring) : bool := match iteratorFileCompare d master base n p with Equal => negb (inUse u p) && negb (keeps u p) | _ => false end.
Lemma delete_sound dir names : forall d deleted d' k, onePath d -> deleteFiles u d deleted master base n dir names = Some (d', k) -> 0 <= deleted < 2 ^ 8 ->
  onePath d' /\ find master d' = find master d /\ (List.length d' <= List.length d)%nat /\ k = (deleted + Z.of_nat (List.length d - List.length d')) mod 2 ^ 8 /\
  forall p, find p d' = if existsb (fun name => streq p (dir ++ name)) names && goes d p then None else find p d.
Proof.
  induction names as [|name names IH]; intros d deleted d' k O E B; cbn [deleteFiles] in E.
  - injection E as <- <-. split; [exact O|]. split; [reflexivity|]. split; [lia|]. split; [|intros p; reflexivity]. rewrite Nat.sub_diag. cbn [Z.of_nat]. rewrite Z.add_0_r. symmetry. apply Z.mod_small. exact B.
  - destruct (len (dir ++ name) + 1 >? maxPath); [discriminate E|]. set (q := dir ++ name) in *. destruct (iteratorFileCompare d master base n q) eqn:C; try discriminate E.
    + destruct (iter_exists d q C) as (Nm & Ex). unfold iteratorFileDelete in E. rewrite Ex in E. cbn [negb] in E. rewrite orb_false_r in E.
      assert (Gq : goes d q = negb (inUse u q) && negb (keeps u q)) by (unfold goes; now rewrite C).
      destruct (inUse u q) eqn:U; [|destruct (keeps u q) eqn:K].
      * destruct (IH _ _ _ _ O E B) as (O' & M' & L' & K' & F'). split; [exact O'|]. split; [exact M'|]. split; [exact L'|]. split; [exact K'|]. intros p. rewrite F'. cbn [existsb]. fold q. destruct (streq p q) eqn:S; [|reflexivity]. apply streq_iff in S. subst p. rewrite Gq. cbn. rewrite andb_false_r. reflexivity.
      * destruct (IH _ _ _ _ O E B) as (O' & M' & L' & K' & F'). split; [exact O'|]. split; [exact M'|]. split; [exact L'|]. split; [exact K'|]. intros p. rewrite F'. cbn [existsb]. fold q. destruct (streq p q) eqn:S; [|reflexivity]. apply streq_iff in S. subst p. rewrite Gq. cbn. rewrite andb_false_r. reflexivity.
      * destruct (IH _ _ _ _ (remove_one q d O) E (Z.mod_pos_bound (deleted + 1) (2 ^ 8) eq_refl)) as (O' & M' & L' & K' & F').
        pose proof (remove_length q d O) as Lr. rewrite Ex in Lr. cbv iota in Lr. assert (Ld : (0 < List.length d)%nat) by (unfold fileExists in Ex; destruct d; [discriminate Ex|cbn; lia]).
        assert (Mr : find master (remove q d) = find master d) by (rewrite find_remove; replace (streq q master) with false; [reflexivity|symmetry; now apply streq_false]).
        split; [exact O'|]. split; [congruence|]. split; [lia|]. split.
        { rewrite K'. rewrite Zplus_mod_idemp_l. f_equal. lia. }
        intros p. rewrite F'. cbn [existsb]. fold q. rewrite find_remove. destruct (streq q p) eqn:S.
        -- apply streq_iff in S. subst p. rewrite streq_refl, Gq. cbn [negb andb orb]. match goal with |- (if ?c then _ else _) = _ => destruct c; reflexivity end.
        -- assert (S' : streq p q = false) by (apply streq_false; apply streq_false in S; congruence). rewrite S'. cbn [orb]. replace (goes (remove q d) p) with (goes d p); [reflexivity|]. unfold goes. rewrite (iter_ext d (remove q d) p Mr); [reflexivity|]. rewrite find_remove, S. reflexivity.
    + destruct (IH _ _ _ _ O E B) as (O' & M' & L' & K' & F'). split; [exact O'|]. split; [exact M'|]. split; [exact L'|]. split; [exact K'|]. intros p. rewrite F'. cbn [existsb]. fold q. destruct (streq p q) eqn:S; [|reflexivity]. apply streq_iff in S. subst p. unfold goes. rewrite C. rewrite !andb_false_r. reflexivity.
Qed.
Lemma goes_ext d d' p : find master d' = find master d -> find p d' = find p d -> goes d' p = goes d p.
Proof. intros H1 H2. unfold goes. now rewrite (iter_ext d d' p H1 H2). Qed.
Lemma iterate_delete d deleted path d' k : onePath d -> iterateFilesDelete u d deleted master base n path = Some (d', k) -> 0 <= deleted < 2 ^ 8 ->
  onePath d' /\ find master d' = find master d /\ (List.length d' <= List.length d)%nat /\ k = (deleted + Z.of_nat (List.length d - List.length d')) mod 2 ^ 8 /\
  forall p, (goes d p = true /\ inDir path p -> find p d' = None) /\ (~ (goes d p = true /\ inDir path p) -> find p d' = find p d).
Proof.
  intros O E B. unfold iterateFilesDelete in E. destruct (len path + 1 >? maxPath); [discriminate E|]. destruct (delete_sound _ _ _ _ _ _ O E B) as (O' & M' & L' & K' & F').
  split; [exact O'|]. split; [exact M'|]. split; [exact L'|]. split; [exact K'|]. intros p. rewrite F'.
  assert (X : goes d p = true -> (existsb (fun name => streq p (withSlash path ++ name)) (readdir d path) = true <-> inDir path p)).
  { intros G. unfold goes in G. destruct (iteratorFileCompare d master base n p) eqn:C; try discriminate G. destruct (iter_exists d p C) as (_ & Ex). unfold fileExists in Ex. destruct (find p d) as [b|] eqn:Fp; [|discriminate Ex].
    rewrite (inDir_iff d path p b Fp), existsb_exists. split; intros (x & I & S); exists x; (split; [exact I|]); apply streq_iff; exact S. }
  split.
  - intros (G & D). rewrite (proj2 (X G) D), G. reflexivity.
  - intros N. destruct (goes d p) eqn:G; [|now rewrite andb_false_r]. destruct (existsb (fun name => streq p (withSlash path ++ name)) (readdir d path)) eqn:Y; [|reflexivity]. exfalso. apply N. split; [reflexivity|]. now apply (X eq_refl).
Qed.
Lemma loop_delete path count : forall d deleted d' k, (0 < count)%nat -> onePath d -> deleteUnusedLoop count u d deleted master base n path = Some (d', k) -> 0 <= deleted < 2 ^ 8 ->
  find master d' = find master d /\ (List.length d' <= List.length d)%nat /\ k = (deleted + Z.of_nat (List.length d - List.length d')) mod 2 ^ 8 /\
  forall p, (goes d p = true /\ inDir path p -> find p d' = None) /\ (~ (goes d p = true /\ inDir path p) -> find p d' = find p d).
Proof.
  induction count as [|count IH]; intros d deleted d' k P O E B; [lia|]. cbn [deleteUnusedLoop] in E. destruct (iterateFilesDelete u d deleted master base n path) as [(d1, k1)|] eqn:E1; [|discriminate E].
  destruct (iterate_delete _ _ _ _ _ O E1 B) as (O1 & M1 & L1 & K1 & F1). destruct count as [|count].
  - cbn in E. injection E as <- <-. auto.
  - assert (B1 : 0 <= k1 < 2 ^ 8) by (rewrite K1; apply Z.mod_pos_bound; lia). destruct (IH d1 k1 d' k ltac:(lia) O1 E B1) as (M2 & L2 & K2 & F2).
    split; [congruence|]. split; [lia|]. split; [rewrite K2, K1, Zplus_mod_idemp_l; f_equal; lia|]. intros p. destruct (F1 p) as (F1a & F1b), (F2 p) as (F2a & F2b). split.
    + intros H. specialize (F1a H). rewrite F2b; [exact F1a|]. intros (G & _). unfold goes in G. destruct (iteratorFileCompare d1 master base n p) eqn:C; try discriminate G. destruct (iter_exists d1 p C) as (_ & Ex). unfold fileExists in Ex. rewrite F1a in Ex. discriminate.
    + intros H. specialize (F1b H). rewrite F2b; [exact F1b|]. intros (G & D). apply H. split; [|exact D]. rewrite <- G. symmetry. now apply goes_ext.
Qed.
End Master.
