(* The properties of names in paths (file.c) *)
From Verif Require Import FilePathProofs.

(* C57, the name getNameFromPath finds is the file name, and the only one *)
Theorem path_name : forall p name, isFileName p name <-> skipn (getNameFromPath p) p = name.
Proof.
  intros p name. split; [|intros <-; apply getName_isFileName]. intros F. exact (isFileName_fun _ _ _ (getName_isFileName p) F).
Qed.
Print Assumptions path_name.
Example path_name_example : isFileName [97; 47; 98; 92; 99; 46; 100] [99; 46; 100] /\ isFileName [97; 47] [] /\ isFileName [97] [97].
Proof. repeat split; try (intros c; cbn; intuition (subst; unfold isSep in *; intuition discriminate)); auto; right; [exists [97; 47; 98], 92|exists [97], 47]; split; unfold isSep; auto. Qed.

(* C57, files have the same name if their paths have the same file name *)
Theorem path_names_match : forall p q a b, isFileName p a -> isFileName q b -> (fileNamesMatch p q = true <-> a = b).
Proof. intros p q a b A B. apply path_name in A, B. unfold fileNamesMatch. rewrite A, B. apply streq_iff. Qed.
Print Assumptions path_names_match.
Example path_names_match_example : fileNamesMatch [97; 47; 98] [99; 92; 98] = true /\ fileNamesMatch [97; 47; 98] [97; 47; 98; 98] = false.
Proof. split; reflexivity. Qed.

(* C57, FileGetFileName: the file name of a path with a separator *)
Theorem path_file_name : forall p name, isFileName p name -> p <> name -> stringAt p (FileGetFileName p) = Some name.
Proof.
  intros p name (N & [E|(dir & sep & I & ->)]) D; [contradiction|]. rewrite (FileGetFileName_some dir sep name I N). unfold stringAt.
  rewrite app_length. cbn [List.length]. replace (S (List.length dir) <=? List.length dir + S (List.length name))%nat with true by (symmetry; apply Nat.leb_le; lia). now rewrite skipn_sep.
Qed.
Print Assumptions path_file_name.
Example path_file_name_example : stringAt [47; 97; 47; 98; 99] (FileGetFileName [47; 97; 47; 98; 99]) = Some [98; 99].
Proof. reflexivity. Qed.

(* C57, FileGetFileName without a separator: the first byte is lost, and of an empty
   path the pointer returned is not one to a string *)
Theorem path_file_name_refuted :
  (forall c p, (forall d, In d (c :: p) -> ~ isSep d) -> isFileName (c :: p) (c :: p) /\ stringAt (c :: p) (FileGetFileName (c :: p)) = Some p) /\
  isFileName [] [] /\ stringAt [] (FileGetFileName []) = None.
Proof.
  split; [|repeat split; auto; intros c []]. intros c p N. split; [split; auto|]. rewrite (FileGetFileName_none _ N). reflexivity.
Qed.
Print Assumptions path_file_name_refuted.

(* C57, the base name: if a path without an extension has no dot at all, then the name
   without its extension is got if it fits *)
Theorem path_base_name : forall p name base length, isFileName p name -> isBaseName name base -> (In 46 p -> In 46 name) -> Z.of_nat (List.length p) < 2 ^ 63 -> 0 <= length < 2 ^ 64 ->
  getBasenameWithoutExtension p length = Some (if Z.of_nat (List.length base) <? length then PathSuccess base else PathInsufficientMemory).
Proof.
  intros p name base length F B D P L. unfold getBasenameWithoutExtension. pose proof (proj1 (path_name p name) F) as N. rewrite N. unfold dotChar.
  assert (Ln : (List.length name <= List.length p)%nat) by (rewrite <- N; rewrite skipn_length; lia).
  assert (Sz : forall k, (k <= List.length name)%nat -> size_t (Z.of_nat k + 1) = Z.of_nat k + 1) by (intros k H; unfold size_t; apply Z.mod_small; lia).
  assert (Q : forall k : nat, (Z.of_nat k + 1 >? length) = negb (Z.of_nat k <? length)) by (intros k; destruct (Z.gtb_spec (Z.of_nat k + 1) length), (Z.ltb_spec (Z.of_nat k) length); cbn; lia).
  destruct (base_cases p name F) as [Nd|[(dir & b & ext & E1 & E2 & E3 & E4 & E5)|(dot & Nd & E & _)]].
  - assert (Nn : ~ In 46 name) by (intros I; apply Nd; rewrite <- N in I; rewrite <- (firstn_skipn (getNameFromPath p) p); apply in_or_app; now right).
    unfold strrchr. rewrite (strrchr_none 46 p Nd). assert (base = name) as -> by (apply (isBaseName_fun name); [exact B|now left]).
    rewrite Sz by lia. rewrite Q. destruct (Z.ltb_spec (Z.of_nat (List.length name)) length); cbn [negb]; [|reflexivity]. now rewrite Nat2Z.id, firstn_all.
  - assert (base = b) as -> by (apply (isBaseName_fun name); [exact B|right; exists ext; auto]). rewrite E4, E2.
    replace (Z.of_nat (List.length dir + List.length b) - Z.of_nat (List.length dir)) with (Z.of_nat (List.length b)) by lia.
    assert (Lb : (List.length b <= List.length name)%nat) by (rewrite E3, app_length; lia).
    assert (Sb : size_t (Z.of_nat (List.length b)) = Z.of_nat (List.length b)) by (unfold size_t; apply Z.mod_small; lia). rewrite Sb, Sz by exact Lb. rewrite Q.
    destruct (Z.ltb_spec (Z.of_nat (List.length b)) length); cbn [negb]; [|reflexivity]. rewrite Nat2Z.id, E3, firstn_app, Nat.sub_diag, firstn_all, firstn_O, app_nil_r. reflexivity.
  - exfalso. apply Nd, D. destruct (char_split 46 p) as [Np|(a & b & -> & _)]; [unfold strrchr in E; rewrite (strrchr_none 46 p Np) in E; discriminate E|]. apply in_or_app. right. now left.
Qed.
Print Assumptions path_base_name.
Example path_base_name_example :
  (isFileName [46; 47; 97; 46; 98; 46; 99] [97; 46; 98; 46; 99] /\ isBaseName [97; 46; 98; 46; 99] [97; 46; 98] /\ getBasenameWithoutExtension [46; 47; 97; 46; 98; 46; 99] 4 = Some (PathSuccess [97; 46; 98]))
  /\ getBasenameWithoutExtension [46; 47; 97; 46; 98; 46; 99] 3 = Some PathInsufficientMemory.
Proof.
  split; [|reflexivity]. split; [|split; [right; exists [99]; split; [cbn; intuition discriminate|reflexivity]|reflexivity]].
  split; [intros c; cbn; intuition (subst; unfold isSep in *; intuition discriminate)|]. right. exists [46], 47. split; unfold isSep; auto.
Qed.

(* C57, the base name: nothing after the end of the memory is written *)
Theorem path_base_name_safe : forall p length, Z.of_nat (List.length p) < 2 ^ 63 -> 0 <= length < 2 ^ 63 -> getBasenameWithoutExtension p length <> None.
Proof.
  intros p length P L H. unfold getBasenameWithoutExtension in H. set (name := skipn (getNameFromPath p) p) in *.
  assert (F : isFileName p name) by now apply path_name. pose proof (skipn_length (getNameFromPath p) p) as Ls. fold name in Ls.
  assert (G : (getNameFromPath p <= List.length p)%nat).
  { destruct (path_split p) as [N|(d & s & n & I & -> & N)]; [rewrite getName_none by exact N; lia|rewrite getName_some by assumption; rewrite app_length; cbn; lia]. }
  unfold dotChar in H. revert H. destruct (base_cases p name F) as [Nd|[(dir & b & ext & E1 & E2 & E3 & E4 & E5)|(dot & Nd & E & D)]].
  - unfold strrchr. rewrite (strrchr_none 46 p Nd). unfold size_t. rewrite Z.mod_small by lia. destruct (_ >? length); discriminate.
  - rewrite E4, E2. replace (Z.of_nat (List.length dir + List.length b) - Z.of_nat (List.length dir)) with (Z.of_nat (List.length b)) by lia.
    assert (Lb : (List.length b <= List.length name)%nat) by (rewrite E3, app_length; lia). unfold size_t. rewrite (Z.mod_small (Z.of_nat (List.length b))) by lia. rewrite Z.mod_small by lia. destruct (_ >? length); discriminate.
  - rewrite E. unfold size_t. rewrite <- (Z.mod_unique (Z.of_nat dot - Z.of_nat (getNameFromPath p)) (2 ^ 64) (-1) (2 ^ 64 + (Z.of_nat dot - Z.of_nat (getNameFromPath p)))) by lia. rewrite Z.mod_small by lia.
    destruct (Z.gtb_spec (2 ^ 64 + (Z.of_nat dot - Z.of_nat (getNameFromPath p)) + 1) length); [discriminate|lia].
Qed.
Print Assumptions path_base_name_safe.

(* C57, not the base name of a file without an extension in a directory with a dot:
   however large the memory is, it is reported to be insufficient *)
Theorem path_base_name_refuted : forall p name length, isFileName p name -> ~ In 46 name -> In 46 p -> Z.of_nat (List.length p) < 2 ^ 63 -> 0 <= length < 2 ^ 63 ->
  isBaseName name name /\ getBasenameWithoutExtension p length = Some PathInsufficientMemory.
Proof.
  intros p name length F N I P L. split; [left; auto|]. unfold getBasenameWithoutExtension, dotChar. pose proof (proj1 (path_name p name) F) as Nm. rewrite Nm.
  assert (G : (getNameFromPath p <= List.length p)%nat).
  { destruct (path_split p) as [N'|(d & s & n & I' & -> & N')]; [rewrite getName_none by exact N'; lia|rewrite getName_some by assumption; rewrite app_length; cbn; lia]. }
  destruct (base_cases p name F) as [Nd|[(dir & b & ext & E1 & E2 & E3 & E4 & E5)|(dot & Nd & E & D)]]; [contradiction|exfalso; apply N; rewrite E3; apply in_or_app; right; now left|].
  rewrite E. unfold size_t. rewrite <- (Z.mod_unique (Z.of_nat dot - Z.of_nat (getNameFromPath p)) (2 ^ 64) (-1) (2 ^ 64 + (Z.of_nat dot - Z.of_nat (getNameFromPath p)))) by lia. rewrite Z.mod_small by lia.
  destruct (Z.gtb_spec (2 ^ 64 + (Z.of_nat dot - Z.of_nat (getNameFromPath p)) + 1) length); [reflexivity|lia].
Qed.
Print Assumptions path_base_name_refuted.
Example path_base_name_refuted_example : getBasenameWithoutExtension [46; 47; 97] 4096 = Some PathInsufficientMemory.
Proof. reflexivity. Qed.

(* C57, FileGetBaseName: the file name if all separators are backslashes and it is
   not empty, and nothing if there is a slash *)
Theorem path_base_name_of : forall p name, isFileName p name ->
  FileGetBaseName p = if existsb (Z.eqb 47) p then None else if negb (existsb (Z.eqb 92) p) then None else if (List.length name =? 0)%nat then None else Some (List.length p - List.length name)%nat.
Proof.
  intros p name F. unfold FileGetBaseName, slash, backslash. destruct (char_split 47 p) as [N|(a & b & -> & N)].
  - unfold strrchr. rewrite (strrchr_none 47 p N). assert (E : existsb (Z.eqb 47) p = false).
    { destruct (existsb (Z.eqb 47) p) eqn:Q; [|reflexivity]. apply existsb_exists in Q. destruct Q as (x & I & Q). apply Z.eqb_eq in Q. subst x. contradiction. }
    rewrite E. destruct (char_split 92 p) as [N2|(a & b & -> & N2)].
    + rewrite (strrchr_none 92 p N2). destruct (existsb (Z.eqb 92) p) eqn:Q; [|reflexivity]. apply existsb_exists in Q. destruct Q as (x & I & Q). apply Z.eqb_eq in Q. subst x. contradiction.
    + rewrite (strrchr_some 92 a b N2). assert (E2 : existsb (Z.eqb 92) (a ++ 92 :: b) = true) by (apply existsb_exists; exists 92; split; [apply in_or_app; right; now left|reflexivity]).
      rewrite E2. cbn [negb]. assert (b = name) as <-.
      { apply (isFileName_fun (a ++ 92 :: b)); [|exact F]. split; [|right; exists a, 92; split; [now right|reflexivity]]. intros c I [->| ->]; [apply N; apply in_or_app; right; now right|contradiction]. }
      rewrite Nat.add_0_l, skipn_app, skipn_all, Nat.sub_diag. cbn [skipn app List.length].
      destruct b as [|c b]; cbn [List.length Nat.eqb]; [reflexivity|]. f_equal. rewrite app_length. cbn [List.length]. lia.
  - unfold strrchr. rewrite (strrchr_some 47 a b N). assert (E2 : existsb (Z.eqb 47) (a ++ 47 :: b) = true) by (apply existsb_exists; exists 47; split; [apply in_or_app; right; now left|reflexivity]).
    now rewrite E2.
Qed.
Print Assumptions path_base_name_of.
Theorem path_base_name_of_refuted : isFileName [47; 97] [97] /\ FileGetBaseName [47; 97] = None /\ isFileName [97] [97] /\ FileGetBaseName [97] = None.
Proof.
  split; [split; [intros c [<-|[]] [H|H]; discriminate|right; exists [], 47; split; [now left|reflexivity]]|]. split; [reflexivity|].
  split; [split; [intros c [<-|[]] [H|H]; discriminate|now left]|reflexivity].
Qed.
Print Assumptions path_base_name_of_refuted.
