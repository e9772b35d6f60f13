(* Proofs about copies, temporary files and the search for a data file *)
From Verif Require Export FileProofs FileTempSpec.

(* ---- copies ---- *)
Lemma chunk_pos : (0 < chunkSize)%nat.
Proof. unfold chunkSize. lia. Qed.
Global Opaque chunkSize.
Lemma copy_loop io : forall fuel src w, (List.length src < fuel)%nat ->
  (copyLoop fuel io src w = Some (Success, w ++ src)) \/ (accepts io <> None /\ exists out, copyLoop fuel io src w = Some (FileCopyError, out)).
Proof.
  induction fuel as [|fuel IH]; intros src w L; [lia|]. cbn [copyLoop]. pose proof chunk_pos as P. destruct (firstn chunkSize src) as [|x chunk] eqn:E.
  - destruct src as [|y src]; [rewrite app_nil_r; now left|]. destruct chunkSize; [lia|discriminate E].
  - assert (Sp : src = (x :: chunk) ++ skipn chunkSize src) by (rewrite <- E; symmetry; apply firstn_skipn). set (c := x :: chunk) in *.
    assert (Ls : (List.length (skipn chunkSize src) < fuel)%nat). { rewrite Sp in L. rewrite app_length in L. unfold c in L. cbn [List.length] in L. lia. }
    destruct (List.length (upTo (accepts io) (w ++ c)) <? List.length (w ++ c))%nat eqn:Q.
    + right. split; [|eauto]. intros A. rewrite A in Q. cbn [upTo] in Q. rewrite Nat.ltb_irrefl in Q. discriminate.
    + assert (U : upTo (accepts io) (w ++ c) = w ++ c). { destruct (accepts io) as [k|]; [|reflexivity]. cbn [upTo] in *. apply Nat.ltb_ge in Q. rewrite firstn_length in Q. apply firstn_all2. lia. }
      rewrite U. rewrite Sp at 2. rewrite app_assoc. apply IH. exact Ls.
Qed.
Lemma copy_total io d s p : exists d' st, FileCopy io d s p = Some (d', st).
Proof.
  unfold FileCopy. destruct (find s d); [|eauto]. destruct (canWrite io); [|eauto]. unfold fileCopy. destruct (seeks io); [|eauto].
  match goal with |- context [copyLoop _ io ?b []] => destruct (copy_loop io (S (List.length b)) b [] ltac:(lia)) as [-> |(_ & out & ->)]; eauto end.
Qed.
Lemma some_pair {A B : Type} (a c : A) (b e : B) : Some (a, b) = Some (c, e) -> a = c /\ b = e.
Proof. intros H. inversion H. auto. Qed.
Lemma copy_cases io d s p d' st : FileCopy io d s p = Some (d', st) -> s <> p ->
  (find s d = None /\ d' = d /\ st = FileNotFound) \/
  (exists b, find s d = Some b /\ canWrite io = false /\ d' = d /\ st = FileWriteError) \/
  (exists b c, find s d = Some b /\ canWrite io = true /\ st = Success /\ made d d' p c /\ (noErrors io -> c = b)) \/
  (exists b, find s d = Some b /\ canWrite io = true /\ st = FileCopyError /\ accepts io <> None /\ (forall q, q <> p -> find q d' = find q d) /\ (removes io = true -> find p d' = None)).
Proof.
  intros E N. unfold FileCopy in E. destruct (find s d) as [b|] eqn:F; [|injection E as <- <-; left; auto]. destruct (canWrite io) eqn:W; [|injection E as <- <-; right; left; exists b; auto].
  assert (Fs : find s (store p [] d) = Some b) by (rewrite find_store; replace (streq s p) with false by (symmetry; now apply streq_false); exact F). rewrite Fs in E.
  assert (Oth : forall c q, q <> p -> find q (store p c (store p [] d)) = find q d) by (intros c q H; rewrite !find_store; replace (streq q p) with false by (symmetry; now apply streq_false); reflexivity).
  assert (Sel : forall c, find p (store p c (store p [] d)) = Some c) by (intros c; rewrite find_store, streq_refl; reflexivity).
  unfold fileCopy in E. destruct (seeks io) eqn:Sk.
  - destruct (copy_loop io (S (List.length (upTo (reads io) b))) (upTo (reads io) b) [] ltac:(lia)) as [C|(A & out & C)]; rewrite C in E; apply some_pair in E; destruct E as (<- & <-).
    + right. right. left. exists b, (upTo (reaches io) ([] ++ upTo (reads io) b)). split; [reflexivity|]. split; [reflexivity|]. split; [reflexivity|]. split; [split; [apply Sel|apply Oth]|].
      intros (_ & -> & ->). reflexivity.
    + right. right. right. exists b. split; [reflexivity|]. split; [reflexivity|]. split; [reflexivity|]. split; [exact A|]. destruct (removes io).
      * split; [|intros _; rewrite find_remove, streq_refl; reflexivity]. intros q H. rewrite find_remove. replace (streq p q) with false by (symmetry; apply streq_false; congruence). now apply Oth.
      * split; [apply Oth|discriminate].
  - injection E as <- <-. right. right. left. exists b, (upTo (reaches io) []). split; [reflexivity|]. split; [reflexivity|]. split; [reflexivity|]. split; [split; [apply Sel|apply Oth]|]. intros (H & _). congruence.
Qed.

(* ---- strings in memory ---- *)
Lemma write_length buf off s : (off + List.length s <= List.length buf)%nat -> List.length (write buf off s) = List.length buf.
Proof. intros H. unfold write. rewrite !app_length, firstn_length, skipn_length. lia. Qed.
Lemma write_app dir rest s : (List.length s <= List.length rest)%nat -> write (dir ++ rest) (List.length dir) s = dir ++ s ++ skipn (List.length s) rest.
Proof.
  intros H. unfold write. rewrite firstn_app, Nat.sub_diag, firstn_all, firstn_O, app_nil_r. f_equal. f_equal. rewrite skipn_app, skipn_all2 by lia. cbn [app].
  f_equal. lia.
Qed.
Lemma stringIn_app s rest : isString s -> stringIn (s ++ 0 :: rest) = Some s.
Proof.
  induction s as [|c s IH]; intros H; cbn; [reflexivity|]. destruct (Z.eqb_spec c 0) as [->|N]; [exfalso; apply H; now left|]. rewrite IH; [reflexivity|]. intros I. apply H. now right.
Qed.
Lemma isString_app a b : isString (a ++ b) <-> isString a /\ isString b.
Proof. unfold isString. rewrite in_app_iff. tauto. Qed.
Lemma isString_firstn k a : isString a -> isString (firstn k a).
Proof. intros H. rewrite <- (firstn_skipn k a) in H. apply isString_app in H. tauto. Qed.
Lemma isString_skipn k a : isString a -> isString (skipn k a).
Proof. intros H. rewrite <- (firstn_skipn k a) in H. apply isString_app in H. tauto. Qed.
Lemma tempName_string base pid r : isString base -> isString pid -> isString r -> isString (tempName base pid r).
Proof. intros B P R. unfold tempName. rewrite !isString_app. unfold hyphen. repeat split; auto; intros [H|[]]; discriminate. Qed.
Lemma withSlash_string path : isString path -> isString (withSlash path).
Proof. intros H. destruct path as [|c path]; [exact H|]. destruct (withSlash_ne (c :: path) ltac:(discriminate)) as (d & s & E & ->). destruct (sepb s); [exact H|]. apply isString_app. split; [exact H|]. intros [K|[]]; discriminate. Qed.
Lemma tempDir_iff path dir : tempDir path dir <-> dir = withSlash path.
Proof.
  unfold tempDir. split.
  - intros [(-> & ->)|J]; [reflexivity|]. apply joins_iff in J. destruct J as (_ & ->). apply app_nil_r.
  - intros ->. destruct path as [|c path]; [left; auto|]. right. apply joins_iff. split; [discriminate|]. symmetry. apply app_nil_r.
Qed.

Lemma memset_ok buf off size : 0 <= off -> 0 <= size -> off + size <= len buf -> exists b, memset0 buf off size = Some b /\ List.length b = List.length buf.
Proof.
  intros O S L. unfold memset0. replace (off + size >? len buf) with false by (symmetry; rewrite Z.gtb_ltb; apply Z.ltb_ge; lia). eexists. split; [reflexivity|]. apply write_length. rewrite repeat_length. unfold len in L. lia.
Qed.

(* a name is added to the directory in memory *)
Lemma add_loop d base pid dir length : isString base -> isString pid -> isString dir -> 0 <= length -> forall randoms rest, Forall isString randoms -> length <= len rest ->
  match addTempLoop d base pid randoms (dir ++ rest) (len dir) length with
  | Undefined => False
  | Unending => forall r, In r randoms -> len (tempName base pid r) < length -> find (dir ++ tempName base pid r) d <> None
  | Ok (buf, status) => List.length buf = List.length (dir ++ rest) /\
      match status with
      | Success => exists r name, In r randoms /\ stringIn buf = Some (dir ++ name) /\ find (dir ++ name) d = None /\ len (tempName base pid r) <= length /\ name = firstn (Z.to_nat (length - 1)) (tempName base pid r)
      | InsufficientMemory => exists r, In r randoms /\ length < len (tempName base pid r)
      | _ => False
      end
  end.
Proof.
  intros Bs Ps Ds L0. induction randoms as [|r randoms IH]; intros rest Fr L; [intros r []|]. inversion Fr as [|? ? Rs Fr']; subst. cbn [addTempLoop]. set (s := tempName base pid r).
  assert (Ss : isString s) by now apply tempName_string. assert (Lp : 0 < len s) by (unfold s, tempName, len; rewrite !app_length; cbn; lia).
  unfold snprintf. destruct (Z.eqb_spec length 0) as [Z0|Nz].
  - replace (len s >? length) with true by (symmetry; rewrite Z.gtb_ltb; apply Z.ltb_lt; lia).
    destruct (memset_ok (dir ++ rest) (len dir) length) as (b & E & Lb); [unfold len; lia|lia|unfold len in *; rewrite app_length; lia|]. rewrite E. split; [exact Lb|]. exists r. split; [now left|]. unfold s in Lp. lia.
  - set (w := firstn (Z.to_nat (Z.min (length - 1) (len s))) s ++ [0]).
    assert (Lw : len w <= length) by (unfold w, len in *; rewrite app_length, firstn_length; cbn [List.length]; lia).
    replace (len dir + len w >? len (dir ++ rest)) with false by (symmetry; rewrite Z.gtb_ltb; apply Z.ltb_ge; unfold len in *; rewrite app_length; lia).
    replace (Z.to_nat (len dir)) with (List.length dir) by (unfold len; lia). rewrite write_app by (unfold len in *; lia). set (rest' := w ++ skipn (List.length w) rest).
    assert (Lr : List.length rest' = List.length rest) by (unfold rest'; rewrite app_length, skipn_length; unfold len in *; lia).
    destruct (Z.gtb_spec (len s) length) as [G|G].
    + destruct (memset_ok (dir ++ rest') (len dir) length) as (b & E & Lb); [unfold len; lia|lia|unfold len in *; rewrite app_length; lia|]. rewrite E. split; [rewrite Lb, !app_length; lia|]. exists r. split; [now left|exact G].
    + assert (Sn : stringIn (dir ++ rest') = Some (dir ++ firstn (Z.to_nat (length - 1)) s)).
      { unfold rest', w. replace (firstn (Z.to_nat (Z.min (length - 1) (len s))) s) with (firstn (Z.to_nat (length - 1)) s).
        - rewrite <- app_assoc. cbn [app]. rewrite app_assoc. apply stringIn_app. apply isString_app. split; [exact Ds|now apply isString_firstn].
        - destruct (Z.min_spec (length - 1) (len s)) as [(_ & ->)|(Q & ->)]; [reflexivity|]. rewrite !firstn_all2; [reflexivity|unfold len; lia|unfold len in Q; lia]. }
      rewrite Sn. unfold fileExists. destruct (find (dir ++ firstn (Z.to_nat (length - 1)) s) d) as [b|] eqn:F.
      * specialize (IH rest' Fr' ltac:(unfold len in *; lia)). destruct (addTempLoop d base pid randoms (dir ++ rest') (len dir) length) as [(buf, status)| |]; [|exact IH|].
        2: { intros r' [<-|I'] G'; [|exact (IH r' I' G')]. fold s in G' |- *. rewrite firstn_all2 in F by (unfold len in G'; lia). congruence. }
        destruct IH as (Lb & St). split; [rewrite Lb, !app_length; lia|]. destruct status; try exact St.
        -- destruct St as (r' & name & I & H). exists r', name. split; [now right|exact H].
        -- destruct St as (r' & I & H). exists r'. split; [now right|exact H].
      * split; [rewrite !app_length; lia|]. exists r, (firstn (Z.to_nat (length - 1)) s). split; [now left|]. auto.
Qed.
Lemma base_string p base len : isString p -> getBasenameWithoutExtension p len = Some (PathSuccess base) -> isString base.
Proof.
  intros S E. unfold getBasenameWithoutExtension in E. repeat match type of E with context [if ?c then _ else _] => destruct c; try discriminate E end. injection E as <-. apply isString_firstn, isString_skipn, S.
Qed.
Lemma base_safe p length : Z.of_nat (List.length p) < 2 ^ 63 -> 0 <= length < 2 ^ 63 -> getBasenameWithoutExtension p length <> None.
Proof.
  intros P L H. unfold getBasenameWithoutExtension in H. set (name := skipn (getNameFromPath p) p) in *.
  assert (F : isFileName p name) by apply getName_isFileName. pose proof (skipn_length (getNameFromPath p) p) as Ls. fold name in Ls.
  assert (G : (getNameFromPath p <= List.length p)%nat).
  { destruct (path_split p) as [N|(d & s & n & I & -> & N)]; [rewrite getName_none by exact N; lia|rewrite getName_some by assumption; rewrite app_length; cbn; lia]. }
  unfold dotChar in H. revert H. destruct (base_cases p name F) as [Nd|[(dir & b & ext & E1 & E2 & E3 & E4 & E5)|(dot & Nd & E & D)]].
  - unfold strrchr. rewrite (strrchr_none 46 p Nd). unfold size_t. rewrite Z.mod_small by lia. destruct (_ >? length); discriminate.
  - rewrite E4, E2. replace (Z.of_nat (List.length dir + List.length b) - Z.of_nat (List.length dir)) with (Z.of_nat (List.length b)) by lia.
    assert (Lb : (List.length b <= List.length name)%nat) by (rewrite E3, app_length; lia). unfold size_t. rewrite (Z.mod_small (Z.of_nat (List.length b))) by lia. rewrite Z.mod_small by lia. destruct (_ >? length); discriminate.
  - rewrite E. unfold size_t. rewrite <- (Z.mod_unique (Z.of_nat dot - Z.of_nat (getNameFromPath p)) (2 ^ 64) (-1) (2 ^ 64 + (Z.of_nat dot - Z.of_nat (getNameFromPath p)))) by lia. rewrite Z.mod_small by lia.
    destruct (Z.gtb_spec (2 ^ 64 + (Z.of_nat dot - Z.of_nat (getNameFromPath p)) + 1) length); [discriminate|lia].
Qed.

(* a temporary file in a directory *)
Definition tempResult (io : cstring -> IO) (d : Disk) (master dir pid : cstring) (randoms : list cstring) (length : Z) (r : result (Disk * list Z * fstatus)) (n : nat) : Prop :=
  match r with
  | Undefined => False
  | Unending => True
  | Ok (d', buf, status) => List.length buf = n /\
      match status with
      | Success => exists p b c base r, In r randoms /\ stringIn buf = Some p /\ find p d = None /\ find master d = Some b /\ made d d' p c /\ (noErrors (io p) -> c = b) /\
                     p = dir ++ firstn (Z.to_nat (length - 1)) (tempName base pid r) /\ len (tempName base pid r) <= length /\
                     getBasenameWithoutExtension (skipn (getNameFromPath master) master) maxPath = Some (PathSuccess base)
      | _ => (forall p, removes (io p) = true) -> unchanged d d'
      end
  end.
Lemma add_temp d name pid dir length randoms rest : isString name -> isString pid -> isString dir -> Forall isString randoms -> 0 <= length -> length <= len rest -> Z.of_nat (List.length name) < 2 ^ 63 ->
  match FileAddTempFileName d name pid randoms (dir ++ rest) (len dir) length with
  | Undefined => False
  | Unending => True
  | Ok (buf, status) => List.length buf = List.length (dir ++ rest) /\
      match status with
      | Success => exists base r nm, getBasenameWithoutExtension name maxPath = Some (PathSuccess base) /\ In r randoms /\ stringIn buf = Some (dir ++ nm) /\ find (dir ++ nm) d = None /\ len (tempName base pid r) <= length /\ nm = firstn (Z.to_nat (length - 1)) (tempName base pid r)
      | _ => True
      end
  end.
Proof.
  intros Ns Ps Ds Rs L0 L Ln. unfold FileAddTempFileName. destruct (getBasenameWithoutExtension name maxPath) as [[base|]|] eqn:B.
  - pose proof (add_loop d base pid dir length (base_string _ _ _ Ns B) Ps Ds L0 randoms rest Rs L) as A. destruct (addTempLoop d base pid randoms (dir ++ rest) (len dir) length) as [(buf, status)| |]; [|exact A|exact I].
    destruct A as (Lb & St). split; [exact Lb|]. destruct status; auto. destruct St as (r & nm & H). exists base, r, nm. split; [reflexivity|exact H].
  - split; [reflexivity|exact I].
  - exact (base_safe name maxPath Ln ltac:(unfold maxPath; lia) B).
Qed.
Lemma reset_ok length buf status : 0 <= length <= len buf -> exists b, reset length buf status = Some b /\ List.length b = List.length buf /\ (status = Success -> b = buf).
Proof.
  intros L. unfold reset. destruct (Z.gtb_spec length 0) as [G|G].
  - destruct (memset_ok buf 0 length ltac:(lia) ltac:(lia) ltac:(lia)) as (b & E & Lb). rewrite E. destruct status; eauto; eexists; (split; [reflexivity|]); split; auto; discriminate.
  - destruct status; eexists; (split; [reflexivity|]); split; auto.
Qed.
Lemma finish io d master pid dir length randoms buf total : isString dir -> 0 <= total <= len buf ->
  (exists base r nm, getBasenameWithoutExtension (skipn (getNameFromPath master) master) maxPath = Some (PathSuccess base) /\ In r randoms /\ stringIn buf = Some (dir ++ nm) /\ find (dir ++ nm) d = None /\ len (tempName base pid r) <= length /\ nm = firstn (Z.to_nat (length - 1)) (tempName base pid r)) ->
  tempResult io d master dir pid randoms length
    (match copyTemp io d master buf with
     | Undefined => Undefined
     | Unending => Unending
     | Ok (d, status) => match reset total buf status with Some buf => Ok (d, buf, status) | None => Undefined end
     end) (List.length buf).
Proof.
  intros Ds T (base & r & nm & Hb & Ir & Sn & Fr & Lt & En). unfold copyTemp. rewrite Sn. set (p := dir ++ nm) in *. destruct (copy_total (io p) d master p) as (d' & st & E). rewrite E.
  destruct (reset_ok total buf st T) as (b & Er & Lb & Sb). rewrite Er. cbn [tempResult]. split; [exact Lb|].
  destruct (find master d) as [bm|] eqn:Fm.
  - assert (Nm : master <> p) by (intros Q; rewrite Q in Fm; congruence). destruct (copy_cases _ _ _ _ _ _ E Nm) as [(H & _)|[(b0 & H1 & H2 & -> & ->)|[(b0 & c & H1 & H2 & -> & H3 & H4)|(b0 & H1 & H2 & -> & H3 & H4 & H5)]]].
    + congruence.
    + intros _ q. reflexivity.
    + exists p, bm, c, base, r. rewrite (Sb eq_refl). rewrite Fm in H1. injection H1 as <-. split; [exact Ir|]. split; [exact Sn|]. split; [exact Fr|]. split; [reflexivity|]. split; [exact H3|]. split; [exact H4|]. split; [unfold p; now rewrite En|]. split; [exact Lt|exact Hb].
    + intros R q. destruct (streq q p) eqn:Q; [apply streq_iff in Q; subst q; rewrite (H5 (R p)), Fr; reflexivity|]. apply streq_false in Q. auto.
  - unfold FileCopy in E. rewrite Fm in E. injection E as <- <-. intros _ q. reflexivity.
Qed.
Lemma without_paths io d master pid randoms buf : isString master -> isString pid -> Forall isString randoms -> len master < 2 ^ 63 ->
  tempResult io d master [] pid randoms (len buf) (createTempFileWithoutPaths io d master pid randoms buf (len buf)) (List.length buf).
Proof.
  intros Ms Ps Rs Lm. unfold createTempFileWithoutPaths. set (name := skipn (getNameFromPath master) master).
  assert (Ln : Z.of_nat (List.length name) < 2 ^ 63) by (unfold name, len in *; rewrite skipn_length; lia).
  pose proof (add_temp d name pid [] (len buf) randoms buf (isString_skipn _ _ Ms) Ps (fun H => H) Rs ltac:(unfold len; lia) ltac:(lia) Ln) as A. cbn [app] in A. change (len []) with 0 in A.
  destruct (FileAddTempFileName d name pid randoms buf 0 (len buf)) as [(b, status)| |]; [|exact A|exact A]. destruct A as (Lb & St).
  destruct status; try (split; [exact Lb|]; intros _ q; reflexivity).
  rewrite <- Lb. apply finish; [exact (fun H => H)|unfold len; lia|]. destruct St as (base & r & nm & H). exists base, r, nm. exact H.
Qed.
Lemma in_path io d master pid randoms path buf : isString master -> isString pid -> isString path -> Forall isString randoms -> len master < 2 ^ 63 -> len buf < 2 ^ 64 -> len (withSlash path) <> len buf ->
  tempResult io d master (withSlash path) pid randoms (len buf - len (withSlash path) - 1) (createTempFileInPath io d master pid randoms path buf (len buf)) (List.length buf).
Proof.
  intros Ms Ps Hs Rs Lm Lb Ne. unfold createTempFileInPath. set (dir := withSlash path) in *. set (name := skipn (getNameFromPath master) master).
  assert (Ln : Z.of_nat (List.length name) < 2 ^ 63) by (unfold name, len in *; rewrite skipn_length; lia). pose proof (withSlash_string path Hs) as Ds. fold dir in Ds.
  assert (B : exists b1, snprintf buf 0 (len buf) dir = Some b1 /\ List.length b1 = List.length buf /\ (len dir < len buf -> exists rest, b1 = dir ++ rest)).
  { unfold snprintf. destruct (Z.eqb_spec (len buf) 0) as [Z0|Nz]; [exists buf; split; [reflexivity|]; split; [reflexivity|]; unfold len in *; lia|].
    set (w := firstn (Z.to_nat (Z.min (len buf - 1) (len dir))) dir ++ [0]). assert (Lw : (List.length w <= List.length buf)%nat) by (unfold w, len in *; rewrite app_length, firstn_length; cbn [List.length]; lia).
    replace (0 + len w >? len buf) with false by (symmetry; rewrite Z.gtb_ltb; apply Z.ltb_ge; unfold len; lia). eexists. split; [reflexivity|]. split; [apply write_length; lia|].
    intros Lt. change (Z.to_nat 0) with (List.length (@nil Z)). change buf with ([] ++ buf) at 1. rewrite write_app by lia. cbn [app]. exists ([0] ++ skipn (List.length w) buf). rewrite app_assoc. f_equal. unfold w. f_equal. apply firstn_all2. unfold len in *. lia. }
  destruct B as (b1 & Sb & Lb1 & Rb). rewrite Sb. destruct (Z.gtb_spec (len dir) (len buf)) as [G|G].
  - destruct (reset_ok (len buf) b1 InsufficientMemory) as (b & Er & Lr & _); [unfold len in *; lia|]. rewrite Er. split; [lia|]. intros _ q. reflexivity.
  - destruct (Rb ltac:(lia)) as (rest & E). assert (Lrest : len rest = len buf - len dir) by (unfold len in *; rewrite E, app_length in Lb1; lia).
    assert (Sz : size_t (len buf - len dir - 1) = len buf - len dir - 1) by (unfold size_t; apply Z.mod_small; unfold len in *; lia). rewrite Sz, E.
    pose proof (add_temp d name pid dir (len buf - len dir - 1) randoms rest (isString_skipn _ _ Ms) Ps Ds Rs ltac:(lia) ltac:(lia) Ln) as A.
    destruct (FileAddTempFileName d name pid randoms (dir ++ rest) (len dir) (len buf - len dir - 1)) as [(b, status)| |]; [|exact A|exact A]. destruct A as (Lb2 & St). rewrite <- E, Lb1 in Lb2.
    destruct status; try (destruct (reset_ok (len buf) b FileNotFound) as (b' & Er & Lr & _); [unfold len in *; lia|]; cbn [reset] in *; rewrite Er; split; [lia|]; intros _ q; reflexivity).
    rewrite <- Lb2. apply finish; [exact Ds|unfold len in *; lia|]. exact St.
Qed.

Lemma copies_none d master : copies d d master [] [].
Proof.
  split; [constructor|]. split; [intros [|i] j p E; discriminate E|]. split; [intros p []|reflexivity].
Qed.
Lemma copies_skip d d1 d' master dir dirs new : unchanged d d1 -> copies d1 d' master dirs new -> copies d d' master (dir :: dirs) (None :: new).
Proof.
  intros U (C1 & C2 & C3 & C4). split; [constructor; [discriminate|exact C1]|]. split.
  - intros [|i] [|j] p Ei Ej; try discriminate; cbn in Ei, Ej. f_equal. exact (C2 i j p Ei Ej).
  - split.
    + intros p [Q|H]; [discriminate|]. rewrite <- (U p), <- (U master). exact (C3 p H).
    + intros q N. rewrite <- (U q). apply C4. intros H. apply N. right. exact H.
Qed.
Lemma copies_add d d1 d' master dir name dirs new b : find (dir ++ name) d = None -> find master d = Some b -> made d d1 (dir ++ name) b -> copies d1 d' master dirs new ->
  copies d d' master (dir :: dirs) (Some (dir ++ name) :: new).
Proof.
  intros F M (A & K) (C1 & C2 & C3 & C4). set (p := dir ++ name) in *. assert (Np : master <> p) by (intros Q; rewrite Q in M; congruence).
  assert (M1 : find master d1 = Some b) by (rewrite K; assumption). assert (Nn : ~ In (Some p) new) by (intros H; destruct (C3 p H) as (Q & _); congruence).
  split; [constructor; [intros x Q; injection Q as <-; exists name; reflexivity|exact C1]|]. split.
  - intros [|i] [|j] q Ei Ej; cbn in Ei, Ej; [reflexivity| | |f_equal; exact (C2 i j q Ei Ej)].
    + injection Ei as <-. exfalso. apply Nn. exact (nth_error_In _ _ Ej).
    + injection Ej as <-. exfalso. apply Nn. exact (nth_error_In _ _ Ei).
  - split.
    + intros q [Q|H].
      * injection Q as <-. split; [exact F|]. split; [congruence|]. rewrite (C4 p Nn), A. congruence.
      * destruct (C3 q H) as (H1 & H2 & H3). assert (Nq : q <> p) by (intros ->; congruence). rewrite (K q Nq) in H1. split; [exact H1|]. split; [congruence|]. rewrite H3. congruence.
    + intros q N. rewrite C4 by (intros H; apply N; right; exact H). apply K. intros ->. apply N. left. reflexivity.
Qed.
Lemma with_paths io master pid : isString master -> isString pid -> len master < 2 ^ 63 -> (forall p, noErrors (io p) /\ removes (io p) = true) ->
  forall paths randoms d buf n st0, Forall isString paths -> Forall (Forall isString) randoms -> List.length buf = n -> Z.of_nat n < 2 ^ 64 -> Forall (fun path => len (withSlash path) <> Z.of_nat n) paths ->
  match createTempFileWithPaths io d master pid randoms paths buf (Z.of_nat n) st0 with
  | Undefined => False
  | Unending => True
  | Ok (d', buf', status) => List.length buf' = n /\ exists new, copies d d' master (map withSlash paths) new /\
      match new with
      | [] => status = st0
      | _ => match last new None with Some p => status = Success /\ stringIn buf' = Some p | None => status <> Success end
      end
  end.
Proof.
  intros Ms Ps Lm Io. induction paths as [|path paths IH]; intros randoms d buf n st0 Hs Rs Ln Lb Nd; cbn [createTempFileWithPaths].
  - split; [exact Ln|]. exists []. split; [apply copies_none|reflexivity].
  - inversion_clear Hs as [|? ? Hp Hs']. inversion_clear Nd as [|? ? Np Nd'].
    assert (Rh : Forall isString (hd [] randoms)) by (destruct Rs; [constructor|assumption]). assert (Rt : Forall (Forall isString) (tl randoms)) by (destruct Rs; [constructor|assumption]).
    assert (El : len buf = Z.of_nat n) by (unfold len; now rewrite Ln).
    pose proof (in_path io d master pid (hd [] randoms) path buf Ms Ps Hp Rh Lm ltac:(lia) ltac:(rewrite El; exact Np)) as T. rewrite El in T.
    destruct (createTempFileInPath io d master pid (hd [] randoms) path buf (Z.of_nat n)) as [((d1, b1), st1)| |]; [|exact T|exact T]. destruct T as (L1 & T). rewrite Ln in L1.
    specialize (IH (tl randoms) d1 b1 n st1 Hs' Rt L1 Lb Nd'). destruct (createTempFileWithPaths io d1 master pid (tl randoms) paths b1 (Z.of_nat n) st1) as [((d2, b2), st2)| |] eqn:E2; [|exact IH|exact IH].
    destruct IH as (L2 & new & C & S2). split; [exact L2|]. cbn [map].
    assert (B : new = [] -> b2 = b1).
    { intros ->. destruct C as (C & _). destruct paths as [|p2 paths]; [cbn in E2; now injection E2|inversion C]. }
    assert (Cs : (st1 = Success /\ exists p b c base r, In r (hd [] randoms) /\ stringIn b1 = Some p /\ find p d = None /\ find master d = Some b /\ made d d1 p c /\ (noErrors (io p) -> c = b) /\
                     p = withSlash path ++ firstn (Z.to_nat (Z.of_nat n - len (withSlash path) - 1 - 1)) (tempName base pid r) /\ len (tempName base pid r) <= Z.of_nat n - len (withSlash path) - 1 /\
                     getBasenameWithoutExtension (skipn (getNameFromPath master) master) maxPath = Some (PathSuccess base)) \/ (st1 <> Success /\ unchanged d d1)).
    { destruct st1; try (right; split; [discriminate|]; apply T; intros p; apply Io). left. split; [reflexivity|exact T]. }
    destruct Cs as [(-> & p & b & c & base & r & _ & T1 & T2 & T3 & T4 & T5 & T6 & _)|(Ns & U)].
    + rewrite (T5 (proj1 (Io p))) in T4. rewrite T6 in T2, T4. exists (Some p :: new). split; [rewrite T6; exact (copies_add _ _ _ _ _ _ _ _ _ T2 T3 T4 C)|].
      destruct new as [|o new]; [cbn [last]; rewrite (B eq_refl); split; [exact S2|exact T1]|exact S2].
    + exists (None :: new). split; [exact (copies_skip _ _ _ _ _ _ _ U C)|]. destruct new as [|o new]; [cbn [last]; congruence|exact S2].
Qed.

(* ---- the old method ---- *)
Lemma legacy_fresh d dir randoms p : getUniqueLegacyFileName d dir randoms = Some p -> find p d = None /\ exists r, In r randoms /\ p = dir ++ r.
Proof.
  induction randoms as [|r randoms IH]; cbn; [discriminate|]. unfold fileExists. destruct (find (dir ++ r) d) eqn:F.
  - intros E. destruct (IH E) as (H & r' & I & Q). split; [exact H|]. exists r'. auto.
  - intros E. injection E as <-. split; [exact F|]. exists r. auto.
Qed.

Lemma legacy_found d dir r : forall l, In r l -> find (dir ++ r) d = None -> getUniqueLegacyFileName d dir l <> None.
Proof.
  induction l as [|x l IH]; intros I F; [destruct I|]. cbn [getUniqueLegacyFileName]. unfold fileExists. destruct (find (dir ++ x) d) eqn:E; [|discriminate].
  apply IH; [|exact F]. destruct I as [->|I]; [congruence|exact I].
Qed.

(* ---- the data file ---- *)
Lemma path_loop d cwd tail size : isString cwd -> forall i, (i <= List.length cwd)%nat ->
  match getPathLoop d cwd tail size i with
  | (Success, Some p) => exists k, (0 < k <= i)%nat /\ (k = List.length cwd \/ isSep (charAt cwd k)) /\ p = firstn k cwd ++ tail /\ fileExists d p = true /\ len p < 4096 /\ len p < size /\
      forall j, (k < j <= i)%nat -> j = List.length cwd \/ isSep (charAt cwd j) -> fileExists d (firstn j cwd ++ tail) = false
  | (FileNotFound, None) => forall j, (0 < j <= i)%nat -> j = List.length cwd \/ isSep (charAt cwd j) -> fileExists d (firstn j cwd ++ tail) = false
  | (InsufficientMemory, None) => exists k, (0 < k <= i)%nat /\ (k = List.length cwd \/ isSep (charAt cwd k)) /\ (4096 <= len (firstn k cwd ++ tail) \/ (fileExists d (firstn k cwd ++ tail) = true /\ size <= len (firstn k cwd ++ tail)))
  | _ => False
  end.
Proof.
  intros Cs. induction i as [|i IH]; intros L; cbn [getPathLoop]; [intros j H; lia|]. specialize (IH ltac:(lia)).
  assert (T : (charAt cwd (S i) =? backslash) || (charAt cwd (S i) =? slash) || (charAt cwd (S i) =? 0) = true <-> S i = List.length cwd \/ isSep (charAt cwd (S i))).
  { rewrite !orb_true_iff, !Z.eqb_eq. unfold isSep, backslash, slash. split; [|intros [E|[E|E]]; auto].
    - intros [[E|E]|E]; auto. left. destruct (Nat.eq_dec (S i) (List.length cwd)) as [Q|Q]; [exact Q|]. exfalso. apply Cs. rewrite <- E. unfold charAt. apply nth_In. lia.
    - right. unfold charAt. apply nth_overflow. lia. }
  assert (Lp : len (firstn (S i) cwd ++ tail) = Z.of_nat (S i) + len tail) by (unfold len; rewrite app_length, firstn_length; lia).
  destruct ((charAt cwd (S i) =? backslash) || (charAt cwd (S i) =? slash) || (charAt cwd (S i) =? 0)) eqn:Q.
  - unfold maxPath. destruct (Z.geb_spec (len tail) (4096 - Z.of_nat (S i))) as [G|G].
    + exists (S i). split; [lia|]. split; [now apply T|]. left. lia.
    + destruct (fileExists d (firstn (S i) cwd ++ tail)) eqn:F.
      * destruct (Z.geb_spec (len (firstn (S i) cwd ++ tail)) size) as [Gs|Gs].
        -- exists (S i). split; [lia|]. split; [now apply T|]. right. split; [exact F|lia].
        -- exists (S i). split; [lia|]. split; [now apply T|]. split; [reflexivity|]. split; [exact F|]. split; [lia|]. split; [lia|]. intros j H. lia.
      * destruct (getPathLoop d cwd tail size i) as ([], [p|]); try exact IH.
        -- destruct IH as (k & K1 & K2 & K3 & K4 & K5 & K6 & K7). exists k. split; [lia|]. split; [exact K2|]. split; [exact K3|]. split; [exact K4|]. split; [exact K5|]. split; [exact K6|]. intros j H Hj. destruct (Nat.eq_dec j (S i)) as [->|]; [exact F|apply K7; [lia|exact Hj]].
        -- intros j H Hj. destruct (Nat.eq_dec j (S i)) as [->|]; [exact F|apply IH; [lia|exact Hj]].
        -- destruct IH as (k & K1 & K2 & K3). exists k. split; [lia|]. split; [exact K2|exact K3].
  - assert (NT : ~ (S i = List.length cwd \/ isSep (charAt cwd (S i)))) by (intros H; apply T in H; discriminate).
    destruct (getPathLoop d cwd tail size i) as ([], [p|]); try exact IH.
    + destruct IH as (k & K1 & K2 & K3 & K4 & K5 & K6 & K7). exists k. split; [lia|]. split; [exact K2|]. split; [exact K3|]. split; [exact K4|]. split; [exact K5|]. split; [exact K6|]. intros j H Hj. destruct (Nat.eq_dec j (S i)) as [->|]; [contradiction|apply K7; [lia|exact Hj]].
    + intros j H Hj. destruct (Nat.eq_dec j (S i)) as [->|]; [contradiction|apply IH; [lia|exact Hj]].
    + destruct IH as (k & K1 & K2 & K3). exists k. split; [lia|]. split; [exact K2|exact K3].
Qed.
Lemma above_iff cwd a : above cwd a <-> exists k, (0 < k <= List.length cwd)%nat /\ (k = List.length cwd \/ isSep (charAt cwd k)) /\ a = firstn k cwd.
Proof.
  split.
  - intros (N & [->|(sep & rest & I & ->)]).
    + exists (List.length cwd). split; [destruct cwd; [congruence|cbn; lia]|]. split; [now left|]. now rewrite firstn_all.
    + exists (List.length a). rewrite app_length. cbn [List.length]. split; [destruct a; [congruence|cbn; lia]|]. split; [right; unfold charAt; now rewrite app_nth2, Nat.sub_diag by lia|]. rewrite firstn_app, Nat.sub_diag, firstn_all, firstn_O. symmetry. apply app_nil_r.
  - intros (k & K & Q & ->). split; [destruct cwd; [cbn in K; lia|destruct k; [lia|discriminate]]|]. destruct (Nat.eq_dec k (List.length cwd)) as [->|Nk]; [left; apply firstn_all|]. destruct Q as [Q|Q]; [contradiction|]. right.
    assert (E : skipn k cwd = charAt cwd k :: skipn (S k) cwd).
    { unfold charAt. assert (H : (k < List.length cwd)%nat) by lia. clear - H. revert k H. induction cwd as [|c cwd IH]; intros k H; [cbn in H; lia|]. destruct k; [reflexivity|]. cbn [skipn nth]. apply IH. cbn in H. lia. }
    exists (charAt cwd k), (skipn (S k) cwd). split; [exact Q|]. rewrite <- E. symmetry. apply firstn_skipn.
Qed.
