(* Proofs about the parts of paths *)
From Verif Require Export FilePathSpec.

Definition sepb (c : Z) : bool := (c =? slash) || (c =? backslash).
Lemma sepb_iff c : sepb c = true <-> isSep c.
Proof. unfold sepb, isSep, slash, backslash. rewrite orb_true_iff, !Z.eqb_eq. tauto. Qed.
Lemma sepb_no c : sepb c = false <-> ~ isSep c.
Proof. rewrite <- sepb_iff. destruct (sepb c); split; congruence. Qed.
Definition noSep (s : cstring) : Prop := forall c, In c s -> ~ isSep c.

(* the last element with a property *)
Lemma last_split (f : Z -> bool) s : (forall c, In c s -> f c = false) \/ exists dir sep name, f sep = true /\ s = dir ++ sep :: name /\ forall c, In c name -> f c = false.
Proof.
  induction s as [|c s [IH|(dir & sep & name & F & E & N)]].
  - left. intros c [].
  - destruct (f c) eqn:Q; [right; exists [], c, s; auto|]. left. intros d [<-|I]; auto.
  - right. exists (c :: dir), sep, name. rewrite E. auto.
Qed.
Lemma path_split p : noSep p \/ exists dir sep name, isSep sep /\ p = dir ++ sep :: name /\ noSep name.
Proof.
  destruct (last_split sepb p) as [H|(dir & sep & name & F & E & N)].
  - left. intros c I. apply sepb_no. auto.
  - right. exists dir, sep, name. split; [now apply sepb_iff|]. split; [exact E|]. intros c I. apply sepb_no. auto.
Qed.

Lemma name_none n : noSep n -> forall cur last, getNameFromPathFrom n cur last = last.
Proof.
  induction n as [|c n IH]; intros N cur last; cbn; [reflexivity|]. fold (sepb c).
  assert (Q : sepb c = false) by (apply sepb_no; apply N; now left). rewrite Q. apply IH. intros d I. apply N. now right.
Qed.
Lemma name_some dir sep name : isSep sep -> noSep name -> forall cur last, getNameFromPathFrom (dir ++ sep :: name) cur last = (cur + List.length dir + 1)%nat.
Proof.
  intros I N. apply sepb_iff in I. induction dir as [|c dir IH]; intros cur last; cbn [app getNameFromPathFrom List.length].
  - fold (sepb sep). rewrite I, (name_none name N). lia.
  - fold (sepb c). rewrite IH. lia.
Qed.
Lemma getName_none p : noSep p -> getNameFromPath p = 0%nat.
Proof. intros N. unfold getNameFromPath. now apply name_none. Qed.
Lemma getName_some dir sep name : isSep sep -> noSep name -> getNameFromPath (dir ++ sep :: name) = S (List.length dir).
Proof. intros I N. unfold getNameFromPath. rewrite (name_some dir sep name I N). lia. Qed.
Lemma skipn_sep (dir : cstring) sep name : skipn (S (List.length dir)) (dir ++ sep :: name) = name.
Proof. replace (dir ++ sep :: name) with ((dir ++ [sep]) ++ name) by now rewrite <- app_assoc. rewrite skipn_app, skipn_all2 by (rewrite app_length; cbn; lia). rewrite app_length. cbn [List.length app]. now replace (S (List.length dir) - (List.length dir + 1))%nat with 0%nat by lia. Qed.

Lemma isFileName_fun p n1 n2 : isFileName p n1 -> isFileName p n2 -> n1 = n2.
Proof.
  assert (G : forall d1 s1 n1 d2 s2 n2 : _, isSep s1 -> isSep s2 -> noSep n1 -> noSep n2 -> d1 ++ s1 :: n1 = d2 ++ s2 :: n2 -> n1 = n2).
  { intros d1 s1 a d2 s2 b I1 I2 N1 N2 E. pose proof (getName_some d1 s1 a I1 N1) as G1. pose proof (getName_some d2 s2 b I2 N2) as G2. rewrite <- E, G1 in G2.
    injection G2 as G2. pose proof (skipn_sep d1 s1 a) as S1. pose proof (skipn_sep d2 s2 b) as S2. rewrite <- E, <- G2, S1 in S2. exact S2. }
  assert (G0 : forall d s n, isSep s -> ~ noSep (d ++ s :: n)). { intros d s n I N. apply (N s); [apply in_or_app; right; now left|exact I]. }
  intros (N1 & [E1|(d1 & s1 & I1 & E1)]) (N2 & [E2|(d2 & s2 & I2 & E2)]).
  - congruence.
  - exfalso. apply (G0 d2 s2 n2 I2). rewrite <- E2, E1. exact N1.
  - exfalso. apply (G0 d1 s1 n1 I1). rewrite <- E1, E2. exact N2.
  - subst p. exact (G _ _ _ _ _ _ I1 I2 N1 N2 E2).
Qed.
Lemma getName_isFileName p : isFileName p (skipn (getNameFromPath p) p).
Proof.
  destruct (path_split p) as [N|(dir & sep & name & I & -> & N)].
  - rewrite getName_none by exact N. split; [exact N|now left].
  - rewrite getName_some by assumption. rewrite skipn_sep. split; [exact N|]. right. exists dir, sep. auto.
Qed.
Lemma streq_iff a : forall b, streq a b = true <-> a = b.
Proof. induction a as [|x a IH]; intros [|y b]; cbn; try (split; congruence). rewrite andb_true_iff, Z.eqb_eq, IH. split; [intros (-> & ->); reflexivity|intros H; injection H; auto]. Qed.

(* strrchr *)
Lemma strrchr_none c s : ~ In c s -> forall i f, strrchrFrom c s i f = f.
Proof.
  induction s as [|x s IH]; intros N i f; cbn; [reflexivity|]. destruct (Z.eqb_spec x c) as [->|]; [exfalso; apply N; now left|]. apply IH. intros I. apply N. now right.
Qed.
Lemma strrchr_some c a b : ~ In c b -> forall i f, strrchrFrom c (a ++ c :: b) i f = Some (i + List.length a)%nat.
Proof.
  intros N. induction a as [|x a IH]; intros i f; cbn [app strrchrFrom List.length].
  - rewrite Z.eqb_refl, (strrchr_none c b N). f_equal. lia.
  - rewrite IH. f_equal. lia.
Qed.
Lemma char_split c (s : cstring) : ~ In c s \/ exists a b, s = a ++ c :: b /\ ~ In c b.
Proof.
  destruct (last_split (Z.eqb c) s) as [H|(dir & sep & name & F & E & N)].
  - left. intros I. specialize (H _ I). rewrite Z.eqb_refl in H. discriminate.
  - right. apply Z.eqb_eq in F. subst sep. exists dir, name. split; [exact E|]. intros I. specialize (N _ I). rewrite Z.eqb_refl in N. discriminate.
Qed.
Lemma isBaseName_fun n b1 b2 : isBaseName n b1 -> isBaseName n b2 -> b1 = b2.
Proof.
  assert (R : forall b e : cstring, ~ In 46 e -> strrchr (b ++ 46 :: e) 46 = Some (List.length b)) by (intros b e H; unfold strrchr; now rewrite strrchr_some).
  intros [(N1 & ->)|(e1 & N1 & E1)] [(N2 & ->)|(e2 & N2 & E2)].
  - reflexivity.
  - exfalso. apply N1. rewrite E2. apply in_or_app. right. now left.
  - exfalso. apply N2. rewrite E1. apply in_or_app. right. now left.
  - pose proof (R b1 e1 N1) as R1. pose proof (R b2 e2 N2) as R2. rewrite <- E1 in R1. rewrite <- E2, R1 in R2. injection R2 as R2.
    assert (F : firstn (List.length b1) n = b1) by (rewrite E1, firstn_app, Nat.sub_diag, firstn_all, firstn_O; apply app_nil_r).
    assert (F2 : firstn (List.length b2) n = b2) by (rewrite E2, firstn_app, Nat.sub_diag, firstn_all, firstn_O; apply app_nil_r). congruence.
Qed.

(* where the dot of a path is: in the name, or before it *)
Lemma base_cases p name : isFileName p name ->
  (~ In 46 p) \/
  (exists dir base ext, p = dir ++ name /\ getNameFromPath p = List.length dir /\ name = base ++ 46 :: ext /\ strrchr p 46 = Some (List.length dir + List.length base)%nat /\ ~ In 46 ext) \/
  (exists dot, ~ In 46 name /\ strrchr p 46 = Some dot /\ (dot + 2 <= getNameFromPath p)%nat).
Proof.
  intros F. assert (D : exists dir, p = dir ++ name /\ getNameFromPath p = List.length dir /\ (dir = [] \/ exists d s, isSep s /\ dir = d ++ [s])).
  { destruct F as (N & [->|(d & s & I & ->)]).
    - exists []. rewrite getName_none by exact N. auto.
    - exists (d ++ [s]). rewrite getName_some by assumption. rewrite <- app_assoc. cbn [app]. split; [reflexivity|]. split; [rewrite app_length; cbn; lia|]. right. exists d, s. auto. }
  destruct D as (dir & E & G & L). destruct (char_split 46 name) as [N|(b & e & En & Ne)].
  - destruct (char_split 46 dir) as [Nd|(a & b & Ed & Nb)].
    + left. intros I. rewrite E in I. apply in_app_or in I. tauto.
    + right. right. exists (List.length a). split; [exact N|]. split.
      * rewrite E, Ed, <- app_assoc. cbn [app]. unfold strrchr. rewrite strrchr_some; [reflexivity|]. intros I. apply in_app_or in I. tauto.
      * rewrite G, Ed, app_length. cbn [List.length]. destruct L as [->|(d & s & I & L)]; [destruct a; discriminate Ed|].
        destruct b as [|x b]; [|cbn; lia]. exfalso. rewrite Ed in L. apply app_inj_tail in L. destruct L as (_ & <-). destruct I; discriminate.
  - right. left. exists dir, b, e. split; [exact E|]. split; [exact G|]. split; [exact En|]. split; [|exact Ne].
    rewrite E, En, app_assoc. unfold strrchr. rewrite strrchr_some by exact Ne. now rewrite app_length.
Qed.

Lemma FileGetFileName_some dir sep name : isSep sep -> noSep name -> FileGetFileName (dir ++ sep :: name) = S (List.length dir).
Proof.
  intros I N. unfold FileGetFileName. f_equal.
  assert (G : forall k, (k <= List.length name)%nat -> fileNameLoop (dir ++ sep :: name) (S (List.length dir) + k) = fileNameLoop (dir ++ sep :: name) (List.length dir)).
  { induction k as [|k IH]; intros L.
    - rewrite Nat.add_0_r. cbn [fileNameLoop]. assert (Q : charAt (dir ++ sep :: name) (S (List.length dir)) = nth 0 name 0).
      { unfold charAt. rewrite app_nth2 by lia. now replace (S (List.length dir) - List.length dir)%nat with 1%nat by lia. }
      rewrite Q. destruct name as [|c name]; [reflexivity|]. cbn [nth]. assert (Qc : sepb c = false) by (apply sepb_no, N; now left). unfold sepb in Qc. rewrite orb_comm, Qc. reflexivity.
    - replace (S (List.length dir) + S k)%nat with (S (S (List.length dir) + k)) by lia. cbn [fileNameLoop].
      assert (Q : charAt (dir ++ sep :: name) (S (S (List.length dir) + k)) = nth (S k) name 0).
      { unfold charAt. rewrite app_nth2 by lia. replace (S (S (List.length dir) + k) - List.length dir)%nat with (S (S k))%nat by lia. reflexivity. }
      rewrite Q. destruct (Nat.eq_dec (S k) (List.length name)) as [E|E].
      + rewrite nth_overflow by lia. cbn. apply IH. lia.
      + assert (Qc : sepb (nth (S k) name 0) = false) by (apply sepb_no, N, nth_In; lia). unfold sepb in Qc. rewrite orb_comm, Qc. apply IH. lia. }
  rewrite app_length. cbn [List.length]. replace (List.length dir + S (List.length name))%nat with (S (List.length dir) + List.length name)%nat by lia. rewrite (G _ (le_n _)).
  destruct dir as [|c dir]; [reflexivity|]. cbn [List.length fileNameLoop].
  assert (Q : charAt ((c :: dir) ++ sep :: name) (S (List.length dir)) = sep) by (unfold charAt; rewrite app_nth2 by (cbn; lia); cbn [List.length]; now rewrite Nat.sub_diag).
  rewrite Q. apply sepb_iff in I. unfold sepb in I. now rewrite orb_comm, I.
Qed.
Lemma FileGetFileName_none p : noSep p -> FileGetFileName p = 1%nat.
Proof.
  intros N. unfold FileGetFileName. f_equal. generalize (le_n (List.length p)). generalize (List.length p) at 1 3. intros k.
  induction k as [|k IH]; intros L; cbn [fileNameLoop]; [reflexivity|].
  assert (Q : sepb (charAt p (S k)) = false).
  { unfold charAt. destruct (Nat.eq_dec (S k) (List.length p)); [rewrite nth_overflow by lia; reflexivity|]. apply sepb_no, N, nth_In. lia. }
  unfold sepb in Q. rewrite orb_comm, Q. apply IH. lia.
Qed.
