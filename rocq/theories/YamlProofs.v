(* Proofs about yamlfile.c. *)
From Verif Require Import TextFileProofs.
From Verif Require Export YamlModel YamlSpec.

(* ---- characters, whatever the buffer ---- *)
Fixpoint feed (size limit : Z) (st : State) (l : list Z) : outcome :=
  match l with
  | [] => Running st
  | c :: rest => match step size limit st (Some c) with Running st' => feed size limit st' rest | o => o end
  end.
Definition result (size limit : Z) (st : State) (l : list Z) : option (list call) :=
  match feed size limit st l with
  | Running st' => match step size limit st' None with Stopped x => Some x | _ => None end
  | Stopped x => Some x
  | Undefined => None
  end.
Lemma feed_app size limit st a b : feed size limit st (a ++ b) = match feed size limit st a with Running st' => feed size limit st' b | o => o end.
Proof. revert st. induction a as [|c a IH]; intros st; [reflexivity|]. cbn [app feed]. destruct (step size limit st (Some c)); [apply IH|reflexivity|reflexivity]. Qed.
Lemma step_eof size limit st : match step size limit st None with Running _ => False | _ => True end.
Proof. unfold step. destruct (if Nat.eqb _ _ then _ else _); exact I. Qed.
Lemma loop_result size limit : forall fuel r st, 0 < bufferLength r -> length (ahead r ++ file r) < fuel ->
  loop fuel size limit r st = result size limit st (ahead r ++ file r).
Proof.
  induction fuel as [|fuel IH]; intros r st B L; [lia|]. destruct r as [n a f]. cbn [bufferLength ahead file] in *. cbn [loop].
  unfold readNext. cbn [ahead file bufferLength]. destruct a as [|c a].
  - destruct f as [|c f].
    + rewrite firstn_nil. cbn [app]. unfold result. cbn [feed]. pose proof (step_eof size limit st). destruct (step size limit st None); [contradiction|reflexivity|reflexivity].
    + destruct n as [|n]; [lia|]. cbn [firstn skipn]. cbn [app]. unfold result. cbn [feed]. destruct (step size limit st (Some c)); auto.
      rewrite IH; cbn [ahead file bufferLength]; [|lia|rewrite firstn_skipn; cbn in L; lia]. rewrite firstn_skipn. reflexivity.
  - cbn [app]. unfold result. cbn [feed]. destruct (step size limit st (Some c)); auto. rewrite IH; cbn [ahead file bufferLength]; [reflexivity|lia|cbn in L; lia].
Qed.

(* ---- lines ---- *)
Fixpoint runLines (size limit : Z) (st : State) (ls : list (list Z)) : option (list call) :=
  match ls with
  | [] => Some (calls st ++ callback (pairState st))
  | l :: rest => match feed size limit st (l ++ [10%Z]) with Running st' => runLines size limit st' rest | Stopped x => Some x | Undefined => None end
  end.
Definition lineStart : FileState := mkFile 0 0 1 0 0 0.
Lemma step_eol size limit st c : eol c -> step size limit st (Some c) = step size limit st (Some 10%Z).
Proof. intros H. unfold step. apply isEol_iff in H. rewrite H. reflexivity. Qed.
Lemma step_newline_start size limit st st' : step size limit st (Some 10%Z) = Running st' -> fileState st' = lineStart.
Proof. unfold step. cbn [isEol Z.eqb orb Pos.eqb]. destruct (if Nat.eqb _ _ then _ else _); [|discriminate]. intros E. injection E as <-. reflexivity. Qed.
Lemma result_lines size limit text ls : linesOf text ls -> forall st, fileState st = lineStart -> result size limit st text = runLines size limit st ls.
Proof.
  induction 1 as [|c text l E _ IH|line N F|line c text l N F E _ IH]; intros st Hs.
  - cbn. unfold result. cbn [feed]. unfold step. rewrite Hs. reflexivity.
  - destruct st as [fs ps cnt cls]. cbn [fileState] in Hs. subst fs. unfold result. cbn [feed]. rewrite step_eol by exact E. unfold step. cbn [fileState pairState count calls]. cbn [isEol Z.eqb orb Pos.eqb lineStart newLineCount Nat.eqb].
    apply (IH (mkState lineStart ps cnt cls)). reflexivity.
  - cbn [runLines]. rewrite feed_app. unfold result. destruct (feed size limit st line) as [st1|x|]; [|reflexivity|reflexivity]. cbn [feed].
    unfold step at 1 2. cbn [isEol Z.eqb orb Pos.eqb]. destruct (if Nat.eqb (newLineCount (fileState st1)) 0 then _ else _); reflexivity.
  - cbn [runLines]. unfold result. rewrite !feed_app. destruct (feed size limit st line) as [st1|x|]; [|reflexivity|reflexivity]. cbn [feed]. rewrite (step_eol _ _ _ _ E).
    destruct (step size limit st1 (Some 10%Z)) as [st2|x|] eqn:S; [|reflexivity|reflexivity]. apply IH. exact (step_newline_start _ _ _ _ S).
Qed.
(* the first line *)
Lemma step_first size limit ps n m cnt cls c : ~ eol c ->
  step size limit (mkState (mkFile 0 0 n 0 0 0) ps cnt cls) (Some c) = step size limit (mkState (mkFile 0 0 m 0 0 0) ps cnt cls) (Some c).
Proof. intros H. apply isEol_false in H. unfold step. cbn [fileState pairState]. rewrite H. reflexivity. Qed.
Lemma result_first size limit ps n m cnt cls c text : ~ eol c ->
  result size limit (mkState (mkFile 0 0 n 0 0 0) ps cnt cls) (c :: text) = result size limit (mkState (mkFile 0 0 m 0 0 0) ps cnt cls) (c :: text).
Proof. intros H. unfold result. cbn [feed]. now rewrite (step_first size limit ps n m cnt cls c H). Qed.

(* ---- buffers ---- *)
Lemma setPair_app (M1 M2 : Pairs) x y : setPair (M1 ++ x :: M2) (length M1) y = M1 ++ y :: M2.
Proof.
  unfold setPair. rewrite firstn_app_exact. f_equal. f_equal. rewrite skipn_app. rewrite skipn_all2 by lia. replace (S (length M1) - length M1) with 1 by lia. reflexivity.
Qed.
Lemma nth_pair (M1 M2 : Pairs) x : nth_error (M1 ++ x :: M2) (length M1) = Some x.
Proof. rewrite nth_error_app2, Nat.sub_diag by lia. reflexivity. Qed.
Definition inPair (M1 M2 : Pairs) (kb vb : list Z) (idx : Z) (v : bool) (off : nat) : PairState :=
  mkPair (M1 ++ (kb, vb) :: M2) idx (length M1) v off (Z.of_nat (length (if v then vb else kb)) - 1).
Lemma store_key M1 M2 w x r vb idx e c :
  store (mkPair (M1 ++ (w ++ x :: r, vb) :: M2) idx (length M1) false (length w) e) c = Some (mkPair (M1 ++ (w ++ c :: r, vb) :: M2) idx (length M1) false (length w) e).
Proof.
  unfold store. cbn [pairs currentPair inValue offset index end_]. rewrite nth_pair. assert (L : Nat.ltb (length w) (length (w ++ x :: r)) = true) by (apply Nat.ltb_lt; rewrite app_length; cbn; lia).
  rewrite L, setPair_app, setAt_app. reflexivity.
Qed.
Lemma store_value M1 M2 kb w x r idx e c :
  store (mkPair (M1 ++ (kb, w ++ x :: r) :: M2) idx (length M1) true (length w) e) c = Some (mkPair (M1 ++ (kb, w ++ c :: r) :: M2) idx (length M1) true (length w) e).
Proof.
  unfold store. cbn [pairs currentPair inValue offset index end_]. rewrite nth_pair. assert (L : Nat.ltb (length w) (length (w ++ x :: r)) = true) by (apply Nat.ltb_lt; rewrite app_length; cbn; lia).
  rewrite L, setPair_app, setAt_app. reflexivity.
Qed.

(* ---- a line with a pair ---- *)
Lemma key_phase size limit M1 M2 vb cnt cls e : (Z.of_nat (length M1) < size)%Z -> forall k w rest n,
  lineChars k -> ~ In 58%Z k -> (w = [] -> forall c r, k = c :: r -> c <> 45%Z /\ c <> 46%Z) -> length k < length rest -> (e = Z.of_nat (length (w ++ rest)) - 1)%Z ->
  exists n', feed size limit (mkState (mkFile 0 0 n 0 (length w) 0) (mkPair (M1 ++ (w ++ rest, vb) :: M2) (Z.of_nat (length M1)) (length M1) false (length w) e) cnt cls) k =
    Running (mkState (mkFile 0 0 n' 0 (length (w ++ k)) 0) (mkPair (M1 ++ ((w ++ k) ++ skipn (length k) rest, vb) :: M2) (Z.of_nat (length M1)) (length M1) false (length (w ++ k)) e) cnt cls).
Proof.
  intros Hsz. induction k as [|c k IH]; intros w rest n Hk N58 Hh Hl He.
  - exists n. cbn [feed length skipn]. now rewrite app_nil_r.
  - apply Forall_cons_iff in Hk. destruct Hk as ((Hc0 & Hce) & Hk). destruct rest as [|x rest]; [cbn in Hl; lia|]. cbn [feed].
    assert (E : step size limit (mkState (mkFile 0 0 n 0 (length w) 0) (mkPair (M1 ++ (w ++ x :: rest, vb) :: M2) (Z.of_nat (length M1)) (length M1) false (length w) e) cnt cls) (Some c) =
      Running (mkState (mkFile 0 0 0 0 (S (length w)) 0) (mkPair (M1 ++ (w ++ c :: rest, vb) :: M2) (Z.of_nat (length M1)) (length M1) false (S (length w)) e) cnt cls)).
    { unfold step. cbn [fileState pairState count calls position dashCount dotCount colon]. apply isEol_false in Hce. rewrite Hce.
      assert (A : Z.eqb c 45 && Nat.eqb (length w) 0 = false).
      { destruct w; [|now rewrite andb_false_r]. destruct (Hh eq_refl c k eq_refl) as (A & _). apply Z.eqb_neq in A. now rewrite A. }
      assert (B : Z.eqb c 46 && Nat.eqb (length w) 0 = false).
      { destruct w; [|now rewrite andb_false_r]. destruct (Hh eq_refl c k eq_refl) as (_ & B). apply Z.eqb_neq in B. now rewrite B. }
      rewrite A, B. assert (C : Z.eqb c 58 = false) by (apply Z.eqb_neq; intros ->; apply N58; now left). rewrite C. cbn [andb].
      rewrite andb_false_r. cbn [Nat.ltb Nat.leb andb]. unfold addCharacter, advance, isValue. cbn [offset end_ index colon Nat.eqb orb position dashCount dotCount quote].
      assert (D : Z.ltb (Z.of_nat (length w)) e = true) by (apply Z.ltb_lt; subst e; rewrite app_length; cbn in *; lia). apply Z.ltb_lt in Hsz. rewrite D, Hsz. cbn [andb].
      rewrite store_key. reflexivity. }
    rewrite E. destruct (IH (w ++ [c]) rest 0) as (n' & F).
    + exact Hk.
    + intros I. apply N58. now right.
    + intros X. destruct w; discriminate X.
    + cbn in Hl. lia.
    + subst e. rewrite !app_length. cbn. f_equal. lia.
    + exists n'. rewrite <- !app_assoc in F. cbn [app] in F. rewrite app_length in F. cbn [length] in F. rewrite Nat.add_1_r in F. rewrite F.
      cbn [length skipn]. rewrite <- !app_assoc. reflexivity.
Qed.

Lemma value_phase size limit M1 M2 kb cnt cls e q cl : (Z.of_nat (length M1) < size)%Z -> 0 < cl -> forall v w rest pos,
  lineChars v -> cl + 1 <= pos -> (pos = cl + 1 -> forall c r, v = c :: r -> c <> 39%Z) -> length v < length rest -> (e = Z.of_nat (length (w ++ rest)) - 1)%Z ->
  feed size limit (mkState (mkFile 0 0 0 q pos cl) (mkPair (M1 ++ (kb, w ++ rest) :: M2) (Z.of_nat (length M1)) (length M1) true (length w) e) cnt cls) v =
    Running (mkState (mkFile 0 0 0 q (pos + length v) cl) (mkPair (M1 ++ (kb, (w ++ v) ++ skipn (length v) rest) :: M2) (Z.of_nat (length M1)) (length M1) true (length (w ++ v)) e) cnt cls).
Proof.
  intros Hsz Hcl. induction v as [|c v IH]; intros w rest pos Hv Hp Hh Hl He.
  - cbn [feed length skipn]. now rewrite app_nil_r, Nat.add_0_r.
  - apply Forall_cons_iff in Hv. destruct Hv as ((Hc0 & Hce) & Hv). destruct rest as [|x rest]; [cbn in Hl; lia|]. cbn [feed].
    assert (E : step size limit (mkState (mkFile 0 0 0 q pos cl) (mkPair (M1 ++ (kb, w ++ x :: rest) :: M2) (Z.of_nat (length M1)) (length M1) true (length w) e) cnt cls) (Some c) =
      Running (mkState (mkFile 0 0 0 q (S pos) cl) (mkPair (M1 ++ (kb, w ++ c :: rest) :: M2) (Z.of_nat (length M1)) (length M1) true (S (length w)) e) cnt cls)).
    { unfold step. cbn [fileState pairState count calls position dashCount dotCount colon]. apply isEol_false in Hce. rewrite Hce.
      destruct pos as [|pos]; [lia|]. destruct cl as [|cl]; [lia|]. cbn [Nat.eqb]. rewrite !andb_false_r.
      assert (C : Z.eqb c 39 && Nat.ltb 0 (S cl) && Nat.eqb (S cl + 1) (S pos) = false).
      { destruct (Nat.eqb_spec (S cl + 1) (S pos)) as [X|X]; [|now rewrite andb_false_r]. assert (Y : c <> 39%Z) by (apply (Hh (eq_sym X) c v); reflexivity). apply Z.eqb_neq in Y. now rewrite Y. }
      rewrite C. unfold addCharacter, advance, isValue. cbn [offset end_ index colon Nat.eqb orb position dashCount dotCount quote].
      assert (D : Z.ltb (Z.of_nat (length w)) e = true) by (apply Z.ltb_lt; subst e; rewrite app_length; cbn in *; lia). apply Z.ltb_lt in Hsz. rewrite D, Hsz.
      assert (G : Nat.ltb (S cl + 1) (S (S pos)) = true) by (apply Nat.ltb_lt; lia). rewrite G. cbn [andb].
      rewrite store_value. reflexivity. }
    assert (LW : length (w ++ [c]) = S (length w)) by (rewrite app_length; cbn; lia).
    rewrite E. specialize (IH (w ++ [c]) rest (S pos)). rewrite LW in IH. rewrite <- !app_assoc in IH. cbn [app] in IH. rewrite IH.
    + cbn [length skipn]. rewrite <- !app_assoc. replace (S pos + length v) with (pos + S (length v)) by lia. reflexivity.
    + exact Hv.
    + lia.
    + lia.
    + cbn in Hl. lia.
    + subst e. rewrite !app_length. cbn. f_equal.
Qed.

Definition atStart (M : Pairs) (i : nat) (cnt : Z) (cls : list call) (st : State) : Prop :=
  exists kb vb, nth_error M i = Some (kb, vb) /\ st = mkState lineStart (mkPair M (Z.of_nat i) i false 0 (Z.of_nat (length kb) - 1)) cnt cls.
Lemma nth_split_pair (M : Pairs) i b : nth_error M i = Some b -> exists M1 M2, M = M1 ++ b :: M2 /\ length M1 = i.
Proof. intros H. apply nth_error_split in H. destruct H as (M1 & M2 & E & L). eauto. Qed.
Lemma toInt16_small z : (- 2 ^ 15 <= z < 2 ^ 15)%Z -> toInt16 z = z.
Proof. intros H. unfold toInt16. rewrite Z.mod_small; lia. Qed.
Lemma setCurrent_at M i idx cp v off e value b : nth_error M i = Some b -> idx = Z.of_nat i ->
  setCurrent value (mkPair M idx cp v off e) = Some (mkPair M idx i value 0 (Z.of_nat (length (if value then snd b else fst b)) - 1)).
Proof.
  intros H ->. unfold setCurrent. cbn [index pairs]. destruct (Z.ltb_spec (Z.of_nat i) 0); [lia|]. unfold bufferOf. cbn [pairs]. rewrite Nat2Z.id, H. cbn. destruct value; reflexivity.
Qed.

(* the pair that is written *)
Definition written (b b' : list Z * list Z) (p : list Z * scalar) : Prop :=
  length (fst b') = length (fst b) /\ length (snd b') = length (snd b) /\ cstring (fst b') = Some (fst p) /\ cstring (snd b') = Some (valueOf (snd p)).
Lemma no_zero l : lineChars l -> ~ In 0%Z l.
Proof. unfold lineChars. intros H I. rewrite Forall_forall in H. destruct (H _ I) as (A & _). congruence. Qed.
Lemma skipn_cons_at {A} n (l : list A) : n < length l -> exists x r, skipn n l = x :: r /\ length r = length l - S n.
Proof.
  intros H. destruct (skipn n l) as [|x r] eqn:E; [apply (f_equal (@length A)) in E; rewrite skipn_length in E; cbn in E; lia|].
  exists x, r. split; [reflexivity|]. apply (f_equal (@length A)) in E. rewrite skipn_length in E. cbn in E. lia.
Qed.
Lemma nextPair_value M1 M2 kb w x r e b2 : nth_error (M1 ++ (kb, w ++ 0%Z :: r) :: M2) (S (length M1)) = Some b2 -> (Z.of_nat (S (length M1)) < 2 ^ 15)%Z ->
  nextPair (mkPair (M1 ++ (kb, w ++ x :: r) :: M2) (Z.of_nat (length M1)) (length M1) true (length w) e) =
  Some (mkPair (M1 ++ (kb, w ++ 0%Z :: r) :: M2) (Z.of_nat (S (length M1))) (S (length M1)) false 0 (Z.of_nat (length (fst b2)) - 1)).
Proof.
  intros H L. unfold nextPair. rewrite store_value. cbn [pairs index currentPair inValue offset end_]. rewrite toInt16_small by lia.
  replace (Z.of_nat (length M1) + 1)%Z with (Z.of_nat (S (length M1))) by lia. now rewrite (setCurrent_at _ (S (length M1)) _ _ _ _ _ false b2 H eq_refl).
Qed.
Lemma pair_line size limit M i cnt cls st p b : atStart M i cnt cls st -> size = Z.of_nat (length M) -> S i < length M -> (Z.of_nat (S i) < 2 ^ 15)%Z ->
  pairOk p -> nth_error M i = Some b -> length (fst p) < length (fst b) -> scalarFits (snd p) (length (snd b)) ->
  exists M1 M2 b' st', M = M1 ++ b :: M2 /\ length M1 = i /\ written b b' p /\ atStart (M1 ++ b' :: M2) (S i) cnt cls st' /\
    feed size limit st (renderPair p ++ [10%Z]) = Running st'.
Proof.
  intros (kb & vb & Hn & ->) Hsz Hi H15 ((Hk & N58 & Hh) & (Hv & Hq)) Hb Lk Lv. rewrite Hb in Hn. injection Hn as ->. cbn [fst snd] in *.
  destruct (nth_split_pair _ _ _ Hb) as (M1 & M2 & -> & <-). exists M1, M2. destruct p as (k, s). cbn [fst snd] in *.
  assert (Hs : (Z.of_nat (length M1) < size)%Z) by (subst size; lia).
  unfold renderPair. cbn [fst snd]. rewrite <- !app_assoc. rewrite feed_app.
  destruct (key_phase size limit M1 M2 vb cnt cls (Z.of_nat (length kb) - 1) Hs k [] kb 1 Hk N58 ltac:(intros _; exact Hh) Lk eq_refl) as (n' & E).
  cbn [app length] in E. unfold lineStart. rewrite E. clear E.
  destruct (skipn_cons_at _ _ Lk) as (x & r & Es & Lr). rewrite Es.
  set (kb' := k ++ 0%Z :: r).
  assert (Lkb : length kb' = length kb) by (unfold kb'; rewrite app_length; cbn; lia).
  (* the colon *)
  cbn [app feed].
  assert (E1 : step size limit (mkState (mkFile 0 0 n' 0 (length k) 0) (mkPair (M1 ++ (k ++ x :: r, vb) :: M2) (Z.of_nat (length M1)) (length M1) false (length k) (Z.of_nat (length kb) - 1)) cnt cls) (Some 58%Z) =
    Running (mkState (mkFile 0 0 0 0 (S (length k)) (S (length k))) (mkPair (M1 ++ (kb', vb) :: M2) (Z.of_nat (length M1)) (length M1) true 0 (Z.of_nat (length vb) - 1)) cnt cls)).
  { unfold step. cbn [fileState pairState count calls position dashCount dotCount colon isEol Z.eqb Pos.eqb orb andb Nat.eqb]. unfold switchKeyValue.
    rewrite store_key. fold kb'. now rewrite (setCurrent_at _ (length M1) _ _ _ _ _ true (kb', vb) (nth_pair _ _ _) eq_refl). }
  rewrite E1. clear E1.
  (* the space *)
  assert (E2 : step size limit (mkState (mkFile 0 0 0 0 (S (length k)) (S (length k))) (mkPair (M1 ++ (kb', vb) :: M2) (Z.of_nat (length M1)) (length M1) true 0 (Z.of_nat (length vb) - 1)) cnt cls) (Some 32%Z) =
    Running (mkState (mkFile 0 0 0 0 (S (S (length k))) (S (length k))) (mkPair (M1 ++ (kb', vb) :: M2) (Z.of_nat (length M1)) (length M1) true 0 (Z.of_nat (length vb) - 1)) cnt cls)).
  { unfold step. cbn [fileState pairState count calls position dashCount dotCount colon isEol Z.eqb Pos.eqb orb andb Nat.eqb]. unfold addCharacter, isValue, advance.
    cbn [colon position dashCount dotCount quote Nat.eqb orb]. assert (X : Nat.ltb (S (length k) + 1) (S (S (length k))) = false) by (apply Nat.ltb_ge; lia). rewrite X. now rewrite andb_false_r. }
  rewrite E2. clear E2.
  assert (Fin : forall w r0 x0 q pos st1, length (w ++ x0 :: r0) = length vb -> ~ In 0%Z w -> valueOf s = w ->
    st1 = mkState (mkFile 0 0 0 q pos (S (length k))) (mkPair (M1 ++ (kb', w ++ x0 :: r0) :: M2) (Z.of_nat (length M1)) (length M1) true (length w) (Z.of_nat (length vb) - 1)) cnt cls ->
    q = 0 ->
    exists b' st', written (kb, vb) b' (k, s) /\ atStart (M1 ++ b' :: M2) (S (length M1)) cnt cls st' /\ step size limit st1 (Some 10%Z) = Running st').
  { intros w r0 x0 q pos st1 Lw Nw Hw -> ->. exists (kb', w ++ 0%Z :: r0).
    assert (exists b2, nth_error (M1 ++ (kb', w ++ 0%Z :: r0) :: M2) (S (length M1)) = Some b2) as (b2 & H2).
    { destruct (nth_error (M1 ++ (kb', w ++ 0%Z :: r0) :: M2) (S (length M1))) eqn:X; [eauto|]. apply nth_error_None in X. rewrite app_length in X, Hi. cbn in X, Hi. lia. }
    eexists. split; [split; [exact Lkb|split; [cbn [snd]; rewrite app_length in *; exact Lw|split; [apply cstring_app, no_zero, Hk|cbn [snd]; rewrite Hw; apply cstring_app, Nw]]]|].
    split; [|unfold step; cbn [fileState pairState count calls position dashCount dotCount colon newLineCount quote isEol Z.eqb Pos.eqb orb andb Nat.eqb removeQuote Nat.ltb Nat.leb];
      unfold removeQuote; cbn [quote Nat.ltb Nat.leb]; rewrite (nextPair_value _ _ _ _ _ _ _ b2 H2 H15); reflexivity].
    destruct b2 as (kb2, vb2). exists kb2, vb2. split; [exact H2|reflexivity]. }
  destruct s as [v|v]; cbn [valueOf scalarFits] in *.
  - rewrite feed_app. pose proof (value_phase size limit M1 M2 kb' cnt cls (Z.of_nat (length vb) - 1) 0 (S (length k)) Hs ltac:(lia) v [] vb (S (S (length k))) Hv ltac:(lia) ltac:(intros _; exact Hq) Lv eq_refl) as E3.
    cbn [app length] in E3. rewrite E3. clear E3. destruct (skipn_cons_at _ _ Lv) as (y & t & Et & Lt). rewrite Et. cbn [feed].
    edestruct (Fin v t y 0) as (b' & st' & A & B & C); [rewrite app_length; cbn; lia|apply no_zero, Hv|reflexivity|reflexivity|reflexivity|].
    exists b', st'. split; [reflexivity|]. split; [reflexivity|]. split; [exact A|]. split; [exact B|]. rewrite C. reflexivity.
  - cbn [app feed]. rewrite <- app_assoc.
    assert (E3 : step size limit (mkState (mkFile 0 0 0 0 (S (S (length k))) (S (length k))) (mkPair (M1 ++ (kb', vb) :: M2) (Z.of_nat (length M1)) (length M1) true 0 (Z.of_nat (length vb) - 1)) cnt cls) (Some 39%Z) =
      Running (mkState (mkFile 0 0 0 (S (S (S (length k)))) (S (S (S (length k)))) (S (length k))) (mkPair (M1 ++ (kb', vb) :: M2) (Z.of_nat (length M1)) (length M1) true 0 (Z.of_nat (length vb) - 1)) cnt cls)).
    { unfold step. cbn [fileState pairState count calls position dashCount dotCount colon isEol Z.eqb Pos.eqb orb andb Nat.eqb Nat.ltb Nat.leb].
      assert (X : Nat.eqb (S (length k) + 1) (S (S (length k))) = true) by (apply Nat.eqb_eq; lia). rewrite X. reflexivity. }
    rewrite E3. clear E3. rewrite app_assoc. rewrite feed_app.
    assert (Hv' : lineChars (v ++ [39%Z])).
    { apply Forall_app. split; [exact Hv|]. constructor; [|constructor]. split; [discriminate|]. intros [X|X]; discriminate X. }
    pose proof (value_phase size limit M1 M2 kb' cnt cls (Z.of_nat (length vb) - 1) (S (S (S (length k)))) (S (length k)) Hs ltac:(lia) (v ++ [39%Z]) [] vb (S (S (S (length k)))) Hv' ltac:(lia) ltac:(intros X; lia)
      ltac:(rewrite app_length; cbn; lia) eq_refl) as E4. cbn [app] in E4. change (length (@nil Z)) with 0 in E4. rewrite E4. clear E4.
    cbn [app feed]. assert (Lv2 : length (v ++ [39%Z]) < length vb) by (rewrite app_length; cbn; lia).
    destruct (skipn_cons_at _ _ Lv2) as (y & t & Et & Lt). rewrite Et. rewrite <- app_assoc. cbn [app].
    edestruct (Fin v (y :: t) 39%Z 0 0) as (b' & st' & A & B & C); [rewrite app_length in *; cbn in *; lia|apply no_zero, Hv|reflexivity|reflexivity|reflexivity|].
    exists b', st'. split; [reflexivity|]. split; [reflexivity|]. split; [exact A|]. split; [exact B|]. 
    assert (Q : step size limit (mkState (mkFile 0 0 0 (S (S (S (length k)))) (S (S (S (length k))) + length (v ++ [39%Z])) (S (length k)))
        (mkPair (M1 ++ (kb', v ++ 39%Z :: y :: t) :: M2) (Z.of_nat (length M1)) (length M1) true (length (v ++ [39%Z])) (Z.of_nat (length vb) - 1)) cnt cls) (Some 10%Z) = Running st').
    { rewrite <- C. unfold step. cbn [fileState pairState count calls position dashCount dotCount colon newLineCount quote isEol Z.eqb Pos.eqb orb andb Nat.eqb]. unfold removeQuote. cbn [quote Nat.ltb Nat.leb].
      cbn [offset]. rewrite app_length, Nat.add_1_r. unfold bufferOf. cbn [pairs currentPair inValue]. rewrite nth_pair. cbn [option_map snd].
      replace (length v) with (length v + 0) at 1 by lia. rewrite nth_app_at. cbn [nth Z.eqb Pos.eqb]. reflexivity. }
    rewrite Q. reflexivity.
Qed.

(* ---- documents ---- *)
Definition sizesOf (M : Pairs) : list (nat * nat) := map (fun b => (length (fst b), length (snd b))) M.
Lemma sizesOf_len M M' : sizesOf M = sizesOf M' -> length M = length M'.
Proof. intros H. apply (f_equal (@length (nat * nat))) in H. unfold sizesOf in H. now rewrite !map_length in H. Qed.
Lemma sizesOf_nth M M' i b : sizesOf M = sizesOf M' -> nth_error M' i = Some b -> exists b0, nth_error M i = Some b0 /\ length (fst b0) = length (fst b) /\ length (snd b0) = length (snd b).
Proof.
  intros E H. assert (H' : nth_error (sizesOf M') i = Some (length (fst b), length (snd b))) by (unfold sizesOf; rewrite nth_error_map, H; reflexivity).
  rewrite <- E in H'. unfold sizesOf in H'. rewrite nth_error_map in H'. destruct (nth_error M i) as [b0|]; [|discriminate H']. cbn in H'. injection H' as A B. eauto.
Qed.
Lemma fits_sizes M M' d : sizesOf M = sizesOf M' -> documentFits M d -> documentFits M' d.
Proof.
  intros E (A & B & C). split; [now rewrite <- (sizesOf_len _ _ E)|]. split; [exact B|]. intros i p b Hp Hb. destruct (sizesOf_nth _ _ _ _ E Hb) as (b0 & H0 & L1 & L2).
  rewrite <- L1, <- L2. exact (C i p b0 Hp H0).
Qed.
Lemma sizes_replace M1 M2 b b' : length (fst b') = length (fst b) -> length (snd b') = length (snd b) -> sizesOf (M1 ++ b' :: M2) = sizesOf (M1 ++ b :: M2).
Proof. intros A B. unfold sizesOf. rewrite !map_app. cbn. now rewrite A, B. Qed.
Lemma pair_lines size limit d2 : forall d1 M cnt cls st rest, atStart M (length d1) cnt cls st -> size = Z.of_nat (length M) ->
  documentFits M (d1 ++ d2) -> Forall pairOk d2 -> shows (firstn (length d1) M) d1 ->
  exists M' st', runLines size limit st (map renderPair d2 ++ rest) = runLines size limit st' rest /\ atStart M' (length (d1 ++ d2)) cnt cls st' /\
    sizesOf M' = sizesOf M /\ shows (firstn (length (d1 ++ d2)) M') (d1 ++ d2).
Proof.
  induction d2 as [|p d2 IH]; intros d1 M cnt cls st rest Hst Hsz Hf Ho Hs.
  - exists M, st. rewrite app_nil_r. auto.
  - apply Forall_cons_iff in Ho. destruct Ho as (Hp & Ho). pose proof Hf as (Hl & H15 & Hn). rewrite app_length in Hl, H15. cbn in Hl, H15.
    destruct (nth_error M (length d1)) as [b|] eqn:Eb; [|apply nth_error_None in Eb; lia].
    assert (Np : nth_error (d1 ++ p :: d2) (length d1) = Some p) by (rewrite nth_error_app2, Nat.sub_diag by lia; reflexivity).
    destruct (Hn _ _ _ Np Eb) as (L1 & L2).
    destruct (pair_line size limit M (length d1) cnt cls st p b Hst Hsz ltac:(lia) ltac:(lia) Hp Eb L1 L2) as (M1 & M2 & b' & st' & EM & LM & W & Hst' & F).
    cbn [map app runLines]. rewrite F. destruct W as (W1 & W2 & W3 & W4).
    assert (ES : sizesOf (M1 ++ b' :: M2) = sizesOf M) by (rewrite EM; now apply sizes_replace).
    destruct (IH (d1 ++ [p]) (M1 ++ b' :: M2) cnt cls st' rest) as (M' & st2 & R & A & B & C).
    + rewrite app_length. cbn. rewrite Nat.add_1_r. exact Hst'.
    + now rewrite (sizesOf_len _ _ ES).
    + rewrite <- app_assoc. eapply fits_sizes; [symmetry; exact ES|exact Hf].
    + exact Ho.
    + rewrite app_length, Nat.add_1_r. cbn [length]. rewrite <- LM in *. replace (firstn (S (length M1)) (M1 ++ b' :: M2)) with (M1 ++ [b']).
      * apply Forall2_app; [|constructor; [now split|constructor]]. rewrite EM in Hs. now rewrite firstn_app_exact in Hs.
      * rewrite firstn_app. rewrite firstn_all2 by lia. replace (S (length M1) - length M1) with 1 by lia. reflexivity.
    + rewrite <- app_assoc in A, C. exists M', st2. split; [exact R|]. split; [exact A|]. split; [now rewrite B|exact C].
Qed.
Lemma dashes_line size limit M i cnt cls st : atStart M i cnt cls st -> (forall b, In b M -> 0 < length (fst b)) -> (Z.of_nat i < size)%Z ->
  (0 < i /\ (limit <= cnt + 1)%Z /\ feed size limit st (dashes ++ [10%Z]) = Stopped (cls ++ [firstn i M])) \/
  exists M' st' cnt' cls', ((0 < i /\ (cnt + 1 < limit)%Z /\ cnt' = (cnt + 1)%Z /\ cls' = cls ++ [firstn i M]) \/ (i = 0 /\ cnt' = cnt /\ cls' = cls)) /\
    sizesOf M' = sizesOf M /\ atStart M' 0 cnt' cls' st' /\ feed size limit st (dashes ++ [10%Z]) = Running st'.
Proof.
  intros (kb & vb & Hn & ->) HM Hi. destruct (nth_split_pair _ _ _ Hn) as (M1 & M2 & -> & <-).
  assert (Lk : 0 < length kb) by (apply (HM (kb, vb)), in_elt). destruct kb as [|x kb]; [cbn in Lk; lia|]. set (M := M1 ++ (x :: kb, vb) :: M2) in *.
  set (M' := M1 ++ (0%Z :: kb, vb) :: M2). assert (ES : sizesOf M' = sizesOf M) by (now apply sizes_replace).
  destruct M' as [|b0 M0] eqn:EM'; [exfalso; unfold M' in EM'; destruct M1; discriminate|].
  assert (N0 : nth_error M' 0 = Some b0) by (rewrite EM'; reflexivity).
  assert (St : store (mkPair M (-1) (length M1) false 0 (Z.of_nat (length (x :: kb)) - 1)) 0 = Some (mkPair M' (-1) (length M1) false 0 (Z.of_nat (length (x :: kb)) - 1))).
  { exact (store_key M1 M2 [] x kb vb (-1) _ 0). }
  assert (Np : forall cnt' cls', step size limit (mkState (mkFile 3 0 0 0 3 0) (mkPair M (-1) (length M1) false 0 (Z.of_nat (length (x :: kb)) - 1)) cnt' cls') (Some 10%Z) =
    Running (mkState lineStart (mkPair M' 0 0 false 0 (Z.of_nat (length (fst b0)) - 1)) cnt' cls')).
  { intros cnt' cls'. unfold step. cbn [fileState pairState count calls position dashCount dotCount colon newLineCount quote isEol Z.eqb Pos.eqb orb andb Nat.eqb]. unfold removeQuote. cbn [quote Nat.ltb Nat.leb].
    unfold nextPair. rewrite St. cbn [pairs index currentPair inValue offset end_]. change (toInt16 (-1 + 1)) with 0%Z.
    now rewrite (setCurrent_at M' 0 _ _ _ _ _ false b0 N0 eq_refl). }
  rewrite <- EM' in *.
  assert (E : feed size limit (mkState lineStart (mkPair M (Z.of_nat (length M1)) (length M1) false 0 (Z.of_nat (length (x :: kb)) - 1)) cnt cls) (dashes ++ [10%Z]) =
    (if Z.ltb 0 (Z.of_nat (length M1)) then
       if Z.leb limit (cnt + 1) then Stopped (cls ++ [firstn (length M1) M])
       else Running (mkState lineStart (mkPair M' 0 0 false 0 (Z.of_nat (length (fst b0)) - 1)) (cnt + 1) (cls ++ [firstn (length M1) M]))
     else Running (mkState lineStart (mkPair M' 0 0 false 0 (Z.of_nat (length (fst b0)) - 1)) cnt cls))).
  { unfold dashes. cbn [app feed].
    unfold step at 1. cbn [fileState pairState count calls position dashCount dotCount colon newLineCount quote isEol Z.eqb Pos.eqb orb andb Nat.eqb lineStart advance].
    unfold step at 1. cbn [fileState pairState count calls position dashCount dotCount colon newLineCount quote isEol Z.eqb Pos.eqb orb andb Nat.eqb lineStart advance].
    unfold step at 1. cbn [fileState pairState count calls position dashCount dotCount colon newLineCount quote isEol Z.eqb Pos.eqb orb andb Nat.eqb lineStart advance index].
    unfold newDocument, callback. cbn [pairs index currentPair inValue offset end_]. rewrite Nat2Z.id.
    destruct (Z.ltb 0 (Z.of_nat (length M1))); [|rewrite Np; reflexivity]. destruct (Z.leb limit (cnt + 1)); [reflexivity|]. rewrite Np. reflexivity. }
  rewrite E. clear E. destruct (Z.ltb_spec 0 (Z.of_nat (length M1))) as [P|P].
  - destruct (Z.leb_spec limit (cnt + 1)) as [L|L].
    + left. split; [lia|]. split; [exact L|reflexivity].
    + right. exists M'. do 3 eexists. split; [left; split; [lia|]; split; [exact L|]; split; reflexivity|]. split; [exact ES|]. split; [|reflexivity].
      destruct b0 as (kb0, vb0). exists kb0, vb0. now split.
  - right. exists M'. do 3 eexists. split; [right; split; [lia|]; split; reflexivity|]. split; [exact ES|]. split; [|reflexivity].
    destruct b0 as (kb0, vb0). exists kb0, vb0. now split.
Qed.
Lemma dots_line size limit M i cnt cls st x : atStart M i cnt cls st -> feed size limit st ((dots ++ x) ++ [10%Z]) = Stopped (cls ++ callback (pairState st)).
Proof.
  intros (kb & vb & Hn & ->). unfold dots. cbn [app feed].
  unfold step at 1. cbn [fileState pairState count calls position dashCount dotCount colon newLineCount quote isEol Z.eqb Pos.eqb orb andb Nat.eqb lineStart advance].
  unfold step at 1. cbn [fileState pairState count calls position dashCount dotCount colon newLineCount quote isEol Z.eqb Pos.eqb orb andb Nat.eqb lineStart advance].
  unfold step at 1. cbn [fileState pairState count calls position dashCount dotCount colon newLineCount quote isEol Z.eqb Pos.eqb orb andb Nat.eqb lineStart advance index].
  reflexivity.
Qed.
Lemma callback_at M i cnt cls st : atStart M i cnt cls st -> calls st = cls /\ callback (pairState st) = match i with O => [] | _ => [firstn i M] end.
Proof.
  intros (kb & vb & Hn & ->). split; [reflexivity|]. unfold callback. cbn [pairState index pairs]. rewrite Nat2Z.id. destruct i; reflexivity.
Qed.
Lemma docs_run size limit tail : (tail = [] \/ exists x rest, tail = (dots ++ x) :: rest) -> forall docs d M cnt cls st,
  atStart M (length d) cnt cls st -> size = Z.of_nat (length M) -> (forall b, In b M -> 0 < length (fst b)) -> shows (firstn (length d) M) d -> documentFits M d ->
  Forall (documentFits M) docs -> Forall (Forall pairOk) docs -> (cnt < limit)%Z ->
  exists new, runLines size limit st (documentLines docs ++ tail) = Some (cls ++ new) /\ Forall2 shows new (firstn (Z.to_nat (limit - cnt)) (nonEmptyDocs (d :: docs))).
Proof.
  intros Ht. induction docs as [|d' docs IH]; intros d M cnt cls st Hst Hsz HM Hs Hd Hf Ho Hlim.
  - exists (callback (pairState st)). destruct (callback_at _ _ _ _ _ Hst) as (Ec & Eb). split.
    + cbn [documentLines flat_map app]. destruct Ht as [-> | (x & rest & ->)]; cbn [runLines]; [now rewrite Ec|]. now rewrite (dots_line _ _ _ _ _ _ _ _ Hst).
    + rewrite Eb. assert (L1 : exists m, Z.to_nat (limit - cnt) = S m) by (exists (Z.to_nat (limit - cnt) - 1); lia). destruct L1 as (m & ->).
      destruct d as [|p d]; cbn [nonEmptyDocs filter length firstn]; [rewrite ?firstn_nil; constructor|]. rewrite firstn_nil. constructor; [exact Hs|constructor].
  - apply Forall_cons_iff in Hf, Ho. destruct Hf as (Hf1 & Hf), Ho as (Ho1 & Ho).
    cbn [documentLines flat_map]. cbn [app runLines]. rewrite <- app_assoc.
    assert (Hdl : (Z.of_nat (length d) < size)%Z) by (destruct Hd as (A & _); subst size; lia).
    destruct (dashes_line size limit M (length d) cnt cls st Hst HM Hdl) as [(P & L & E)|(M' & st' & cnt' & cls' & Hcase & ES & Hst' & E)]; rewrite E; clear E.
    + exists [firstn (length d) M]. split; [reflexivity|]. replace (Z.to_nat (limit - cnt)) with 1 by lia. destruct d as [|p d]; [cbn in P; lia|]. cbn [nonEmptyDocs filter firstn]. constructor; [exact Hs|constructor].
    + assert (HM' : forall b, In b M' -> 0 < length (fst b)).
      { intros b Hb. apply In_nth_error in Hb. destruct Hb as (j & Hj). destruct (sizesOf_nth _ _ _ _ (eq_sym ES) Hj) as (b0 & H0 & L1 & _). rewrite <- L1. apply HM. eapply nth_error_In, H0. }
      destruct (pair_lines size limit d' [] M' cnt' cls' st' (documentLines docs ++ tail) Hst') as (M2 & st2 & R & Hst2 & ES2 & Sh).
      * rewrite (sizesOf_len _ _ ES). exact Hsz.
      * cbn [app]. eapply fits_sizes; [symmetry; exact ES|exact Hf1].
      * exact Ho1.
      * constructor.
      * cbn [app] in Hst2, Sh. change (flat_map (fun d0 => dashes :: map renderPair d0) docs) with (documentLines docs). rewrite R.
        assert (ES3 : sizesOf M2 = sizesOf M) by congruence.
        assert (HM2 : forall b, In b M2 -> 0 < length (fst b)).
        { intros b Hb. apply In_nth_error in Hb. destruct Hb as (j & Hj). destruct (sizesOf_nth _ _ _ _ (eq_sym ES3) Hj) as (b0 & H0 & L1 & _). rewrite <- L1. apply HM. eapply nth_error_In, H0. }
        destruct (IH d' M2 cnt' cls' st2 Hst2) as (new & R2 & F2); auto.
        -- rewrite (sizesOf_len _ _ ES3). exact Hsz.
        -- eapply fits_sizes; [symmetry; exact ES3|exact Hf1].
        -- eapply Forall_impl; [|exact Hf]. intros dd. now apply fits_sizes.
        -- lia.
        -- rewrite R2. destruct Hcase as [(P & L & -> & ->)|(P & -> & ->)].
           ++ exists (firstn (length d) M :: new). split; [now rewrite <- app_assoc|]. destruct d as [|p d]; [cbn in P; lia|].
              replace (Z.to_nat (limit - cnt)) with (S (Z.to_nat (limit - (cnt + 1)))) by lia. cbn [nonEmptyDocs filter firstn]. constructor; [exact Hs|exact F2].
           ++ exists new. split; [reflexivity|]. destruct d; [exact F2|discriminate P].
Qed.

(* ---- any content ---- *)
Definition roomy (M : Pairs) : Prop := forall b, In b M -> 0 < length (fst b) /\ 1 < length (snd b).
Lemma roomy_sizes M M' : sizesOf M = sizesOf M' -> roomy M -> roomy M'.
Proof.
  intros E R b Hb. apply In_nth_error in Hb. destruct Hb as (j & Hj). destruct (sizesOf_nth _ _ _ _ E Hj) as (b0 & H0 & L1 & L2).
  rewrite <- L1, <- L2. apply R. eapply nth_error_In, H0.
Qed.
Lemma split_at {A} n (l : list A) : n < length l -> exists w x r, l = w ++ x :: r /\ length w = n.
Proof.
  intros H. destruct (skipn_cons_at n l H) as (x & r & E & _). exists (firstn n l), x, r. split; [rewrite <- E; symmetry; apply firstn_skipn|]. rewrite firstn_length. lia.
Qed.
(* storing inside a buffer *)
Lemma store_in (M : Pairs) idx i (v : bool) off e c (kb vb : list Z) : nth_error M i = Some (kb, vb) -> off < length (if v then vb else kb) ->
  exists M' kb' vb', store (mkPair M idx i v off e) c = Some (mkPair M' idx i v off e) /\ sizesOf M' = sizesOf M /\ nth_error M' i = Some (kb', vb') /\
    length kb' = length kb /\ length vb' = length vb.
Proof.
  intros Hn Ho. destruct (nth_split_pair _ _ _ Hn) as (M1 & M2 & -> & <-). destruct v.
  - destruct (split_at off vb Ho) as (w & x & r & -> & <-). rewrite store_value.
    do 3 eexists. split; [reflexivity|]. split; [apply sizes_replace; [reflexivity|cbn [snd]; rewrite !app_length; reflexivity]|]. split; [apply nth_pair|]. split; [reflexivity|]. rewrite !app_length. reflexivity.
  - destruct (split_at off kb Ho) as (w & x & r & -> & <-). rewrite store_key.
    do 3 eexists. split; [reflexivity|]. split; [apply sizes_replace; [cbn [fst]; rewrite !app_length; reflexivity|reflexivity]|]. split; [apply nth_pair|]. split; [rewrite !app_length; reflexivity|]. reflexivity.
Qed.
Lemma first_colon (k k' r r' : list Z) : k ++ 58%Z :: r = k' ++ 58%Z :: r' -> ~ In 58%Z k -> ~ In 58%Z k' -> k = k' /\ r = r'.
Proof.
  revert k'. induction k as [|x k IH]; intros k' E B B'; destruct k' as [|y k']; cbn in E.
  - injection E as ->. auto.
  - injection E as <- _. exfalso. apply B'. now left.
  - injection E as -> _. exfalso. apply B. now left.
  - injection E as -> E. destruct (IH k' E) as (-> & ->); auto; intros I; [apply B|apply B']; now right.
Qed.
(* in the middle of a line, after the characters done; idx is -1 after --- *)
Inductive inLine (M0 : Pairs) (idx : Z) (i : nat) (cnt : Z) (cls : list call) (done : list Z) (dash : nat) : State -> Prop :=
| il M kb vb v off e fs : sizesOf M = sizesOf M0 -> nth_error M i = Some (kb, vb) ->
    e = (Z.of_nat (length (if v : bool then vb else kb)) - 1)%Z -> off < length (if v then vb else kb) ->
    position fs = length done -> dashCount fs = dash ->
    ((colon fs = 0 /\ ~ In 58%Z done /\ v = false) \/ (exists k r, done = k ++ 58%Z :: r /\ ~ In 58%Z k /\ colon fs = S (length k) /\ v = true)) ->
    dash <= length done -> (dash = length done -> Forall (eq 45%Z) done) ->
    dotCount fs < 3 -> dotCount fs <= length done -> (dotCount fs = length done -> Forall (eq 46%Z) done) ->
    (quote fs = 0 \/ exists k c r, done = k ++ 58%Z :: c :: 39%Z :: r /\ ~ In 58%Z k /\ (r = [] \/ 0 < off)) ->
    (done <> [] -> newLineCount fs = 0) ->
    inLine M0 idx i cnt cls done dash (mkState fs (mkPair M idx i v off e) cnt cls).

Lemma step_in size limit M0 idx i cnt cls done dash st c : roomy M0 -> inLine M0 idx i cnt cls done dash st -> ~ eol c -> (idx < size)%Z ->
  (c = 58%Z -> ~ In 58%Z done -> idx = Z.of_nat i) -> (c = 45%Z -> length done = dash -> dash <> 2) ->
  (exists x, step size limit st (Some c) = Stopped x) \/
  exists st' dash', step size limit st (Some c) = Running st' /\ inLine M0 idx i cnt cls (done ++ [c]) dash' st' /\
    (dash' = dash \/ dash' = S dash) /\ (dash' = S dash -> c = 45%Z /\ length done = dash).
Proof.
  intros R [M kb vb v off e fs ES Hn He Ho Hp Hda Hc Hd1 Hd2 Ht1 Ht2 Ht3 Hq Hnl] Ne Hsz H58 H45.
  assert (Rb : 0 < length kb /\ 1 < length vb) by (apply (roomy_sizes _ _ (eq_sym ES) R (kb, vb)); eapply nth_error_In, Hn).
  unfold step. cbn [fileState pairState count calls]. apply isEol_false in Ne. rewrite Ne. rewrite Hp, Hda.
  assert (Lc : length (done ++ [c]) = S (length done)) by (rewrite app_length; cbn; lia).
  assert (Hc' : c <> 58%Z \/ In 58%Z done -> (colon fs = 0 /\ ~ In 58%Z (done ++ [c]) /\ v = false) \/ (exists k r, done ++ [c] = k ++ 58%Z :: r /\ ~ In 58%Z k /\ colon fs = S (length k) /\ v = true)).
  { intros X. destruct Hc as [(A & B & C)|(k & r & A & B & C & D)].
    - left. split; [exact A|]. split; [|exact C]. intros I. apply in_app_or in I. destruct X as [X|X]; [|contradiction]. destruct I as [I|[I|[]]]; [contradiction|congruence].
    - right. exists k, (r ++ [c]). split; [rewrite A, <- app_assoc; reflexivity|auto]. }
  assert (Hq' : forall off', off <= off' -> (forall k c0, done = k ++ [58%Z; c0; 39%Z] -> ~ In 58%Z k -> 0 < off') ->
    quote fs = 0 \/ exists k c0 r, done ++ [c] = k ++ 58%Z :: c0 :: 39%Z :: r /\ ~ In 58%Z k /\ (r = [] \/ 0 < off')).
  { intros off' Loff X. destruct Hq as [Q|(k & c0 & r & A & B & C)]; [now left|]. right. exists k, c0, (r ++ [c]). split; [rewrite A, <- app_assoc; reflexivity|]. split; [exact B|]. right.
    destruct C as [-> | C]; [exact (X k c0 A B)|lia]. }
  assert (Hall : forall x, Forall (eq x) done -> x <> 58%Z -> forall k c0, done = k ++ [58%Z; c0; 39%Z] -> ~ In 58%Z k -> 0 < off).
  { intros x F X k c0 -> _. exfalso. apply Forall_app in F. destruct F as (_ & F). inversion F. congruence. }
  assert (FA : forall x, Forall (eq x) done -> c = x -> Forall (eq x) (done ++ [c])) by (intros x F ->; apply Forall_app; split; [exact F|now constructor]).
  destruct (Z.eqb c 45 && Nat.eqb (length done) dash) eqn:EA.
  { apply andb_true_iff in EA. destruct EA as (EA & EB). apply Z.eqb_eq in EA. apply Nat.eqb_eq in EB. subst c.
    unfold advance. cbn [dashCount dotCount newLineCount quote position colon]. rewrite Hda. destruct (Nat.eqb_spec (S dash) 3) as [X|X]; [exfalso; apply (H45 eq_refl EB); lia|].
    right. do 2 eexists. split; [reflexivity|]. split; [|split; [right; reflexivity|auto]].
    apply (il M0 idx i cnt cls (done ++ [45%Z]) (S dash) M kb vb v off e); cbn [dashCount dotCount newLineCount quote position colon]; auto; try lia.
    - apply Hc'. left. discriminate.
    - apply Hq'; [lia|]. intros k c0 A B. exact (Hall 45%Z (Hd2 (eq_sym EB)) ltac:(discriminate) k c0 A B). }
  assert (Hd2' : dash = length (done ++ [c]) -> Forall (eq 45%Z) (done ++ [c])) by (intros X; lia).
  destruct (Z.eqb c 46 && Nat.eqb (length done) (dotCount fs)) eqn:EB.
  { apply andb_true_iff in EB. destruct EB as (EB1 & EB2). apply Z.eqb_eq in EB1. apply Nat.eqb_eq in EB2. subst c.
    unfold advance. cbn [dashCount dotCount newLineCount quote position colon]. destruct (Nat.eqb_spec (S (dotCount fs)) 3) as [X|X]; [left; eauto|].
    right. do 2 eexists. split; [reflexivity|]. split; [|split; [left; reflexivity|intros; lia]].
    apply (il M0 idx i cnt cls (done ++ [46%Z]) dash M kb vb v off e); cbn [dashCount dotCount newLineCount quote position colon]; auto; try lia.
    - apply Hc'. left. discriminate.
    - apply Hq'; [lia|]. intros k c0 A B. exact (Hall 46%Z (Ht3 (eq_sym EB2)) ltac:(discriminate) k c0 A B). }
  assert (Ht3' : dotCount fs = length (done ++ [c]) -> Forall (eq 46%Z) (done ++ [c])) by (intros X; lia).
  destruct (Z.eqb c 58 && Nat.eqb (colon fs) 0) eqn:EC.
  { apply andb_true_iff in EC. destruct EC as (EC1 & EC2). apply Z.eqb_eq in EC1. apply Nat.eqb_eq in EC2. subst c.
    destruct Hc as [(_ & B & ->)|(k & r & _ & _ & X & _)]; [|lia].
    destruct (store_in M idx i false off e 0%Z kb vb Hn Ho) as (M' & kb' & vb' & E1 & ES' & Hn' & L1 & L2).
    unfold switchKeyValue. rewrite E1. rewrite (setCurrent_at M' i idx i false off e true (kb', vb') Hn' (H58 eq_refl B)).
    right. do 2 eexists. split; [reflexivity|]. split; [|split; [left; reflexivity|intros; lia]]. unfold advance. cbn [dashCount dotCount newLineCount quote position colon snd].
    apply (il M0 idx i cnt cls (done ++ [58%Z]) dash M' kb' vb' true 0 _); cbn [dashCount dotCount newLineCount quote position colon]; auto; try lia; try congruence.
    - right. exists done, []. split; [reflexivity|]. split; [exact B|]. split; [now rewrite Hp|reflexivity].
    - destruct Hq as [Q|(k & c0 & r & A & _)]; [now left|]. exfalso. apply B. rewrite A. apply in_or_app. right. now left. }
  assert (Hno : c <> 58%Z \/ In 58%Z done).
  { destruct (Z.eq_dec c 58) as [->|]; [|now left]. right. cbn in EC. apply Nat.eqb_neq in EC. destruct Hc as [(A & _)|(k & r & -> & _)]; [contradiction|]. apply in_or_app. right. now left. }
  destruct (Z.eqb c 39 && Nat.ltb 0 (colon fs) && Nat.eqb (colon fs + 1) (length done)) eqn:ED.
  { apply andb_true_iff in ED. destruct ED as (ED & ED3). apply andb_true_iff in ED. destruct ED as (ED1 & ED2). apply Z.eqb_eq in ED1. apply Nat.eqb_eq in ED3. apply Nat.ltb_lt in ED2. subst c.
    right. do 2 eexists. split; [reflexivity|]. split; [|split; [left; reflexivity|intros; lia]]. unfold advance. cbn [dashCount dotCount newLineCount quote position colon snd].
    apply (il M0 idx i cnt cls (done ++ [39%Z]) dash M kb vb v off e); cbn [dashCount dotCount newLineCount quote position colon]; auto; try lia.
    destruct Hc as [(A & _)|(k & r & A & B & C & D)]; [lia|]. right. rewrite C in ED3. rewrite A in ED3. rewrite app_length in ED3. cbn in ED3.
    destruct r as [|c0 r]; [cbn in ED3; lia|]. destruct r; [|cbn in ED3; lia]. exists k, c0, []. split; [rewrite A, <- app_assoc; reflexivity|]. split; [exact B|now left]. }
  (* a character *)
  unfold addCharacter. cbn [offset index end_]. unfold advance, isValue. cbn [dashCount dotCount newLineCount quote position colon].
  destruct (Z.ltb (Z.of_nat off) e && Z.ltb idx size && (Nat.eqb (colon fs) 0 || Nat.ltb (colon fs + 1) (S (position fs)))) eqn:EE.
  - apply andb_true_iff in EE. destruct EE as (EE & _). apply andb_true_iff in EE. destruct EE as (EE & _). apply Z.ltb_lt in EE.
    destruct (store_in M idx i v off e c kb vb Hn Ho) as (M' & kb' & vb' & E1 & ES' & Hn' & L1 & L2). rewrite E1. cbn [pairs index currentPair inValue offset end_].
    right. do 2 eexists. split; [reflexivity|]. split; [|split; [left; reflexivity|intros; lia]].
    apply (il M0 idx i cnt cls (done ++ [c]) dash M' kb' vb' v (S off) e); cbn [dashCount dotCount newLineCount quote position colon]; auto; try lia; try congruence.
    + destruct v; congruence.
    + destruct v; lia.
    + apply Hq'; [lia|]. intros; lia.
  - right. do 2 eexists. split; [reflexivity|]. split; [|split; [left; reflexivity|intros; lia]].
    apply (il M0 idx i cnt cls (done ++ [c]) dash M kb vb v off e); cbn [dashCount dotCount newLineCount quote position colon]; auto; try lia; try congruence.
    apply Hq'; [lia|]. intros k c0 A B. destruct Hc as [(_ & X & _)|(k' & r & A' & B' & C & ->)]; [exfalso; apply X; rewrite A; apply in_or_app; right; now left|].
    rewrite A' in A. destruct (first_colon _ _ _ _ A B' B) as (-> & Er). apply Z.ltb_lt in Hsz. rewrite Hsz in EE.
    assert (X : Nat.ltb (colon fs + 1) (S (position fs)) = true) by (apply Nat.ltb_lt; rewrite C, Hp, A', app_length, Er; cbn; lia).
    rewrite X, orb_true_r, !andb_true_r in EE. apply Z.ltb_ge in EE. subst e. lia.
Qed.
Lemma feed_in size limit M0 idx i cnt cls (Hr : roomy M0) (Hsz : (idx < size)%Z) : forall l done dash st, inLine M0 idx i cnt cls done dash st -> Forall (fun c => ~ eol c) l ->
  (In 58%Z l -> idx = Z.of_nat i) -> (startsWith dashes (done ++ l) = false \/ 3 <= dash) ->
  (exists x, feed size limit st l = Stopped x) \/ exists st' dash', feed size limit st l = Running st' /\ inLine M0 idx i cnt cls (done ++ l) dash' st'.
Proof.
  induction l as [|c l IH]; intros done dash st Hin Hl H58 Hd.
  - right. exists st, dash. rewrite app_nil_r. now split.
  - apply Forall_cons_iff in Hl. destruct Hl as (Hc & Hl). destruct (step_in size limit M0 idx i cnt cls done dash st c Hr Hin Hc Hsz) as [(x & E)|(st' & dash' & E & Hin' & D1 & D2)].
    + intros -> _. apply H58. now left.
    + intros -> L D. subst dash. destruct Hd as [Hd|Hd]; [|lia]. inversion Hin as [M kb vb v off e fs ES Hn He Ho Hp Hda Hcc Hd1 Hd2 Ht1 Ht2 Ht3 Hq Hnl]; subst.
      specialize (Hd2 eq_refl). destruct done as [|a [|b [|? ?]]]; cbn in D; try lia. inversion Hd2 as [|? ? A1 A2]. subst a. inversion A2 as [|? ? A3 A4]. subst b. discriminate Hd.
    + left. exists x. cbn [feed]. now rewrite E.
    + cbn [feed]. rewrite E. specialize (IH (done ++ [c]) dash' st' Hin' Hl). rewrite <- app_assoc in IH. apply IH; [intros I; apply H58; now right|]. destruct Hd as [Hd|Hd]; [now left|right; lia].
Qed.
Lemma end_in size limit M0 idx i cnt cls done dash st i' : roomy M0 -> inLine M0 idx i cnt cls done dash st -> done <> [] ->
  ~ loneQuote done -> idx = (Z.of_nat i' - 1)%Z -> i' < length M0 -> (Z.of_nat i' < 2 ^ 15)%Z ->
  exists M st', step size limit st (Some 10%Z) = Running st' /\ sizesOf M = sizesOf M0 /\ atStart M i' cnt cls st'.
Proof.
  intros R [M kb vb v off e fs ES Hn He Ho Hp Hda Hc Hd1 Hd2 Ht1 Ht2 Ht3 Hq Hnl] Hne Hlq Hidx Hi' H15.
  unfold step. cbn [fileState pairState count calls isEol Z.eqb Pos.eqb orb] in *. rewrite (Hnl Hne). cbn [Nat.eqb].
  assert (exists off', off' < length (if v then vb else kb) /\ removeQuote (mkPair M idx i v off e) fs = Some (mkPair M idx i v off' e)) as (off' & Ho' & ->).
  { unfold removeQuote. destruct (Nat.ltb_spec 0 (quote fs)) as [Q|Q]; [|exists off; now split]. cbn [offset].
    destruct Hq as [X|(k & c & r & A & B & C)]; [lia|]. destruct C as [-> | C]; [exfalso; apply Hlq; exists k, c; now split|].
    destruct off as [|o]; [lia|]. unfold bufferOf. cbn [pairs currentPair inValue]. rewrite Hn. cbn [option_map].
    destruct (Z.eqb (nth o _ 0%Z) 39); [exists o; split; [lia|reflexivity]|exists (S o); split; [exact Ho|reflexivity]]. }
  destruct (store_in M idx i v off' e 0%Z kb vb Hn Ho') as (M' & kb' & vb' & E1 & ES' & Hn' & L1 & L2).
  unfold nextPair. rewrite E1. cbn [pairs index currentPair inValue offset end_]. rewrite toInt16_small by lia.
  assert (LM : length M' = length M0) by (apply sizesOf_len; congruence).
  destruct (nth_error M' i') as [b2|] eqn:E2; [|apply nth_error_None in E2; lia].
  rewrite (setCurrent_at M' i' (idx + 1) i v off' e false b2 E2 ltac:(lia)).
  exists M'. eexists. split; [reflexivity|]. split; [congruence|]. destruct b2 as (kb2, vb2). exists kb2, vb2. split; [exact E2|]. replace (idx + 1)%Z with (Z.of_nat i') by lia. reflexivity.
Qed.
Lemma atStart_in M i cnt cls st : roomy M -> atStart M i cnt cls st -> inLine M (Z.of_nat i) i cnt cls [] 0 st.
Proof.
  intros R (kb & vb & Hn & ->). destruct (R (kb, vb) (nth_error_In _ _ Hn)) as (L & _). cbn [fst] in L.
  apply (il M (Z.of_nat i) i cnt cls [] 0 M kb vb false 0); cbn [lineStart position dashCount dotCount colon quote newLineCount length]; auto; try lia.
  congruence.
Qed.
Lemma line_safe size limit M i cnt cls st l : roomy M -> atStart M i cnt cls st -> l <> [] -> Forall (fun c => ~ eol c) l -> size = Z.of_nat (length M) ->
  startsWith dashes l = false -> ~ loneQuote l -> S i < length M -> (Z.of_nat (S i) < 2 ^ 15)%Z ->
  (exists x, feed size limit st (l ++ [10%Z]) = Stopped x) \/ exists M' st', feed size limit st (l ++ [10%Z]) = Running st' /\ sizesOf M' = sizesOf M /\ atStart M' (S i) cnt cls st'.
Proof.
  intros R At Ne F Hs Hd Hq Hi H15. rewrite feed_app.
  destruct (feed_in size limit M (Z.of_nat i) i cnt cls R ltac:(lia) l [] 0 st (atStart_in _ _ _ _ _ R At) F) as [(x & ->)|(st1 & dash & -> & In1)].
  - reflexivity.
  - left. exact Hd.
  - left. eauto.
  - right. destruct (end_in size limit M (Z.of_nat i) i cnt cls l dash st1 (S i) R In1 Ne Hq) as (M' & st' & E & ES & At'); try lia.
    exists M', st'. cbn [feed]. rewrite E. auto.
Qed.
Lemma startsWith_app : forall p l, startsWith p l = true -> exists r, l = p ++ r.
Proof.
  induction p as [|a p IH]; intros l H; [now exists l|]. destruct l as [|b l]; [discriminate|]. cbn in H. apply andb_true_iff in H. destruct H as (H1 & H2). apply Z.eqb_eq in H1. subst b.
  destruct (IH l H2) as (r & ->). now exists r.
Qed.
Lemma dash_line_safe size limit M i cnt cls st l : roomy M -> atStart M i cnt cls st -> Forall (fun c => ~ eol c) l -> size = Z.of_nat (length M) ->
  startsWith dashes l = true -> ~ In 58%Z l ->
  (exists x, feed size limit st (l ++ [10%Z]) = Stopped x) \/ exists M' cnt' cls' st', feed size limit st (l ++ [10%Z]) = Running st' /\ sizesOf M' = sizesOf M /\ atStart M' 0 cnt' cls' st'.
Proof.
  intros R At F Hs Hd N58. destruct (startsWith_app _ _ Hd) as (r & ->). rewrite <- app_assoc, feed_app.
  destruct At as (kb & vb & Hn & ->). destruct (R (kb, vb) (nth_error_In _ _ Hn)) as (L & _). cbn [fst] in L.
  assert (Li : i < length M) by (apply nth_error_Some; congruence).
  assert (D : (exists x, feed size limit (mkState lineStart (mkPair M (Z.of_nat i) i false 0 (Z.of_nat (length kb) - 1)) cnt cls) dashes = Stopped x) \/
    exists cnt' cls', feed size limit (mkState lineStart (mkPair M (Z.of_nat i) i false 0 (Z.of_nat (length kb) - 1)) cnt cls) dashes = Running (mkState (mkFile 3 0 0 0 3 0) (mkPair M (-1) i false 0 (Z.of_nat (length kb) - 1)) cnt' cls')).
  { unfold dashes. cbn [app feed].
    unfold step at 1 3. cbn [fileState pairState count calls position dashCount dotCount colon newLineCount quote isEol Z.eqb Pos.eqb orb andb Nat.eqb lineStart advance].
    unfold step at 1 3. cbn [fileState pairState count calls position dashCount dotCount colon newLineCount quote isEol Z.eqb Pos.eqb orb andb Nat.eqb lineStart advance].
    unfold step at 1 2. cbn [fileState pairState count calls position dashCount dotCount colon newLineCount quote isEol Z.eqb Pos.eqb orb andb Nat.eqb lineStart advance index].
    unfold newDocument. cbn [pairs index currentPair inValue offset end_].
    destruct (Z.ltb 0 (Z.of_nat i)); [|right; eauto]. destruct (Z.leb limit (cnt + 1)); [left; eauto|right; eauto]. }
  destruct D as [(x & ->)|(cnt' & cls' & ->)]; [left; eauto|]. rewrite feed_app.
  assert (I0 : inLine M (-1) i cnt' cls' dashes 3 (mkState (mkFile 3 0 0 0 3 0) (mkPair M (-1) i false 0 (Z.of_nat (length kb) - 1)) cnt' cls')).
  { apply (il M (-1) i cnt' cls' dashes 3 M kb vb false 0); cbn [lineStart position dashCount dotCount colon quote newLineCount length dashes]; auto; try lia.
    - left. split; [reflexivity|]. split; [|reflexivity]. intros [X|[X|[X|[]]]]; discriminate X.
    - intros _. repeat constructor. }
  apply Forall_app in F. destruct F as (_ & F).
  destruct (feed_in size limit M (-1) i cnt' cls' R ltac:(lia) r dashes 3 _ I0 F) as [(x & ->)|(st1 & dash & -> & In1)].
  - intros X. exfalso. apply N58. apply in_or_app. now right.
  - right. lia.
  - left. eauto.
  - right. destruct (end_in size limit M (-1) i cnt' cls' (dashes ++ r) dash st1 0 R In1) as (M' & st' & E & ES & At'); try lia.
    + discriminate.
    + intros (k & c & X & _). apply N58. rewrite X. apply in_or_app. right. now left.
    + exists M', cnt', cls', st'. cbn [feed]. rewrite E. auto.
Qed.
Lemma lines_safe limit size n ls : smallDocuments size n ls -> Forall (fun l => l <> [] /\ Forall (fun c => ~ eol c) l) ls -> forall M cnt cls st,
  roomy M -> atStart M n cnt cls st -> size = length M -> runLines (Z.of_nat size) limit st ls <> None.
Proof.
  induction 1 as [n|n l rest H1 H2 _ IH|n l rest H1|n l rest H1 H2 H3 H4 _ IH]; intros Hl M cnt cls st R At Hs; cbn [runLines].
  - discriminate.
  - apply Forall_cons_iff in Hl. destruct Hl as ((Ne & F) & Hl).
    destruct (dash_line_safe (Z.of_nat size) limit M n cnt cls st l R At F ltac:(now subst) H1 H2) as [(x & ->)|(M' & cnt' & cls' & st' & -> & ES & At')]; [discriminate|].
    apply (IH Hl M' cnt' cls'); auto. + eapply roomy_sizes; [symmetry; exact ES|exact R]. + rewrite (sizesOf_len _ _ ES). exact Hs.
  - destruct (startsWith_app _ _ H1) as (r & ->). rewrite (dots_line _ _ _ _ _ _ _ r At). discriminate.
  - apply Forall_cons_iff in Hl. destruct Hl as ((Ne & F) & Hl).
    destruct (line_safe (Z.of_nat size) limit M n cnt cls st l R At Ne F ltac:(now subst) H1 H2 ltac:(lia) H4) as [(x & ->)|(M' & st' & -> & ES & At')]; [discriminate|].
    apply (IH Hl M' cnt cls); auto. + eapply roomy_sizes; [symmetry; exact ES|exact R]. + rewrite (sizesOf_len _ _ ES). exact Hs.
Qed.
