(* Proofs about MetaModel *)
From Verif Require Import MetaModel MetaSpec.
From Verif Require ItemModel LifeModel LifeSpec LifeProofs.
Local Open Scope Z_scope.

Lemma strEq_same : decides strEq.
Proof.
  intros a. induction a as [|x a IH]; intros [|y b]; cbn [strEq]; split; try discriminate; auto.
  - intros H. apply andb_true_iff in H as (H1 & H2). apply Z.eqb_eq in H1. apply IH in H2. congruence.
  - intros H. injection H as -> ->. apply andb_true_iff. split; [apply Z.eqb_refl|now apply IH].
Qed.
Lemma strEq_refl a : strEq a a = true.
Proof. now apply strEq_same. Qed.

Lemma strLess_before a : forall b, strLess a b = true <-> comesBefore a b.
Proof.
  induction a as [|x a IH]; intros [|y b]; cbn [strLess]; split.
  - discriminate.
  - intros [(y & r & E)|(p & x & y & r & s & E & _)]; [discriminate|destruct p; discriminate].
  - intros _. left. now exists y, b.
  - reflexivity.
  - discriminate.
  - intros [(z & r & E)|(p & u & v & r & s & _ & E & _)]; [discriminate|destruct p; discriminate].
  - destruct (Z.eqb_spec x y) as [->|N]; intros H.
    + apply IH in H as [(z & r & ->)|(p & u & v & r & s & -> & -> & L)].
      * left. now exists z, r.
      * right. now exists (y :: p), u, v, r, s.
    + apply Z.ltb_lt in H. right. now exists [], x, y, a, b.
  - intros [(z & r & E)|(p & u & v & r & s & Ea & Eb & L)].
    + injection E as -> ->. rewrite Z.eqb_refl. apply IH. left. eauto.
    + destruct p as [|q p]; cbn in Ea, Eb.
      * injection Ea as -> ->. injection Eb as -> ->. destruct (Z.eqb_spec u v); [lia|]. now apply Z.ltb_lt.
      * injection Ea as -> ->. injection Eb as -> ->. rewrite Z.eqb_refl. apply IH. right. now exists p, u, v, r, s.
Qed.

Lemma strLess_strict : strictTotal strLess.
Proof.
  split; [|split].
  - intros a. induction a as [|x a IH]; cbn; [reflexivity|]. now rewrite Z.eqb_refl.
  - intros a. induction a as [|x a IH]; intros [|y b] [|z c]; cbn [strLess]; try discriminate; auto.
    destruct (Z.eqb_spec x y) as [->|], (Z.eqb_spec y z) as [->|].
    + apply IH.
    + intros _ H. exact H.
    + destruct (Z.eqb_spec x z); [contradiction|]. intros H _. exact H.
    + intros H1 H2. apply Z.ltb_lt in H1, H2. destruct (Z.eqb_spec x z); [lia|]. apply Z.ltb_lt. lia.
  - intros a. induction a as [|x a IH]; intros [|y b]; cbn [strLess]; auto.
    destruct (Z.eqb_spec x y) as [->|].
    + rewrite Z.eqb_refl. destruct (IH b) as [H|[->|H]]; auto.
    + destruct (Z.eqb_spec y x); [congruence|]. rewrite !Z.ltb_lt. lia.
Qed.

Lemma strEq_false a b : strEq a b = false <-> a <> b.
Proof.
  split.
  - intros H ->. rewrite strEq_refl in H. discriminate.
  - intros H. destruct (strEq a b) eqn:E; [|reflexivity]. now apply strEq_same in E.
Qed.

Lemma keyLess_before k other : keyLess k other = true <-> keyBefore other k.
Proof.
  unfold keyLess, keyBefore. destruct (strEq _ _) eqn:E.
  - apply strEq_same in E. rewrite strLess_before. split; [auto|]. intros [H|(_ & H)]; [|exact H].
    rewrite E in H. apply strLess_before in H. now rewrite (proj1 strLess_strict) in H.
  - apply strEq_false in E. rewrite strLess_before. split; [auto|]. intros [H|(H & _)]; [exact H|contradiction].
Qed.

Lemma comesBefore_trans a b c : comesBefore a b -> comesBefore b c -> comesBefore a c.
Proof. rewrite <- !strLess_before. apply (proj1 (proj2 strLess_strict)). Qed.
Lemma comesBefore_irrefl a : ~ comesBefore a a.
Proof. rewrite <- strLess_before, (proj1 strLess_strict). discriminate. Qed.
Lemma comesBefore_total a b : comesBefore a b \/ a = b \/ comesBefore b a.
Proof. rewrite <- !strLess_before. apply (proj2 (proj2 strLess_strict)). Qed.

Lemma keyLess_strict : strictTotal keyLess.
Proof.
  split; [|split].
  - intros a. destruct (keyLess a a) eqn:E; [|reflexivity]. apply keyLess_before in E as [H|(_ & H)]; now apply comesBefore_irrefl in H.
  - intros a b c. rewrite !keyLess_before. intros [H1|(E1 & H1)] [H2|(E2 & H2)].
    + left. eapply comesBefore_trans; eauto.
    + left. now rewrite E2.
    + left. now rewrite <- E1.
    + right. split; [congruence|]. eapply comesBefore_trans; eauto.
  - intros [p v] [q w]. rewrite !keyLess_before. unfold keyBefore. cbn [propertyName valueName].
    destruct (comesBefore_total p q) as [H|[->|H]]; auto.
    destruct (comesBefore_total v w) as [H|[->|H]]; auto 6.
Qed.

Lemma keyEq_same : decides keyEq.
Proof.
  intros [p v] [q w]. unfold keyEq. cbn [propertyName valueName]. rewrite andb_true_iff. split.
  - intros (H1 & H2). apply strEq_same in H1, H2. congruence.
  - intros E. injection E as -> ->. now rewrite !strEq_refl.
Qed.

Lemma cstring_app t rest : ~ In 0 t -> cstring (t ++ 0 :: rest) = Some t.
Proof.
  induction t as [|c t IH]; intros H; cbn; [reflexivity|]. destruct (Z.eqb_spec c 0) as [->|]; [exfalso; apply H; now left|].
  rewrite IH; [reflexivity|]. intros I. apply H. now right.
Qed.
Lemma cstring_none s : ~ In 0 s -> cstring s = None.
Proof.
  induction s as [|c s IH]; intros H; cbn; [reflexivity|]. destruct (Z.eqb_spec c 0) as [->|]; [exfalso; apply H; now left|].
  rewrite IH; [reflexivity|]. intros I. apply H. now right.
Qed.

Lemma toByte_toByte z : toByte (toByte z) = toByte z.
Proof. apply Z.mod_mod. lia. Qed.

Lemma set1_other cs c p : fst c <> p -> set1 cs c p = cs p.
Proof. destruct c as (q, o). cbn. intros N. unfold change. destruct (Nat.eqb_spec p q); congruence. Qed.
Lemma set1_other_setting cs q o o' p : ~ (q = p /\ sameSetting o o') -> settingOf o' (set1 cs (q, o) p) = settingOf o' (cs p).
Proof.
  intros N. destruct (Nat.eq_dec q p) as [->|Hq]; [|now rewrite set1_other].
  cbn. unfold change. rewrite Nat.eqb_refl. destruct o, o'; cbn in *; auto; exfalso; apply N; auto.
Qed.
