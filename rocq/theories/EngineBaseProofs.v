(* Helper lemmas for EngineBase.cpp *)
From Verif Require Export EngineBaseSpec EngineBaseModel.

Lemma literal_bytes : forall s, literal s = bytesOf s.
Proof. induction s as [|a s IH]; [reflexivity|]. cbn [literal]. unfold bytesOf in *. cbn [list_ascii_of_string List.map]. rewrite IH. f_equal. unfold nat_of_ascii. now rewrite N_nat_Z. Qed.
Lemma same_eq : forall a b, same a b = true <-> a = b.
Proof.
  induction a as [|x a IH]; intros [|y b]; cbn [same]; split; intros H; try discriminate; auto.
  - apply andb_true_iff in H. destruct H as (E & H). apply Z.eqb_eq in E. apply IH in H. congruence.
  - injection H as <- <-. rewrite Z.eqb_refl. now apply IH.
Qed.
Lemma exists_in : forall key keys, existsb (same key) keys = true <-> In key keys.
Proof. intros. rewrite existsb_exists. split; [intros (x & I & E); apply same_eq in E; now subst|intros I; exists key; split; [exact I|now apply same_eq]]. Qed.
Lemma addKey_in : forall keys key, In key keys -> addKey keys key = keys.
Proof. intros keys key I. unfold addKey. apply exists_in in I. now rewrite I. Qed.
Lemma addKey_new : forall keys key, ~ In key keys -> addKey keys key = keys ++ [key].
Proof. intros keys key N. unfold addKey. destruct (existsb (same key) keys) eqn:E; [|reflexivity]. apply exists_in in E. contradiction. Qed.
Lemma add_list : forall l keys, exists out, distinct keys l out /\ fold_left addKey l keys = keys ++ out.
Proof.
  induction l as [|x l IH]; intros keys; cbn [fold_left]; [exists []; split; [constructor|now rewrite app_nil_r]|]. destruct (existsb (same x) keys) eqn:E.
  - apply exists_in in E. rewrite addKey_in by exact E. destruct (IH keys) as (out & D & F). exists out. split; [now constructor|exact F].
  - assert (N : ~ In x keys) by (rewrite <- exists_in, E; discriminate). rewrite addKey_new by exact N. destruct (IH (keys ++ [x])) as (out & D & F). exists (x :: out). split; [now constructor|]. rewrite F, <- app_assoc. reflexivity.
Qed.
Lemma override_some : forall prefixed names keys, overrideLoop prefixed (List.map Some names) keys = (fold_left addKey (flat_map (overrideKeys prefixed) names) keys, false).
Proof.
  intros prefixed. induction names as [|n names IH]; intros keys; [reflexivity|]. cbn [List.map overrideLoop flat_map]. unfold overrideKeys at 1. rewrite !literal_bytes. destruct prefixed; cbn [app fold_left]; apply IH.
Qed.
Lemma override_none : forall prefixed names rest keys, overrideLoop prefixed (List.map Some names ++ None :: rest) keys = (fold_left addKey (flat_map (overrideKeys prefixed) names) keys, true).
Proof.
  intros prefixed. induction names as [|n names IH]; intros rest keys; [reflexivity|]. cbn [List.map overrideLoop flat_map app]. unfold overrideKeys at 1. rewrite !literal_bytes. destruct prefixed; cbn [app fold_left]; apply IH.
Qed.
Lemma header_fold : forall upper names keys, initHttpHeaderKeys upper names keys = fold_left addKey (flat_map (headerKeys upper) (filter (fun n => negb (existsb (Z.eqb 31) n)) names)) keys.
Proof.
  intros upper. induction names as [|n names IH]; intros keys; [reflexivity|]. cbn [initHttpHeaderKeys filter]. destruct (existsb (Z.eqb 31) n); cbn [negb]; [apply IH|]. cbn [flat_map]. unfold headerKeys at 1. rewrite !literal_bytes. destruct upper; cbn [app fold_left]; apply IH.
Qed.
Lemma distinct_in : forall {A} (seen l out : list A), distinct seen l out -> (forall x, In x (seen ++ out) <-> In x seen \/ In x l) /\ (NoDup seen -> NoDup (seen ++ out)).
Proof.
  intros A seen l out D. induction D as [seen|seen x l out I D (IH1 & IH2)|seen x l out N D (IH1 & IH2)].
  - rewrite app_nil_r. split; [|auto]. intros x. cbn. tauto.
  - split; [|exact IH2]. intros y. rewrite IH1. cbn [In]. split; [tauto|]. intros [H|[<-|H]]; tauto.
  - rewrite <- app_assoc in *. cbn [app] in *. split.
    + intros y. rewrite IH1, in_app_iff. cbn [In]. tauto.
    + intros Nd. apply IH2. rewrite <- (rev_involutive (seen ++ [x])). apply NoDup_rev. rewrite rev_app_distr. cbn. constructor; [now rewrite <- in_rev|now apply NoDup_rev].
Qed.
