(* Helper lemmas for ResultsBase.cpp *)
From Verif Require Export ResultsSpec ResultsModel.

Lemma literal_chars : forall s, literal s = chars s.
Proof. induction s as [|a s IH]; [reflexivity|]. cbn [literal]. unfold chars in *. cbn [list_ascii_of_string List.map]. rewrite IH. f_equal. unfold nat_of_ascii. now rewrite N_nat_Z. Qed.
Lemma same_eq : forall a b, same a b = true <-> a = b.
Proof.
  induction a as [|x a IH]; intros [|y b]; cbn [same]; split; intros H; try discriminate; auto.
  - apply andb_true_iff in H. destruct H as (E & H). apply Z.eqb_eq in E. apply IH in H. congruence.
  - injection H as <- <-. rewrite Z.eqb_refl. now apply IH.
Qed.
Lemma joined_rest : forall l, l <> [] -> exists s, barred l s /\ joined l false = chars "|" ++ s.
Proof.
  induction l as [|x l IH]; [congruence|]. intros _. destruct l as [|y l]; [exists x; split; [constructor|cbn [joined]; now rewrite app_nil_r]|]. destruct IH as (s & B & E); [discriminate|]. exists (x ++ chars "|" ++ s). split; [now constructor|]. cbn [joined] in *. rewrite literal_chars in *. rewrite E. reflexivity.
Qed.
Lemma joined_ok : forall l, l <> [] -> barred l (joined l true).
Proof. intros [|x [|y l]] N; [congruence|cbn [joined app]; rewrite app_nil_r; constructor|]. destruct (joined_rest (y :: l)) as (s & B & E); [discriminate|]. change (joined (x :: y :: l) true) with (x ++ joined (y :: l) false). rewrite E. now constructor. Qed.
Lemma barred_inj : forall l s, barred l s -> Forall barFree l -> forall l', barred l' s -> Forall barFree l' -> l = l'.
Proof.
  assert (Split : forall a b u w, barFree a -> barFree b -> a ++ 124 :: u = b ++ 124 :: w -> a = b /\ u = w).
  { induction a as [|x a IH]; intros [|y b] u w Fa Fb E; cbn in E.
    - injection E as ->. auto.
    - injection E as <- _. exfalso. apply Fb. now left.
    - injection E as -> _. exfalso. apply Fa. now left.
    - injection E as -> E2. destruct (IH b u w) as (-> & ->); [intros I; apply Fa; now right|intros I; apply Fb; now right|exact E2|auto]. }
  assert (NoSplit : forall a b u, barFree a -> a = b ++ 124 :: u -> False) by (intros a b u Fa ->; apply Fa; apply in_or_app; right; now left).
  change (chars "|") with [124]. intros l s B. induction B as [a|a l s B IH]; intros F l' B' F'; inversion F as [|? ? Fa Fl]; subst.
  - inversion B' as [b E|b l2 s2 B2 E]; subst; [reflexivity|]. exfalso. exact (NoSplit _ _ _ Fa eq_refl).
  - remember (a ++ chars "|" ++ s) as t eqn:Et. destruct B' as [b|b l2 s2 B2]; inversion F' as [|? ? Fb Fl2]; subst.
    + exfalso. exact (NoSplit _ _ _ Fb eq_refl).
    + change (chars "|") with [124] in Et. destruct (Split _ _ _ _ Fb Fa Et) as (-> & ->). f_equal. apply IH; assumption.
Qed.

Lemma digits_from : forall ds rest acc, Forall isDigit ds -> (rest = [] \/ exists c r, rest = c :: r /\ ~ isDigit c) -> digitsFrom (ds ++ rest) acc = acc * 10 ^ Z.of_nat (List.length ds) + numeral ds.
Proof.
  induction ds as [|d ds IH]; intros rest acc F R; cbn [app digitsFrom numeral List.length].
  - change (10 ^ Z.of_nat 0) with 1. destruct R as [->|(c & r & -> & N)]; [cbn; lia|]. cbn [digitsFrom]. unfold isDigit in N. replace (Z.leb 48 c && Z.leb c 57) with false by (symmetry; apply andb_false_iff; destruct (Z.leb_spec 48 c); [right; apply Z.leb_gt; lia|now left]). lia.
  - inversion F as [|? ? D Fd]; subst. unfold isDigit in D. replace (Z.leb 48 d && Z.leb d 57) with true by (symmetry; apply andb_true_iff; split; apply Z.leb_le; lia). rewrite IH by assumption. rewrite Nat2Z.inj_succ, Z.pow_succ_r by lia. ring.
Qed.
Lemma skip_space : forall sp s, Forall (fun c => c = 32 \/ 9 <= c <= 13) sp -> (forall c r, s = c :: r -> isspace c = false) -> skipSpace (sp ++ s) = s.
Proof.
  induction sp as [|c sp IH]; intros s F N; cbn [app skipSpace].
  - destruct s as [|c r]; [reflexivity|]. cbn [skipSpace]. now rewrite (N c r eq_refl).
  - inversion F as [|? ? D Fd]; subst. replace (isspace c) with true; [now apply IH|]. symmetry. unfold isspace. apply orb_true_iff. destruct D as [->|D]; [now left|right]. apply andb_true_iff. split; apply Z.leb_le; lia.
Qed.
Lemma not_space : forall c, c = 43 \/ c = 45 \/ isDigit c -> isspace c = false.
Proof. intros c H. unfold isspace, isDigit in *. apply orb_false_iff. split; [apply Z.eqb_neq; lia|]. apply andb_false_iff. right. apply Z.leb_gt. lia. Qed.
Lemma atoi_ok : forall s n, integerText s n -> - 2 ^ 31 <= n < 2 ^ 31 -> atoi s = Some n.
Proof.
  intros s n (sp & ds & rest & Fs & Fd & Ne & R & H) B. unfold atoi.
  assert (W : forall m, m = n -> (if Z.leb (- 2 ^ 31) m && Z.ltb m (2 ^ 31) then Some m else None) = Some n).
  { intros m ->. replace (Z.leb (- 2 ^ 31) n && Z.ltb n (2 ^ 31)) with true; [reflexivity|]. symmetry. apply andb_true_iff. split; [apply Z.leb_le; lia|apply Z.ltb_lt; lia]. }
  apply W. destruct H as [([-> | ->] & ->)|(-> & ->)].
  - destruct ds as [|d ds]; [congruence|]. inversion Fd as [|? ? D Fd']; subst. rewrite skip_space; [|exact Fs|intros c r E; cbn in E; injection E as <- _; apply not_space; auto]. cbn [app]. unfold isDigit in D. replace (Z.eqb d 45) with false by (symmetry; apply Z.eqb_neq; lia). replace (Z.eqb d 43) with false by (symmetry; apply Z.eqb_neq; lia).
    change (d :: ds ++ rest) with ((d :: ds) ++ rest). rewrite digits_from by assumption. lia.
  - rewrite skip_space; [|exact Fs|intros c r E; cbn in E; injection E as <- _; apply not_space; auto]. cbn [Z.eqb Pos.eqb]. rewrite digits_from by assumption. lia.
  - rewrite skip_space; [|exact Fs|intros c r E; cbn in E; injection E as <- _; apply not_space; auto]. cbn [Z.eqb Pos.eqb]. rewrite digits_from by assumption. lia.
Qed.
Lemma names_from : forall r n i, (Z.of_nat i + Z.of_nat n <= getAvailableProperties r) -> getPropertiesFrom r (Z.of_nat i) n = Some (firstn n (skipn i (List.map name (available r)))).
Proof.
  intros r. induction n as [|n IH]; intros i L; [reflexivity|]. cbn [getPropertiesFrom]. unfold getAvailableProperties in *. assert (Hi : (i < List.length (available r))%nat) by lia.
  destruct (nth_error (available r) i) as [x|] eqn:N; [|apply nth_error_None in N; lia].
  assert (G : getPropertyName r (Z.of_nat i) = Some (name x)). { unfold getPropertyName, getAvailableProperties, PropertiesGetNameFromRequiredIndex. replace (Z.leb 0 (Z.of_nat i)) with true by (symmetry; apply Z.leb_le; lia). replace (Z.ltb (Z.of_nat i) _) with true by (symmetry; apply Z.ltb_lt; lia). replace (Z.ltb (Z.of_nat i) 0) with false by (symmetry; apply Z.ltb_ge; lia). cbn [andb]. now rewrite Nat2Z.id, N. }
  rewrite G. replace (Z.of_nat i + 1) with (Z.of_nat (S i)) by lia. rewrite IH by lia.
  f_equal. clear - N. revert i N. induction (available r) as [|y l IHl]; intros [|i] N; cbn [nth_error] in N; try discriminate N.
  - injection N as ->. reflexivity.
  - cbn [List.map skipn]. now apply IHl.
Qed.
