(* Helper lemmas for the messages of status codes *)
From Verif Require Export StatusModel StatusSpec.
Open Scope Z_scope.

(* ---- decimal ---- *)
Lemma value_app : forall a b acc, fold_left (fun a c => 10 * a + (c - 48)) (a ++ b) acc = fold_left (fun a c => 10 * a + (c - 48)) b (fold_left (fun a c => 10 * a + (c - 48)) a acc).
Proof. intros. apply fold_left_app. Qed.
Lemma value_acc : forall l acc, fold_left (fun a c => 10 * a + (c - 48)) l acc = acc * 10 ^ Z.of_nat (List.length l) + value l.
Proof.
  unfold value. induction l as [|c l IH]; intros acc; cbn [fold_left List.length]; [lia|]. rewrite IH, (IH (10 * 0 + (c - 48))). rewrite Nat2Z.inj_succ, Z.pow_succ_r by lia. lia.
Qed.
Lemma digits_number : forall fuel n l, 0 < n -> (Z.log2 n < Z.of_nat fuel) ->
  exists d, digits fuel n l = d ++ l /\ d <> [] /\ Forall (fun c => 48 <= c <= 57) d /\ hd 0 d <> 48 /\ value d = n /\ 10 ^ (Z.of_nat (List.length d) - 1) <= n.
Proof.
  induction fuel as [|fuel IH]; intros n l N F; [pose proof (Z.log2_nonneg n); lia|]. cbn [digits]. pose proof (Z.mod_pos_bound n 10 ltac:(lia)) as Md.
  destruct (Z.ltb_spec n 10).
  - rewrite Z.mod_small by lia. exists [48 + n]. split; [reflexivity|]. split; [discriminate|]. split; [constructor; [lia|constructor]|]. split; [cbn [hd]; lia|]. split; [unfold value; cbn [fold_left]; lia|cbn [List.length]; change (Z.of_nat 1 - 1) with 0; rewrite Z.pow_0_r; lia].
  - assert (N' : 0 < n / 10) by (apply Z.div_str_pos; lia).
    assert (L : Z.log2 (n / 10) < Z.of_nat fuel).
    { assert (Z.log2 (n / 10) < Z.log2 n); [|lia]. apply Z.log2_lt_pow2; [lia|]. pose proof (Z.log2_spec n N) as (L1 & L2).
      assert (Z.log2 n <> 0). { intros Q. rewrite Q in L2. change (2 ^ Z.succ 0) with 2 in L2. lia. } pose proof (Z.log2_nonneg n). rewrite Z.pow_succ_r in L2 by lia. apply Z.div_lt_upper_bound; lia. }
    destruct (IH (n / 10) ((48 + n mod 10) :: l) N' L) as (d & E & Dn & Df & Dh & Dv & Dl). exists (d ++ [48 + n mod 10]). split; [rewrite E, <- app_assoc; reflexivity|].
    split; [destruct d; discriminate|]. split; [apply Forall_app; split; [exact Df|constructor; [lia|constructor]]|]. split; [destruct d; [congruence|exact Dh]|].
    split; [unfold value in *; rewrite value_app, Dv; cbn [fold_left]; pose proof (Z.div_mod n 10); lia|].
    rewrite app_length. cbn [List.length]. replace (Z.of_nat (List.length d + 1) - 1) with (Z.succ (Z.of_nat (List.length d) - 1)) by lia. rewrite Z.pow_succ_r; [pose proof (Z.div_mod n 10); lia|]. destruct d; [congruence|cbn [List.length]; lia].
Qed.
Lemma decimal_abs : forall n, 0 <= n -> isNumber (digits (S (Z.to_nat (Z.log2 n))) n []) n /\ (n = 0 \/ 10 ^ (Z.of_nat (List.length (digits (S (Z.to_nat (Z.log2 n))) n [])) - 1) <= n).
Proof.
  intros n N. destruct (Z.eq_dec n 0) as [->|Nz].
  - split; [|now left]. cbn. split; [discriminate|]. split; [repeat constructor; lia|]. split; [reflexivity|reflexivity].
  - destruct (digits_number (S (Z.to_nat (Z.log2 n))) n [] ltac:(lia)) as (d & E & A & B & C & D & F); [pose proof (Z.log2_nonneg n); lia|]. rewrite E, app_nil_r. split; [|now right]. split; [exact A|]. split; [exact B|]. split; [intros; congruence|exact D].
Qed.
Lemma decimal_is : forall z, isDecimal (decimal z) z.
Proof.
  intros z. unfold decimal. destruct (decimal_abs (Z.abs z) ltac:(lia)) as (N & _). destruct (Z.ltb_spec z 0).
  - right. split; [lia|]. eexists. split; [reflexivity|]. replace (- z) with (Z.abs z) by lia. exact N.
  - left. split; [lia|]. replace z with (Z.abs z) at 3 by lia. exact N.
Qed.
Lemma digits_length : forall n k, 0 <= n < 10 ^ Z.of_nat k -> (0 < k)%nat -> (List.length (digits (S (Z.to_nat (Z.log2 n))) n []) <= k)%nat.
Proof.
  intros n k N K. destruct (decimal_abs n ltac:(lia)) as (_ & [->|L]); [cbn; lia|].
  set (d := List.length (digits (S (Z.to_nat (Z.log2 n))) n [])) in *. destruct (Nat.le_gt_cases d k) as [|G]; [assumption|].
  assert (10 ^ Z.of_nat k <= 10 ^ (Z.of_nat d - 1)) by (apply Z.pow_le_mono_r; lia). lia.
Qed.

(* ---- printf ---- *)
Lemma printf_plain : forall a args, ~ In 37 a -> printf a args = Some a.
Proof.
  induction a as [|c a IH]; intros args N; [reflexivity|]. cbn [printf]. destruct (Z.eqb_spec c 37) as [->|]; [exfalso; apply N; now left|]. rewrite IH; [reflexivity|]. intros I. apply N. now right.
Qed.
Lemma printf_app : forall a f args, ~ In 37 a -> printf (a ++ f) args = option_map (app a) (printf f args).
Proof.
  induction a as [|c a IH]; intros f args N; [cbn; now destruct (printf f args)|]. cbn [printf app]. destruct (Z.eqb_spec c 37) as [->|]; [exfalso; apply N; now left|].
  rewrite IH by (intros I; apply N; now right). now destruct (printf f args).
Qed.
Lemma printf_s : forall f s args, printf (37 :: 115 :: f) (Str s :: args) = option_map (app s) (printf f args).
Proof. reflexivity. Qed.
Lemma printf_i : forall f i args, printf (37 :: 105 :: f) (Int i :: args) = option_map (app (decimal i)) (printf f args).
Proof. reflexivity. Qed.
Lemma printf_d : forall f i args, printf (37 :: 100 :: f) (Int i :: args) = option_map (app (decimal i)) (printf f args).
Proof. reflexivity. Qed.
Lemma Snprintf_fits : forall size f args t, printf f args = Some t -> (List.length t < size)%nat -> Snprintf size f args = Some t.
Proof. intros size f args t P L. destruct size; [lia|]. unfold Snprintf. rewrite P. cbn [option_map]. now rewrite firstn_all2 by lia. Qed.

(* ---- the messages ---- *)
Fixpoint before (s : list Z) : list Z := match s with [] => [] | c :: s' => if c =? 37 then [] else c :: before s' end.
Fixpoint after (s : list Z) : option (list Z) := match s with [] => None | c :: s' => if c =? 37 then Some s' else after s' end.
Lemma before_plain : forall s, ~ In 37 (before s).
Proof. induction s as [|c s IH]; cbn [before]; [intros []|]. destruct (Z.eqb_spec c 37); [intros []|]. intros [Q|I]; [congruence|contradiction]. Qed.
Lemma before_after : forall s, match after s with Some r => s = before s ++ 37 :: r | None => s = before s end.
Proof.
  induction s as [|c s IH]; cbn [before after]; [reflexivity|]. destruct (Z.eqb_spec c 37) as [->|]; [reflexivity|]. destruct (after s); cbn [app]; now f_equal.
Qed.
Definition good (m : list Z) : bool :=
  match after m with
  | None => true
  | Some (115 :: b) => match after b with None => true | Some _ => false end
  | _ => false
  end.
Lemma good_cases : forall m, good m = true -> ~ In 37 m \/ exists a b, ~ In 37 a /\ ~ In 37 b /\ m = a ++ [37; 115] ++ b.
Proof.
  intros m G. unfold good in G. pose proof (before_after m) as B. pose proof (before_plain m) as P. destruct (after m) as [r|]; [|left; now rewrite B].
  right. destruct r as [|c b]; [discriminate|]. destruct (Z.eq_dec c 115) as [->|Nc]; [|exfalso; destruct c as [|p|p]; try discriminate G; repeat (destruct p; try discriminate G; try (now apply Nc))].
  exists (before m), b. split; [exact P|]. split; [|exact B]. pose proof (before_after b) as B2. pose proof (before_plain b) as P2. destruct (after b); [discriminate|]. now rewrite B2.
Qed.
Lemma messages_good : forall s m, In (s, m) messages -> good m = true.
Proof.
  assert (H : forallb (fun p => good (snd p)) messages = true) by (vm_compute; reflexivity). intros s m I. rewrite forallb_forall in H. exact (H (s, m) I).
Qed.
Lemma strstr_none : forall m, ~ In 37 m -> strstr m (text "%s") = false.
Proof.
  induction m as [|c m IH]; intros N; [reflexivity|]. change (text "%s") with [37; 115] in *. cbn [strstr startsWith]. destruct (Z.eqb_spec 37 c) as [<-|]; [exfalso; apply N; now left|]. cbn [andb orb]. apply IH. intros I; apply N; now right.
Qed.
Lemma strstr_some : forall a b, strstr (a ++ [37; 115] ++ b) (text "%s") = true.
Proof.
  intros a b. change (text "%s") with [37; 115]. induction a as [|c a IH]; [reflexivity|]. cbn [app strstr]. cbn [app] in IH. rewrite IH. apply orb_true_r.
Qed.
Lemma findMessage_in : forall l s m, NoDup (map fst l) -> In (s, m) l -> findMessage l s = Some m.
Proof.
  induction l as [|(s0, m0) l IH]; intros s m N I; [destruct I|]. cbn [findMessage]. cbn [map fst] in N. inversion N as [|x y Ni N' Q1]; subst. destruct I as [Q|I].
  - injection Q as -> ->. now rewrite Z.eqb_refl.
  - destruct (Z.eqb_spec s0 s) as [->|]; [|now apply IH]. exfalso. apply Ni. apply (in_map fst) in I. exact I.
Qed.
Lemma findMessage_none : forall l s, ~ In s (map fst l) -> findMessage l s = None.
Proof.
  induction l as [|(s0, m0) l IH]; intros s N; [reflexivity|]. cbn [findMessage]. destruct (Z.eqb_spec s0 s) as [->|]; [exfalso; apply N; now left|]. apply IH. intros I; apply N; now right.
Qed.
Fixpoint nodupb (l : list Z) : bool := match l with [] => true | x :: l' => negb (existsb (Z.eqb x) l') && nodupb l' end.
Lemma nodupb_ok : forall l, nodupb l = true -> NoDup l.
Proof.
  induction l as [|x l IH]; intros H; [constructor|]. cbn [nodupb] in H. apply andb_true_iff in H. destruct H as (H1 & H2). constructor; [|auto]. intros I. apply negb_true_iff in H1. assert (existsb (Z.eqb x) l = true); [|congruence]. apply existsb_exists. exists x. split; [exact I|apply Z.eqb_refl].
Qed.
Lemma messages_nodup : NoDup (map fst messages).
Proof. apply nodupb_ok. vm_compute. reflexivity. Qed.
