From Verif Require Export StringModel StringSpec.

Lemma lower_same x y : tolower x = tolower y <-> sameLetter x y.
Proof.
  unfold tolower, sameLetter, upperLower.
  destruct (Z.leb_spec 65 x), (Z.leb_spec x 90), (Z.leb_spec 65 y), (Z.leb_spec y 90); cbn; lia.
Qed.
Lemma diff0 x y : Z.eqb (tolower x - tolower y) 0 = true <-> sameLetter x y.
Proof. rewrite Z.eqb_eq, <- lower_same. lia. Qed.
Lemma same_refl a : sameText a a.
Proof. induction a; constructor; auto. now left. Qed.
Lemma same_lower a b : sameText a b <-> map tolower a = map tolower b.
Proof.
  split.
  - induction 1 as [|x y a b H H' IH]; [reflexivity|]. cbn. f_equal; [apply lower_same, H|exact IH].
  - revert b. induction a as [|x a IH]; intros [|y b] H; try discriminate H; constructor.
    + apply lower_same. now injection H.
    + apply IH. now injection H.
Qed.
Lemma same_sym a b : sameText a b -> sameText b a.
Proof. rewrite !same_lower. auto. Qed.
Lemma same_trans a b c : sameText a b -> sameText b c -> sameText a c.
Proof. rewrite !same_lower. congruence. Qed.
Lemma same_length a b : sameText a b -> length a = length b.
Proof. induction 1; cbn; lia. Qed.

Lemma compare_zero a : forall b, StringCompare a b = 0%Z <-> sameText a b.
Proof.
  induction a as [|x a IH]; intros [|y b]; cbn.
  - split; constructor.
  - split; [discriminate|intros H; inversion H].
  - split; [discriminate|intros H; inversion H].
  - destruct (Z.eqb_spec (tolower x - tolower y) 0) as [E|E].
    + rewrite IH. split; intros H.
      * constructor; [apply lower_same; lia|exact H].
      * now inversion H.
    + split; [lia|]. intros H. inversion H as [|? ? ? ? H1 H2]; subst. apply lower_same in H1. lia.
Qed.
Lemma compare_opp a : forall b, StringCompare b a = (- StringCompare a b)%Z.
Proof.
  induction a as [|x a IH]; intros [|y b]; cbn; try reflexivity.
  destruct (Z.eqb_spec (tolower x - tolower y) 0) as [E|E], (Z.eqb_spec (tolower y - tolower x) 0) as [F|F]; try lia.
  apply IH.
Qed.
Lemma compare_trans a : forall b c, (StringCompare a b <= 0 -> StringCompare b c <= 0 -> StringCompare a c <= 0)%Z.
Proof.
  induction a as [|x a IH]; intros [|y b] [|z c]; cbn; try lia.
  destruct (Z.eqb_spec (tolower x - tolower y) 0) as [E|E], (Z.eqb_spec (tolower y - tolower z) 0) as [F|F],
    (Z.eqb_spec (tolower x - tolower z) 0) as [G|G]; try lia.
  apply IH.
Qed.

(* Comparison by length. *)
Lemma compareLength_some n : forall a b : list Z, n <= length a -> n <= length b ->
  exists d, StringCompareLength n a b = Some d /\ (d = 0%Z <-> sameText (firstn n a) (firstn n b)).
Proof.
  induction n as [|n IH]; intros a b Ha Hb.
  - exists 0%Z. split; [reflexivity|]. split; intros; [constructor|reflexivity].
  - destruct a as [|x a]; [cbn in Ha; lia|]. destruct b as [|y b]; [cbn in Hb; lia|]. cbn [StringCompareLength firstn].
    destruct (Z.eqb_spec (tolower x - tolower y) 0) as [E|E].
    + destruct (IH a b) as (d & H1 & H2); [cbn in *; lia..|]. exists d. split; [exact H1|]. rewrite H2. split; intros H.
      * constructor; [apply lower_same; lia|exact H].
      * now inversion H.
    + eexists. split; [reflexivity|]. split; [intros; lia|].
      intros H. inversion H as [|? ? ? ? H1 H2]; subst. apply lower_same in H1. lia.
Qed.
(* One of the two texts is as long as the length compared; the other may be
   shorter, its terminator then differs. *)
Lemma lower_zero x : x <> 0%Z -> tolower x <> 0%Z.
Proof. unfold tolower. destruct (Z.leb_spec 65 x), (Z.leb_spec x 90); cbn; lia. Qed.
Lemma compareLength_text n : forall a b : list Z, Forall (fun c => c <> 0%Z) a -> Forall (fun c => c <> 0%Z) b -> n <= length a ->
  exists d, StringCompareLength n (cstr a) (cstr b) = Some d /\
    (d = 0%Z <-> exists b1 b2, b = b1 ++ b2 /\ sameText (firstn n a) b1).
Proof.
  induction n as [|n IH]; intros a b Na Nb Hl.
  - exists 0%Z. split; [reflexivity|]. split; [|reflexivity]. intros _. exists [], b. split; [reflexivity|constructor].
  - destruct a as [|x a]; [cbn in Hl; lia|]. inversion Na as [|? ? Nx Na']; subst.
    destruct b as [|y b].
    + exists (tolower x - 0)%Z. cbn. assert (tolower x <> 0)%Z by now apply lower_zero.
      destruct (Z.eqb_spec (tolower x - 0) 0) as [E|E]; [lia|]. split; [reflexivity|]. split; [lia|].
      intros (b1 & b2 & H1 & H2). destruct b1; [inversion H2|discriminate H1].
    + inversion Nb as [|? ? Ny Nb']; subst. cbn [cstr app StringCompareLength]. fold (cstr a). fold (cstr b).
      destruct (Z.eqb_spec (tolower x - tolower y) 0) as [E|E].
      * destruct (IH a b Na' Nb') as (d & H1 & H2); [cbn in Hl; lia|]. exists d. split; [exact H1|].
        rewrite H2. split; intros (b1 & b2 & H3 & H4).
        -- exists (y :: b1), b2. split; [cbn; now f_equal|]. cbn. constructor; [apply lower_same; lia|exact H4].
        -- cbn in H4. destruct b1 as [|z b1]; [inversion H4|]. injection H3 as -> ->. exists b1, b2. split; [reflexivity|].
           now inversion H4.
      * exists (tolower x - tolower y)%Z. split; [reflexivity|]. split; [intros; lia|]. intros (b1 & b2 & H3 & H4).
        cbn in H4. destruct b1 as [|z b1]; [inversion H4|]. injection H3 as -> ->.
        inversion H4 as [|? ? ? ? H5 H6]; subst. apply lower_same in H5. lia.
Qed.
Lemma compareLength_opp n : forall a b : list Z, StringCompareLength n b a = option_map Z.opp (StringCompareLength n a b).
Proof.
  induction n as [|n IH]; intros [|x a] [|y b]; cbn; try reflexivity.
  destruct (Z.eqb_spec (tolower x - tolower y) 0) as [E|E], (Z.eqb_spec (tolower y - tolower x) 0) as [F|F]; try lia; [apply IH|].
  cbn. f_equal. lia.
Qed.

(* Substrings: the search stops at the first position where the text agrees
   with the needle as far as both go. *)
Lemma inner_spec a : forall b : list Z, subStringInner a b = true <->
  (exists a1 a2, a = a1 ++ a2 /\ sameText a1 b) \/ (exists b1 b2, b = b1 ++ b2 /\ b2 <> [] /\ sameText a b1).
Proof.
  induction a as [|x a IH]; intros b.
  - cbn. split; [intros _|reflexivity]. destruct b as [|y b].
    + left. exists [], []. split; [reflexivity|constructor].
    + right. exists [], (y :: b). repeat split; [discriminate|constructor].
  - destruct b as [|y b]; cbn.
    + split; [intros _|reflexivity]. left. exists [], (x :: a). split; [reflexivity|constructor].
    + destruct (Z.eqb_spec (tolower x - tolower y) 0) as [E|E].
      * rewrite IH. assert (S : sameLetter x y) by (apply lower_same; lia). split; (intros [(a1 & a2 & H1 & H2)|(b1 & b2 & H1 & H2 & H3)]).
        -- left. exists (x :: a1), a2. split; [cbn; now f_equal|now constructor].
        -- right. exists (y :: b1), b2. split; [cbn; now f_equal|]. split; [exact H2|now constructor].
        -- inversion H2; subst. injection H1 as -> ->. left. eauto.
        -- inversion H3; subst. injection H1 as -> ->. right. eauto 6.
      * split; [discriminate|]. intros [(a1 & a2 & H1 & H2)|(b1 & b2 & H1 & H2 & H3)].
        -- inversion H2 as [|? ? ? ? H4 H5]; subst. injection H1 as -> ->. apply lower_same in H4. lia.
        -- inversion H3 as [|? ? ? ? H4 H5]; subst. injection H1 as -> ->. apply lower_same in H4. lia.
Qed.

Definition hit (a b : list Z) (p : nat) : Prop := occursAt a b p \/ endsInside a b p.
Lemma hit_cons x a b p : hit (x :: a) b (S p) <-> hit a b p.
Proof.
  unfold hit, occursAt, endsInside. split.
  - intros [(b1 & m & af & H1 & H2 & H3)|(b1 & e & c1 & c2 & H1 & H2 & H3 & H4 & H5 & H6)].
    + destruct b1 as [|z b1]; [discriminate H2|]. injection H1 as -> ->. left. exists b1, m, af. cbn in H2. repeat split; auto.
    + destruct b1 as [|z b1]; [discriminate H2|]. injection H1 as -> ->. right. exists b1, e, c1, c2. cbn in H2. repeat split; auto.
  - intros [(b1 & m & af & H1 & H2 & H3)|(b1 & e & c1 & c2 & H1 & H2 & H3 & H4 & H5 & H6)].
    + left. exists (x :: b1), m, af. cbn. repeat split; [congruence|congruence|auto].
    + right. exists (x :: b1), e, c1, c2. cbn. repeat split; auto; congruence.
Qed.
Lemma hit_zero x a y b : hit (x :: a) (y :: b) 0 <-> (Z.eqb (tolower x - tolower y) 0 && subStringInner a b)%bool = true.
Proof.
  rewrite andb_true_iff, inner_spec, diff0. unfold hit, occursAt, endsInside. split.
  - intros [(b1 & m & af & H1 & H2 & H3)|(b1 & e & c1 & c2 & H1 & H2 & H3 & H4 & H5 & H6)].
    + destruct b1; [|discriminate H2]. cbn in H1. inversion H3; subst. injection H1 as -> ->. split; [assumption|]. left. eauto.
    + destruct b1; [|discriminate H2]. cbn in H1. subst e. inversion H6; subst. injection H3 as -> ->. split; [assumption|]. right. eauto 6.
  - intros (S & [(a1 & a2 & H1 & H2)|(b1 & b2 & H1 & H2 & H3)]).
    + left. exists [], (x :: a1), a2. subst. repeat split. now constructor.
    + right. exists [], (x :: a), (y :: b1), b2. subst. repeat split; auto; try discriminate. now constructor.
Qed.
Lemma sub_from a : forall b p, b <> [] ->
  match StringSubStringFrom p a b with
  | Some q => exists r, q = p + r /\ hit a b r /\ forall r', r' < r -> ~ hit a b r'
  | None => forall r, ~ hit a b r
  end.
Proof.
  induction a as [|x a IH]; intros b p Hb.
  - cbn. intros r [(b1 & m & af & H1 & H2 & H3)|(b1 & e & c1 & c2 & H1 & H2 & H3 & H4 & H5 & H6)].
    + destruct b1, m, af; try discriminate H1. inversion H3. congruence.
    + destruct b1, e; try discriminate H1. congruence.
  - destruct b as [|y b]; [congruence|]. cbn [StringSubStringFrom].
    destruct (Z.eqb (tolower x - tolower y) 0 && subStringInner a b)%bool eqn:E.
    + exists 0. split; [lia|]. split; [now apply hit_zero|intros; lia].
    + assert (N : ~ hit (x :: a) (y :: b) 0) by (rewrite hit_zero; congruence).
      specialize (IH (y :: b) (S p) ltac:(discriminate)).
      destruct (StringSubStringFrom (S p) a (y :: b)) as [q|].
      * destruct IH as (r & H1 & H2 & H3). exists (S r). split; [lia|]. split; [now apply hit_cons|].
        intros [|r'] Hr; [exact N|]. rewrite hit_cons. apply H3. lia.
      * intros [|r]; [exact N|]. rewrite hit_cons. apply IH.
Qed.
Lemma sub_spec a b : b <> [] ->
  match StringSubString a b with
  | Some p => hit a b p /\ forall p', p' < p -> ~ hit a b p'
  | None => forall p, ~ hit a b p
  end.
Proof.
  intros Hb. pose proof (sub_from a b 0 Hb) as H. unfold StringSubString. destruct (StringSubStringFrom 0 a b) as [q|]; [|exact H].
  destruct H as (r & -> & H1 & H2). auto.
Qed.
