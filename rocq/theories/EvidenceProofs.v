From Verif Require Export EvidenceModel EvidenceSpec.

(* the pair a callback is shown *)
Definition shown (p : Pair) : Pair := mkPair (prefix p) (field p) (originalValue p) (originalValue p).
Definition wfPair (p : Pair) : Prop := isPrefix (prefix p) /\ (parsedValue p = None \/ parsedValue p = originalValue p).
Definition samePair (p q : Pair) : Prop := prefix p = prefix q /\ field p = field q /\ originalValue p = originalValue q.

Lemma parse_shown p : wfPair p -> parsePair p = shown p.
Proof.
  intros (_ & [H|H]); unfold parsePair, shown; destruct p as [a b c d]; cbn in *; subst; [reflexivity|].
  destruct c; reflexivity.
Qed.

Lemma in_set p prefixes : isPrefix p -> (Z.land p prefixes =? p)%Z = true <-> inSet p prefixes.
Proof.
  intros H.
  assert (exists k, (0 <= k)%Z /\ p = (2 ^ k)%Z) as (k & Hk & ->).
  { unfold isPrefix in H. cbn in H. destruct H as [<-|[<-|[<-|[<-|[<-|[<-|[]]]]]]];
      [exists 0%Z|exists 1%Z|exists 2%Z|exists 3%Z|exists 4%Z|exists 7%Z]; split; try lia; reflexivity. }
  clear H. rewrite Z.eqb_eq. split.
  - intros E. exists k. repeat split; auto. apply (f_equal (fun x => Z.testbit x k)) in E.
    rewrite Z.land_spec, Z.pow2_bits_true in E by lia. exact E.
  - intros (j & Hj & E & B). apply Z.pow_inj_r in E; [subst j|lia|lia|lia].
    apply Z.bits_inj'. intros i Hi. rewrite Z.land_spec. destruct (Z.eq_dec i k) as [->|N].
    + now rewrite Z.pow2_bits_true, B by lia.
    + now rewrite Z.pow2_bits_false by lia.
Qed.

Section Iterate.
  Context {S : Type} (cb : S -> Pair -> bool * S) (prefixes : Z).
  Definition chosen (p : Pair) : Prop := inSet (prefix p) prefixes.

  Lemma iterate_stopped l st n : evidenceIterateSub cb prefixes l false st n = (l, false, st, n).
  Proof. destruct l; reflexivity. Qed.

  (* the calls on the chosen pairs; cont tells whether the calls were all accepted *)
  Inductive calls : list Pair -> S -> nat -> S -> bool -> Prop :=
  | calls_nil s : calls [] s 0 s true
  | calls_refuse x l s s' : cb s x = (false, s') -> calls (x :: l) s 1 s' false
  | calls_accept x l s s' n s'' c : cb s x = (true, s') -> calls l s' n s'' c -> calls (x :: l) s (1 + n) s'' c.

  Lemma iterate_sub l : Forall wfPair l -> forall st n l' c st' n',
    evidenceIterateSub cb prefixes l true st n = (l', c, st', n') ->
    Forall2 samePair l l' /\ Forall wfPair l' /\
    exists v k, selected chosen shown l v /\ n' = n + k /\ calls v st k st' c.
  Proof.
    induction 1 as [|p l Hp Hl IH]; intros st n l' c st' n' E; cbn in E.
    - injection E as <- <- <- <-. repeat split; auto. exists [], 0. repeat split; auto; constructor.
    - destruct (Z.land (prefix p) prefixes =? prefix p)%Z eqn:M.
      + apply in_set in M; [|apply Hp]. rewrite (parse_shown p Hp) in E.
        assert (W : wfPair (shown p)) by (split; [apply Hp|right; reflexivity]).
        assert (SP : samePair p (shown p)) by (repeat split).
        destruct (cb st (shown p)) as [[] s1] eqn:C.
        * destruct (evidenceIterateSub cb prefixes l true s1 (n + 1)) as [[[r c1] s2] n2] eqn:R.
          injection E as <- <- <- <-. destruct (IH _ _ _ _ _ _ R) as (A & B & v & k & V1 & V2 & V3).
          repeat split; auto. exists (shown p :: v), (1 + k). repeat split; [constructor; auto|lia|econstructor; eauto].
        * rewrite iterate_stopped in E. injection E as <- <- <- <-.
          split; [constructor; auto; clear; induction l; constructor; auto; repeat split|].
          split; [constructor; auto|].
          assert (exists v, selected chosen shown l v) as (v & V).
          { clear -Hl. induction Hl as [|x l Hx Hl (v & V)]; [exists []; constructor|].
            destruct ((Z.land (prefix x) prefixes =? prefix x)%Z) eqn:M.
            - exists (shown x :: v). constructor; auto. apply in_set; [apply Hx|exact M].
            - exists v. constructor 3; auto. intros A. apply in_set in A; [|apply Hx]. congruence. }
          exists (shown p :: v), 1. repeat split; [constructor; auto|now constructor].
      + destruct (evidenceIterateSub cb prefixes l true st n) as [[[r c1] s2] n2] eqn:R.
        injection E as <- <- <- <-. destruct (IH _ _ _ _ _ _ R) as (A & B & v & k & V1 & V2 & V3).
        repeat split; auto; [constructor; auto; repeat split|]. exists v, k. repeat split; auto. constructor 3; auto.
        intros A'. apply in_set in A'; [|apply Hp]. congruence.
  Qed.

  Lemma calls_app v1 s k1 s1 c : calls v1 s k1 s1 c -> forall v2, c = false -> called cb (v1 ++ v2) s k1 s1.
  Proof.
    induction 1; intros v2 F; [discriminate|now constructor|cbn]. econstructor; eauto.
  Qed.
  Lemma calls_app_true v1 s k1 s1 c : calls v1 s k1 s1 c -> c = true -> forall v2 k2 s2,
    called cb v2 s1 k2 s2 -> called cb (v1 ++ v2) s (k1 + k2) s2.
  Proof.
    induction 1; intros F v2 k2 s2 H2; [exact H2|discriminate|]. cbn [app]. change (1 + n + k2) with (1 + (n + k2)).
    econstructor; eauto.
  Qed.
  Lemma calls_called v s k s1 c : calls v s k s1 c -> called cb v s k s1.
  Proof. induction 1; econstructor; eauto. Qed.
  Lemma selected_app l v l' v' : selected chosen shown l v -> selected chosen shown l' v' ->
    selected chosen shown (l ++ l') (v ++ v').
  Proof. induction 1; intros; cbn; auto; constructor; auto. Qed.
  Lemma selected_total l : Forall wfPair l -> exists v, selected chosen shown l v.
  Proof.
    intros Hl. induction Hl as [|x l Hx Hl (v & V)]; [exists []; constructor|].
    destruct ((Z.land (prefix x) prefixes =? prefix x)%Z) eqn:M.
    - exists (shown x :: v). constructor; auto. apply in_set; [apply Hx|exact M].
    - exists v. constructor 3; auto. intros A. apply in_set in A; [|apply Hx]. congruence.
  Qed.

  Definition allPairs (e : Evidence) : list Pair := items e ++ match pseudoEvidence e with Some l => l | None => [] end.
  Definition wf (e : Evidence) : Prop := length (items e) <= capacity e /\ Forall wfPair (allPairs e).
  Definition sameEvidence (e e' : Evidence) : Prop :=
    capacity e = capacity e' /\ Forall2 samePair (items e) (items e') /\
    match pseudoEvidence e, pseudoEvidence e' with
    | Some l, Some l' => Forall2 samePair l l' | None, None => True | _, _ => False end.
  Lemma same_pairs_refl l : Forall2 samePair l l.
  Proof. induction l; constructor; auto; repeat split. Qed.
  Lemma same_pairs_length l l' : Forall2 samePair l l' -> length l = length l'.
  Proof. induction 1; cbn; lia. Qed.

  Lemma iterate_spec e st e' st' n : wf e -> EvidenceIterate cb e prefixes st = (e', st', n) ->
    wf e' /\ sameEvidence e e' /\
    exists v, selected chosen shown (allPairs e) v /\ called cb v st n st'.
  Proof.
    intros (L & W) E. unfold allPairs in W. apply Forall_app in W. destruct W as (W1 & W2).
    unfold EvidenceIterate in E.
    destruct (evidenceIterateSub cb prefixes (items e) true st 0) as [[[l c] s1] k] eqn:R.
    destruct (iterate_sub _ W1 _ _ _ _ _ _ R) as (A & B & v & k' & V1 & V2 & V3). cbn in V2. subst k'.
    pose proof (same_pairs_length _ _ A) as LL.
    destruct (pseudoEvidence e) as [ps|] eqn:P.
    - destruct c.
      + destruct (evidenceIterateSub cb prefixes ps true s1 0) as [[[l2 c2] s2] k2] eqn:R2.
        injection E as <- <- <-.
        destruct (iterate_sub _ W2 _ _ _ _ _ _ R2) as (A2 & B2 & v2 & k' & U1 & U2 & U3). cbn in U2. subst k'.
        split; [split; cbn; [lia|apply Forall_app; auto]|].
        split; [repeat split; cbn; auto; rewrite P; auto|].
        exists (v ++ v2). unfold allPairs. rewrite P. split; [now apply selected_app|].
        eapply calls_app_true; eauto using calls_called.
      + injection E as <- <- <-.
        split; [split; cbn; [lia|apply Forall_app; auto]|].
        split; [repeat split; cbn; auto; rewrite P; apply same_pairs_refl|].
        destruct (selected_total _ W2) as (v2 & U).
        exists (v ++ v2). unfold allPairs. rewrite P. split; [now apply selected_app|]. eapply calls_app; eauto.
    - assert (E' : (mkEvidence (capacity e) l None, s1, k) = (e', st', n)) by (destruct c; exact E). clear E.
      injection E' as <- <- <-.
      split; [split; cbn; [lia|apply Forall_app; auto]|].
      split; [repeat split; cbn; auto; rewrite P; exact I|].
      exists v. unfold allPairs. rewrite P, app_nil_r. split; auto. eapply calls_called; eauto.
  Qed.
End Iterate.

(* keys *)
Lemma strncmp_prefix t : Forall (fun c => c <> 0%Z) t -> forall key : list Z, length t < length key ->
  strncmp (cstr t) (cstr key) (length t) = 0%Z <-> exists f, key = t ++ f.
Proof.
  induction 1 as [|x t Hx Ht IH]; intros key L.
  - cbn. split; eauto.
  - destruct key as [|y key]; [cbn in L; lia|]. cbn in L |- *. fold (cstr t). fold (cstr key). destruct (Z.eqb_spec x y) as [->|N].
    + destruct (Z.eqb_spec y 0); [contradiction|]. rewrite IH by lia. split.
      * intros (f & ->). exists f. reflexivity.
      * intros (f & F). injection F as ->. eauto.
    + split; [lia|]. intros (f & F). injection F as -> ->. contradiction.
Qed.
