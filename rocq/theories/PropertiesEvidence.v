(* C38, C39: evidence.c *)
From Coq Require Import String Ascii.
From Verif Require Import EvidenceProofs.
Open Scope list_scope.
Definition text (s : string) : list Z := map (fun c => Z.of_nat (nat_of_ascii c)) (list_ascii_of_string s).

(* Evidence in use: created with a capacity, then filled and iterated any number
   of times with any callbacks; pseudo evidence, itself built the same way, may be
   attached and detached at any time. *)
Inductive reachable : Evidence -> Prop :=
| r_create n : reachable (EvidenceCreate n)
| r_add e p f v : reachable e -> isPrefix p -> reachable (fst (EvidenceAddString e p f v))
| r_iterate (S : Type) (cb : S -> Pair -> bool * S) e prefixes st : reachable e -> reachable (fst (fst (EvidenceIterate cb e prefixes st)))
| r_attach e e' : reachable e -> reachable e' -> reachable (mkEvidence (capacity e) (items e) (Some (items e')))
| r_detach e : reachable e -> reachable (mkEvidence (capacity e) (items e) None).

Lemma reachable_wf e : reachable e -> wf e.
Proof.
  induction 1 as [n|e p f v R IH P|S cb e prefixes st R IH|e e' R IH R' IH'|e R IH].
  - split; cbn; [lia|constructor].
  - destruct IH as (L & W). unfold EvidenceAddString. destruct (Nat.ltb_spec (List.length (items e)) (capacity e)); [|split; auto].
    cbn. split; cbn; [rewrite app_length; cbn; lia|]. unfold allPairs in *. cbn. apply Forall_app in W. destruct W as (W1 & W2).
    rewrite !Forall_app. repeat split; auto. constructor; [|constructor]. split; [exact P|left; reflexivity].
  - destruct (EvidenceIterate cb e prefixes st) as [[e' s'] n] eqn:E. cbn. eapply iterate_spec; eauto.
  - destruct IH as (L & W), IH' as (L' & W'). unfold allPairs in *. apply Forall_app in W, W'. split; cbn; [exact L|].
    unfold allPairs. cbn. apply Forall_app. split; [apply W|apply W'].
  - destruct IH as (L & W). unfold allPairs in *. apply Forall_app in W. split; cbn; [exact L|].
    unfold allPairs. cbn. apply Forall_app. split; [apply W|constructor].
Qed.

(* C38: the callbacks are made on the pairs whose prefix is in the set, first
   those of the evidence and then those of the pseudo evidence, in insertion order
   up to the first refusal, each with its parsed value set; the count is the
   number of callbacks; what the evidence holds does not change. *)
Theorem evidence_iterate : forall (S : Type) (cb : S -> Pair -> bool * S) e prefixes st e' st' n,
  reachable e -> EvidenceIterate cb e prefixes st = (e', st', n) ->
  (exists v,
    selected (fun p => inSet (prefix p) prefixes)
             (fun p => mkPair (prefix p) (field p) (originalValue p) (originalValue p))
             (items e ++ match pseudoEvidence e with Some l => l | None => [] end) v /\
    called cb v st n st') /\
  capacity e' = capacity e /\
  Forall2 (fun p q => prefix p = prefix q /\ field p = field q /\ originalValue p = originalValue q) (items e) (items e') /\
  match pseudoEvidence e, pseudoEvidence e' with
  | Some l, Some l' => Forall2 (fun p q => prefix p = prefix q /\ field p = field q /\ originalValue p = originalValue q) l l'
  | None, None => True
  | _, _ => False
  end.
Proof.
  intros S cb e prefixes st e' st' n R E. apply reachable_wf in R.
  destruct (iterate_spec cb prefixes e st e' st' n R E) as (_ & (A & B & C) & D).
  split; [exact D|]. split; [now symmetry|]. split; [exact B|exact C].
Qed.
Print Assumptions evidence_iterate.
(* Four pairs and one pseudo pair, iterated for headers and cookies by a callback
   that notes the fields and refuses the third one. *)
Definition sample : Evidence :=
  let e := EvidenceCreate 4 in
  let e := fst (EvidenceAddString e HTTP_HEADER_STRING (text "a") (Some (text "1"))) in
  let e := fst (EvidenceAddString e QUERY (text "b") (Some (text "2"))) in
  let e := fst (EvidenceAddString e COOKIE (text "c") (Some (text "3"))) in
  let e := fst (EvidenceAddString e HTTP_HEADER_STRING (text "d") None) in
  let p := fst (EvidenceAddString (EvidenceCreate 1) HTTP_HEADER_STRING (text "e") (Some (text "5"))) in
  mkEvidence (capacity e) (items e) (Some (items p)).
Definition note (limit : nat) (s : list (list Z)) (p : Pair) : bool * list (list Z) :=
  (Nat.ltb (List.length s + 1) limit, s ++ [field p]).
Example evidence_iterate_example :
  reachable sample /\
  snd (fst (EvidenceIterate (note 3) sample 17 [])) = [text "a"; text "c"; text "d"] /\
  snd (EvidenceIterate (note 3) sample 17 []) = 3 /\
  snd (fst (EvidenceIterate (note 9) sample 17 [])) = [text "a"; text "c"; text "d"; text "e"] /\
  snd (fst (EvidenceIterate (note 9) sample 8 [])) = [text "b"] /\
  snd (EvidenceIterate (note 9) sample 6 []) = 0.
Proof.
  split; [|vm_compute; repeat split].
  unfold sample. cbv zeta. apply r_attach; repeat (apply r_add; [|vm_compute; tauto]); apply r_create.
Qed.

(* C38: adding below the capacity appends the pair; a full array stays as it is
   and NULL is returned.  An array never holds more than its capacity. *)
Theorem evidence_add : forall e p f v, reachable e ->
  List.length (items e) <= capacity e /\
  (List.length (items e) < capacity e ->
     EvidenceAddString e p f v =
       (mkEvidence (capacity e) (items e ++ [mkPair p f v None]) (pseudoEvidence e), Some (mkPair p f v None))) /\
  (List.length (items e) = capacity e -> EvidenceAddString e p f v = (e, None)).
Proof.
  intros e p f v R. apply reachable_wf in R. destruct R as (L & _). split; [exact L|].
  unfold EvidenceAddString. destruct (Nat.ltb_spec (List.length (items e)) (capacity e)); split; intros; try lia; reflexivity.
Qed.
Print Assumptions evidence_add.
Example evidence_add_example : List.length (items sample) = 4 /\ capacity sample = 4 /\
  EvidenceAddString sample SERVER (text "x") (Some (text "y")) = (sample, None).
Proof. vm_compute. repeat split. Qed.

(* C39: the prefix of a key is found exactly for header., server., query. and
   cookie. followed by at least one character; what follows is the field. *)
Theorem evidence_map_prefix : forall key t p,
  EvidenceMapPrefix key = Some (t, p) <-> keyPrefix t p /\ exists f, f <> [] /\ key = t ++ f.
Proof.
  assert (N : forall t p, In (t, p) map_ -> Forall (fun c => c <> 0%Z) t).
  { intros t p H. cbn in H. destruct H as [H|[H|[H|[H|[]]]]]; injection H as <- <-; repeat constructor; lia. }
  assert (K : forall t p, keyPrefix t p <-> In (t, p) map_).
  { intros t p. split.
    - destruct 1; cbn; auto.
    - intros H. cbn in H. destruct H as [H|[H|[H|[H|[]]]]]; injection H as <- <-; constructor. }
  assert (U : forall t p t' p' f f', In (t, p) map_ -> In (t', p') map_ -> t ++ f = t' ++ f' -> (t, p) = (t', p')).
  { intros t p t' p' f f' H H' E. cbn in H, H'.
    destruct H as [H|[H|[H|[H|[]]]]]; injection H as <- <-; destruct H' as [H'|[H'|[H'|[H'|[]]]]]; injection H' as <- <-;
      try reflexivity; discriminate E. }
  assert (M : forall m key t p, incl m map_ -> (mapPrefixFrom m key = Some (t, p) <-> In (t, p) m /\ exists f, f <> [] /\ key = t ++ f)).
  { induction m as [|(t1, p1) m IH]; intros key t p I; [cbn; split; [discriminate|intros ([] & _)]|]. cbn [mapPrefixFrom].
    assert (I1 : In (t1, p1) map_) by (apply I; left; reflexivity).
    destruct (Nat.ltb (List.length t1) (List.length key) && Z.eqb (strncmp (cstr t1) (cstr key) (List.length t1)) 0)%bool eqn:B.
    - apply andb_true_iff in B. destruct B as (B1 & B2). apply Nat.ltb_lt in B1. apply Z.eqb_eq in B2.
      apply strncmp_prefix in B2; [|eapply N; eauto|exact B1]. destruct B2 as (f1 & ->). split.
      + intros E. injection E as <- <-. split; [left; reflexivity|]. exists f1. split; [|reflexivity].
        intros ->. rewrite app_length in B1. cbn in B1. lia.
      + intros (Hi & f & Hf & E). f_equal. eapply U; eauto.
    - assert (X : forall f, f <> [] -> key <> t1 ++ f).
      { intros f Hf ->. assert (L : List.length t1 < List.length (t1 ++ f)) by (rewrite app_length; destruct f; [congruence|cbn; lia]).
        apply andb_false_iff in B. destruct B as [B|B].
        - apply Nat.ltb_ge in B. lia.
        - apply Z.eqb_neq in B. apply B. apply strncmp_prefix; eauto. }
      rewrite IH by (intros y Hy; apply I; right; exact Hy). split.
      + intros (Hi & H). split; [right; exact Hi|exact H].
      + intros ([E|Hi] & f & Hf & ->); [injection E as -> ->; exfalso; eapply X; eauto|]. split; eauto. }
  intros key t p. unfold EvidenceMapPrefix. rewrite M by apply incl_refl. now rewrite <- K.
Qed.
Print Assumptions evidence_map_prefix.
Example evidence_map_prefix_example :
  EvidenceMapPrefix (text "header.User-Agent") = Some (text "header.", HTTP_HEADER_STRING) /\
  EvidenceMapPrefix (text "cookie.51D_x") = Some (text "cookie.", COOKIE) /\
  EvidenceMapPrefix (text "Header.User-Agent") = None /\ EvidenceMapPrefix (text "query") = None /\ EvidenceMapPrefix (text "query.") = None.
Proof. vm_compute. repeat split. Qed.

(* C39: a prefix has a text exactly when it is one of the four; a key built from
   it maps back to it; and a key has at most one prefix and field. *)
Theorem evidence_prefix_round_trip :
  (forall p t, EvidencePrefixString p = Some t <-> keyPrefix t p) /\
  (forall p t f, EvidencePrefixString p = Some t -> f <> [] -> EvidenceMapPrefix (t ++ f) = Some (t, p)) /\
  (forall t p f t' p' f', keyPrefix t p -> keyPrefix t' p' -> t ++ f = t' ++ f' -> t = t' /\ p = p' /\ f = f').
Proof.
  assert (A : forall p t, EvidencePrefixString p = Some t <-> keyPrefix t p).
  { intros p t. unfold EvidencePrefixString, map_, SERVER, HTTP_HEADER_STRING, QUERY, COOKIE. cbn [prefixStringFrom]. split.
    - destruct (Z.eqb_spec 4 p) as [<-|]; [intros E; injection E as <-; constructor|].
      destruct (Z.eqb_spec 1 p) as [<-|]; [intros E; injection E as <-; constructor|].
      destruct (Z.eqb_spec 8 p) as [<-|]; [intros E; injection E as <-; constructor|].
      destruct (Z.eqb_spec 16 p) as [<-|]; [intros E; injection E as <-; constructor|discriminate].
    - destruct 1; reflexivity. }
  split; [exact A|]. split.
  - intros p t f E Hf. apply evidence_map_prefix. split; [now apply A|eauto].
  - intros t p f t' p' f' [] [] E; cbn in E; try discriminate E; injection E as ->; auto.
Qed.
Print Assumptions evidence_prefix_round_trip.
Example evidence_prefix_round_trip_example :
  EvidencePrefixString QUERY = Some (text "query.") /\ EvidencePrefixString HTTP_HEADER_IP_ADDRESSES = None /\
  EvidencePrefixString IGNORE = None.
Proof. vm_compute. repeat split. Qed.
