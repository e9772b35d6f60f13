(* Lemmas on the life of signals *)
From Verif Require Export SignalLifeSpec LifeProofs.
From Coq Require Export Permutation.
Local Open Scope Z_scope.

Lemma has_in l p : has l p = true <-> In p l.
Proof.
  unfold has. rewrite existsb_exists. split; [intros (q & I & E); apply Nat.eqb_eq in E; now subst q|intros I; exists p; now rewrite Nat.eqb_refl].
Qed.
Lemma destroy_in l p : In p l -> destroy l p = Some (filter (fun q => negb (Nat.eqb p q)) l).
Proof. intros I. unfold destroy. apply has_in in I. now rewrite I. Qed.
Lemma filter_other l p : ~ In p l -> filter (fun q => negb (Nat.eqb p q)) l = l.
Proof.
  induction l as [|q l IH]; intros H; [reflexivity|]. cbn. destruct (Nat.eqb_spec p q) as [->|N]; cbn; [destruct H; now left|].
  f_equal. apply IH. intros I. apply H. now right.
Qed.
Lemma filter_perm l p ps : NoDup l -> Permutation l (p :: ps) -> Permutation (filter (fun q => negb (Nat.eqb p q)) l) ps.
Proof.
  intros D P. assert (forall a b, Permutation a b -> Permutation (filter (fun q => negb (Nat.eqb p q)) a) (filter (fun q => negb (Nat.eqb p q)) b)) as F.
  { induction 1; cbn; repeat match goal with |- context [negb ?b] => destruct (negb b) end; auto; try constructor; auto. now transitivity (filter (fun q => negb (Nat.eqb p q)) l'). }
  pose proof (F _ _ P) as Q. cbn in Q. rewrite Nat.eqb_refl in Q. cbn in Q. rewrite (filter_other ps) in Q; [exact Q|].
  pose proof (Permutation_NoDup P D) as D'. now inversion D'.
Qed.

(* what holds at any time *)
Record inv (s0 s : signals) (lost : list nat) (l : list given) : Prop := mkInv {
  v_owns : owns (live (heap s0)) (heap s) (map (fun p => (p, sizeofSignal)) (allGiven l));
  v_live : live (heap s) = map (fun p => (p, sizeofSignal)) (rev (allGiven l)) ++ live (heap s0);
  v_mutex : Permutation (mutexes s) (opened l ++ mutexes s0);
  v_conds : Permutation (conds s) (opened l ++ lost ++ conds s0);
  v_md : NoDup (mutexes s);
  v_cd : NoDup (conds s);
  v_fresh : forall p, In p (conds s) \/ In p (mutexes s) -> (p < fresh (heap s))%nat;
  v_grow : (fresh (heap s0) <= fresh (heap s))%nat }.

Lemma opened_app a b : opened (a ++ b) = opened a ++ opened b.
Proof. induction a as [|[|p|p] a IH]; cbn; [reflexivity|exact IH|now rewrite IH|exact IH]. Qed.
Lemma allGiven_app a b : allGiven (a ++ b) = allGiven a ++ allGiven b.
Proof. induction a as [|[|p|p] a IH]; cbn; [reflexivity|exact IH|now rewrite IH|now rewrite IH]. Qed.
Lemma shut_given l : forall k, allGiven (shut k l) = allGiven l.
Proof.
  induction l as [|g l IH]; intros [|k]; [reflexivity|reflexivity|destruct g; reflexivity|].
  destruct g; cbn; [apply IH| |]; f_equal; apply IH.
Qed.
Lemma shut_opened l : forall k p, nth_error l k = Some (Open p) -> Permutation (opened l) (p :: opened (shut k l)).
Proof.
  induction l as [|g l IH]; intros [|k] p N; try discriminate N; cbn in N.
  - injection N as ->. reflexivity.
  - specialize (IH _ _ N). destruct g as [|q|q]; cbn; [exact IH| |exact IH]. rewrite perm_swap. now constructor.
Qed.
Lemma opened_in l p : In p (opened l) <-> exists k, nth_error l k = Some (Open p).
Proof.
  split.
  - induction l as [|[|q|q] l IH]; cbn; [intros []|intros H; destruct (IH H) as (k & E); exists (S k); exact E| |intros H; destruct (IH H) as (k & E); exists (S k); exact E].
    intros [->|H]; [exists 0%nat; reflexivity|]. destruct (IH H) as (k & E). exists (S k); exact E.
  - intros (k & E). revert k E. induction l as [|[|q|q] l IH]; intros [|k] E; try discriminate E; cbn in *; try (eapply IH; eassumption); [injection E as ->; now left|right; eapply IH; eassumption].
Qed.
Lemma opened_given l p : In p (opened l) -> In p (allGiven l).
Proof. induction l as [|[|q|q] l IH]; cbn; tauto. Qed.

Lemma create_inv s0 s lost l a b c : inv s0 s lost l -> exists s' r lost', SignalCreate s a b c = Some (s', r) /\
  (r = None -> live (heap s') = live (heap s) /\ mutexes s' = mutexes s) /\ (r <> None <-> a = true /\ b = true /\ c = true) /\
  length lost' = (length lost + if a && b && negb c then 1 else 0)%nat /\
  inv s0 s' lost' (l ++ [match r with Some p => Open p | None => NoSignal end]).
Proof.
  intros [O Lv M C MD CD F G]. unfold SignalCreate. destruct a; cbn [andb].
  2: { exists s, None, lost. split; [reflexivity|]. split; [now intros _|]. split; [intuition congruence|]. split; [lia|].
       constructor; auto; rewrite ?allGiven_app, ?opened_app; cbn; rewrite ?app_nil_r; assumption. }
  destruct (alloc (heap s) sizeofSignal) as (m, p) eqn:A. pose proof (owns_alloc _ _ _ _ _ _ O A) as O1.
  assert (p = fresh (heap s) /\ fresh m = S (fresh (heap s))) as (Ep & Em) by (unfold alloc in A; injection A as <- <-; split; reflexivity).
  rewrite (owns_write _ _ p sizeofSignal _ 1 O1) by (try (now left); unfold sizeofSignal; lia).
  assert (NM : ~ In p (mutexes s)) by (intros I; specialize (F p (or_intror I)); lia).
  assert (NC : ~ In p (conds s)) by (intros I; specialize (F p (or_introl I)); lia).
  destruct (b && c) eqn:BC.
  - apply andb_prop in BC as (-> & ->). do 3 eexists. split; [reflexivity|]. split; [discriminate|]. split; [split; [auto|discriminate]|]. split; [rewrite Nat.add_0_r; reflexivity|].
    constructor; cbn [heap mutexes conds]; rewrite ?allGiven_app, ?opened_app; cbn [allGiven opened].
    + eapply owns_perm; [|exact O1]. rewrite map_app. cbn. rewrite Permutation_app_comm. reflexivity.
    + rewrite rev_app_distr. cbn. unfold alloc in A. injection A as <- <-. cbn. now rewrite Lv.
    + rewrite <- app_assoc. cbn. rewrite M. apply Permutation_middle.
    + rewrite <- app_assoc. cbn. rewrite C. apply Permutation_middle.
    + now constructor.
    + now constructor.
    + intros q [[<-|I]|[<-|I]]; try lia; [specialize (F q (or_introl I))|specialize (F q (or_intror I))]; lia.
    + lia.
  - destruct (owns_free _ _ _ _ _ O1) as (m' & Fr & O2). rewrite Fr.
    assert (fresh m' = fresh m /\ live m' = live (heap s)) as (Em' & L).
    { unfold free in Fr. destruct (sizeOf (live m) p); [|discriminate Fr]. injection Fr as <-. split; [reflexivity|]. cbn [live].
      unfold alloc in A. injection A as <- _. cbn [live]. rewrite Ep. unfold drop. cbn. rewrite Nat.eqb_refl. cbn.
      pose proof (o_older _ _ _ O) as Od. revert Od. unfold older. generalize (fresh (heap s)). intros n Od. clear - Od.
      induction (live (heap s)) as [|(q, k) t IH]; [reflexivity|]. cbn. assert (q < n)%nat by (eapply Od; now left). destruct (Nat.eqb_spec n q); [lia|]. cbn. f_equal.
      apply IH. intros p' k' I. eapply Od. now right; eauto. }
    exists (mkSignals m' (if b then p :: conds s else conds s) (mutexes s)), None, (if b then p :: lost else lost).
    split; [reflexivity|]. split; [now intros _|]. split; [split; [congruence|]; intros (_ & -> & ->); discriminate BC|].
    split; [destruct b, c; try discriminate BC; cbn; lia|].
    constructor; cbn [heap mutexes conds]; rewrite ?allGiven_app, ?opened_app; cbn [allGiven opened]; rewrite ?app_nil_r; auto.
    + now rewrite L, Lv.
    + destruct b; [|exact C]. cbn. rewrite C. apply Permutation_middle.
    + destruct b; [now constructor|exact CD].
    + intros q [I|I]; [destruct b; [destruct I as [<-|I]; [lia|]|]; specialize (F q (or_introl I)); lia|specialize (F q (or_intror I)); lia].
    + lia.
Qed.
Lemma open_live s0 s lost l p : inv s0 s lost l -> In p (opened l) -> sizeOf (live (heap s)) p = Some sizeofSignal /\ In p (mutexes s) /\ In p (conds s).
Proof.
  intros [O _ M C _ _ _ _] I. split; [|split].
  - apply (o_live _ _ _ O). apply in_map_iff. exists p. split; [reflexivity|]. now apply opened_given.
  - eapply Permutation_in; [apply Permutation_sym, M|]. apply in_or_app. now left.
  - eapply Permutation_in; [apply Permutation_sym, C|]. apply in_or_app. now left.
Qed.
Lemma close_inv s0 s lost l k p : inv s0 s lost l -> nth_error l k = Some (Open p) ->
  exists s', SignalClose s (Some p) = Some s' /\ heap s' = heap s /\ inv s0 s' lost (shut k l).
Proof.
  intros V N. assert (I : In p (opened l)) by (apply opened_in; eauto). destruct (open_live _ _ _ _ _ V I) as (L & IM & IC). destruct V as [O Lv M C MD CD F G].
  unfold SignalClose. rewrite L, (destroy_in _ _ IM), (destroy_in _ _ IC). eexists. split; [reflexivity|]. split; [reflexivity|].
  pose proof (shut_opened _ _ _ N) as P.
  constructor; cbn [heap mutexes conds]; rewrite ?shut_given; auto.
  - apply filter_perm; [exact MD|]. rewrite M, P. reflexivity.
  - apply filter_perm; [exact CD|]. rewrite C, P. reflexivity.
  - now apply NoDup_filter.
  - now apply NoDup_filter.
  - intros q [H|H]; apply filter_In in H; apply F; tauto.
Qed.
Lemma use_inv s0 s lost l k p : inv s0 s lost l -> nth_error l k = Some (Open p) -> SignalUse s p = Some s.
Proof.
  intros V N. assert (I : In p (opened l)) by (apply opened_in; eauto). destruct (open_live _ _ _ _ _ V I) as (L & IM & IC).
  unfold SignalUse, write. rewrite L. cbn. apply has_in in IM. apply has_in in IC. now rewrite IM, IC.
Qed.
Lemma used_inv s0 s l : started s0 -> used s0 s l -> exists lost, inv s0 s lost l.
Proof.
  intros (O & CD & MD & F) U. induction U.
  - exists []. constructor; auto; try reflexivity; try lia. now apply owns_start.
  - destruct IHU as (lost & V). destruct (create_inv _ _ _ _ a b c V) as (s1 & r1 & lost' & E & _ & _ & _ & V'). rewrite E in H. injection H as <- <-. now exists lost'.
  - destruct IHU as (lost & V). rewrite (use_inv _ _ _ _ _ _ V H) in H0. injection H0 as <-. now exists lost.
  - destruct IHU as (lost & V). destruct (close_inv _ _ _ _ _ _ V H) as (s1 & E & _ & V'). rewrite E in H0. injection H0 as <-. now exists lost.
  - destruct IHU as (lost & V). injection H as <-. now exists lost.
Qed.
