(* One shard of the cache refines a small machine: who holds which slot, what
   is stored in it, and the idle slots from most to least recently released. *)
From Coq Require Import List Arith ZArith Lia Bool Permutation.
Import ListNotations.
From Verif Require Import TreeModel TreeRep TreeInsert TreeDelete TreeOps TreeDeleteOps TreeSpec TreeRun CacheModel CacheList.

Section S.
  Context {D : Type}.

  Record ash := mkash { ah : nat -> nat; ao : nat -> option (Z * D); ai : list nat; au : nat }.

  Definition nodes (cap : nat) : list ptr := map tp (seq 0 cap).

  Record SI (cap : nat) (s : shard D) (a : ash) : Prop := {
    si_cap : capacity s = cap;
    si_al : CacheModel.allocated s = au a;
    si_le : au a <= cap;
    si_act : forall i, active s i = Z.of_nat (ah a i);
    si_h0 : forall i, au a <= i -> ah a i = 0;
    si_dll : sdll s (ai a);
    si_idle : forall i, In i (ai a) <-> i < au a /\ ah a i = 0;
    si_occ : forall i e, ao a i = Some e -> i < au a;
    si_data : forall i h d, ao a i = Some (h, d) -> data s i = d;
    si_tree : exists sp t, inv (nodes cap) (tree s) sp t /\
      (forall h i, In (h, tp i) (present sp) <-> exists d, ao a i = Some (h, d)) /\
      (forall i, i < cap -> ao a i = None -> In (tp i) (clean sp)) }.

  Lemma nodes_in cap i : In (tp i) (nodes cap) <-> i < cap.
  Proof.
    unfold nodes. rewrite in_map_iff. split.
    - intros (j & Hj & Hi). apply in_seq in Hi. unfold tp in Hj. lia.
    - intros H. exists i. split; auto. apply in_seq. lia.
  Qed.
  Lemma nodes_inv cap p : In p (nodes cap) -> exists i, i < cap /\ p = tp i.
  Proof.
    unfold nodes. rewrite in_map_iff. intros (j & Hj & Hi). apply in_seq in Hi.
    exists j. split; [lia|auto].
  Qed.
  Lemma nodes_length cap : length (nodes cap) = cap.
  Proof. unfold nodes. now rewrite map_length, seq_length. Qed.

  Lemma present_keys_nodup ns h sp t : inv ns h sp t -> NoDup (keys (present sp)).
  Proof.
    intros HI. eapply Permutation_NoDup; [apply Permutation_keys, HI|].
    pose proof (ti_s _ _ (i_t _ _ _ _ HI)) as Hs. unfold sorted in Hs.
    clear -Hs. induction Hs as [|a l Hs IH Hf]; constructor; auto.
    intros Hi. rewrite Forall_forall in Hf. apply Hf in Hi. lia.
  Qed.
  Lemma keys_inj (l : list (Z * ptr)) k p q : NoDup (keys l) -> In (k, p) l -> In (k, q) l -> p = q.
  Proof.
    induction l as [|e l IH]; cbn; [tauto|]. intros Hn [->|Hp] [E|Hq]; inversion Hn; subst; auto.
    - congruence.
    - exfalso. cbn in *. apply H1. apply in_map_iff. exists (k, q). auto.
    - exfalso. apply H1. cbn. apply in_map_iff. exists (k, p). auto.
  Qed.
  Lemma tp_inj i j : tp i = tp j -> i = j.
  Proof. unfold tp. lia. Qed.

  Lemma occ_inj cap s a i j h d d' : SI cap s a -> ao a i = Some (h, d) -> ao a j = Some (h, d') -> i = j.
  Proof.
    intros HS Hi Hj. destruct (si_tree _ _ _ HS) as (sp & t & HI & Hp & _).
    apply tp_inj. eapply (keys_inj (present sp) h); [eapply present_keys_nodup, HI| |]; apply Hp; eauto.
  Qed.

  (* lookups *)
  Lemma find_hit cap fuel s a i h d : SI cap s a -> bound cap <= fuel -> ao a i = Some (h, d) ->
    TreeFind fuel h (tree s) = Some (Some (tp i), tree s).
  Proof.
    intros HS Hf Ho. destruct (si_tree _ _ _ HS) as (sp & t & HI & Hp & _).
    rewrite (find_inv _ _ _ _ fuel h HI).
    - do 2 f_equal. apply (lookup_spec _ _ _ _ _ _ HI).
      eapply Permutation_in; [apply Permutation_sym, HI|]. apply Hp. eauto.
    - pose proof (length_present_le _ _ _ _ fuel HI). rewrite nodes_length in H. specialize (H Hf). lia.
  Qed.
  Lemma find_miss cap fuel s a h : SI cap s a -> bound cap <= fuel ->
    (forall i d, ao a i <> Some (h, d)) -> TreeFind fuel h (tree s) = Some (None, tree s).
  Proof.
    intros HS Hf Ho. destruct (si_tree _ _ _ HS) as (sp & t & HI & Hp & _).
    rewrite (find_inv _ _ _ _ fuel h HI).
    - destruct (lookup h sp) as [p|] eqn:E; auto. exfalso.
      apply (lookup_spec _ _ _ _ _ _ HI) in E. eapply Permutation_in in E; [|apply HI].
      assert (In p (nodes cap)) as Hn by (apply (i_in _ _ _ _ HI); apply in_map_iff; exists (h, p); auto).
      apply nodes_inv in Hn. destruct Hn as (i & _ & ->). apply Hp in E. destruct E as (d & E). eapply Ho, E.
    - pose proof (length_present_le _ _ _ _ fuel HI). rewrite nodes_length in H. specialize (H Hf). lia.
  Qed.

  Lemma set_tree_same (s : shard D) : set_tree (tree s) s = s.
  Proof. now destruct s. Qed.

  Definition ahit i a := mkash (fupd (ah a) i (S (ah a i))) (ao a) (List.remove Nat.eq_dec i (ai a)) (au a).
  Definition arel i a := mkash (fupd (ah a) i (pred (ah a i))) (ao a)
     (if Nat.eqb (ah a i) 1 then i :: ai a else ai a) (au a).
  Definition aload i e L u a := mkash (fupd (ah a) i 1) (fupd (ao a) i e) L u.

  Lemma remove_split i (L : list nat) : NoDup L -> In i L ->
    exists L1 L2, L = L1 ++ i :: L2 /\ List.remove Nat.eq_dec i L = L1 ++ L2.
  Proof.
    intros Hn Hi. apply in_split in Hi. destruct Hi as (L1 & L2 & ->). exists L1, L2. split; auto.
    apply NoDup_remove_2 in Hn. rewrite in_app_iff in Hn.
    rewrite remove_app. cbn. destruct (Nat.eq_dec i i); [|congruence].
    rewrite !notin_remove; auto.
  Qed.

  (* the invariant with only the idle list and counters changed *)
  Lemma SI_frame cap s s' a a' :
    SI cap s a -> tree s' = tree s -> data s' = data s -> CacheModel.allocated s' = CacheModel.allocated s ->
    capacity s' = capacity s -> ao a' = ao a -> au a' = au a ->
    (forall i, active s' i = Z.of_nat (ah a' i)) -> (forall i, au a <= i -> ah a' i = 0) ->
    sdll s' (ai a') -> (forall i, In i (ai a') <-> i < au a /\ ah a' i = 0) -> SI cap s' a'.
  Proof.
    intros [H1 H2 H3 H4 H5 H6 H7 H8 H9 H10] E1 E2 E3 E4 E5 E6 E7 E8 E9 E10.
    constructor; rewrite ?E1, ?E2, ?E3, ?E4, ?E5, ?E6; auto.
  Qed.

  Lemma get_hit cap fuel s a i h d ok d1 : SI cap s a -> bound cap <= fuel -> ao a i = Some (h, d) ->
    (Z.of_nat (ah a i) < INT_MAX)%Z ->
    exists s', shardGet fuel h ok d1 s = Some (OHit i d, s') /\ SI cap s' (ahit i a).
  Proof.
    intros HS Hf Ho Hm. unfold shardGet. rewrite (find_hit _ _ _ _ _ _ _ HS Hf Ho).
    replace (tp i - 3) with i by (unfold tp; lia). cbn zeta. rewrite set_tree_same.
    unfold cacheIncremenetCheckAndRemove. rewrite (si_act _ _ _ HS).
    destruct (Z.ltb_spec (Z.of_nat (ah a i)) INT_MAX); [|lia]. cbn zeta.
    cbn [active set_active]. rewrite fupd_eq.
    pose proof (si_occ _ _ _ HS _ _ Ho) as Hlt.
    set (s1 := set_active i _ s).
    assert (sdll s1 (ai a)) as Hd1 by apply HS.
    destruct (Z.eqb_spec (Z.of_nat (ah a i) + 1) 1) as [E|E].
    - assert (ah a i = 0) as E0 by lia.
      assert (In i (ai a)) as Hin by (apply (si_idle _ _ _ HS); auto).
      destruct (remove_split i (ai a)) as (L1 & L2 & EL & ER); [apply HS|auto|].
      rewrite EL in Hd1. destruct (remove_ok _ _ _ _ Hd1) as (R1 & R2 & R3 & R4 & R5 & R6).
      eexists. split; [rewrite R4; cbn [data s1 set_active]; now rewrite (si_data _ _ _ HS _ _ _ Ho)|].
      eapply SI_frame; eauto.
      + intros j. rewrite R3. cbn. unfold fupd. destruct (Nat.eqb_spec j i); [lia|apply HS].
      + intros j Hj. cbn. rewrite fupd_ne by lia. now apply HS.
      + cbn [ahit ai]. rewrite ER. exact R1.
      + intros j. cbn [ahit ai ah]. destruct (Nat.eq_dec j i) as [->|N].
        * rewrite fupd_eq. split; [|lia]. intros Hc. exfalso. eapply remove_In, Hc.
        * rewrite fupd_ne by auto. rewrite <- (si_idle _ _ _ HS). split.
          { intros Hc. eapply in_remove, Hc. } { intros Hc. now apply in_in_remove. }
    - eexists. split; [cbn [data s1 set_active]; now rewrite (si_data _ _ _ HS _ _ _ Ho)|].
      eapply SI_frame; eauto.
      + intros j. cbn. unfold fupd. destruct (Nat.eqb_spec j i); [lia|apply HS].
      + intros j Hj. cbn. rewrite fupd_ne by lia. now apply HS.
      + cbn [ahit ai]. rewrite notin_remove; auto. rewrite (si_idle _ _ _ HS). lia.
      + intros j. cbn [ahit ai ah]. rewrite notin_remove by (rewrite (si_idle _ _ _ HS); lia).
        destruct (Nat.eq_dec j i) as [->|N].
        * rewrite fupd_eq. rewrite (si_idle _ _ _ HS). lia.
        * rewrite fupd_ne by auto. apply HS.
  Qed.

  Lemma release_ok cap s a i : SI cap s a -> 0 < ah a i ->
    exists s', shardRelease i s = Some s' /\ SI cap s' (arel i a).
  Proof.
    intros HS Hp. unfold shardRelease. rewrite (si_act _ _ _ HS).
    destruct (Z.eqb_spec (Z.of_nat (ah a i)) 0); [lia|]. cbn zeta. cbn [active set_active]. rewrite fupd_eq.
    assert (i < au a) as Hlt.
    { destruct (Nat.lt_ge_cases i (au a)) as [|Hc]; auto. apply (si_h0 _ _ _ HS) in Hc. lia. }
    set (s1 := set_active i _ s).
    assert (sdll s1 (ai a)) as Hd1 by apply HS.
    assert (~ In i (ai a)) as Hni by (rewrite (si_idle _ _ _ HS); lia).
    destruct (Z.eqb_spec (Z.of_nat (ah a i) - 1) 0) as [E|E].
    - assert (ah a i = 1) as E1 by lia.
      destruct (addhead_ok s1 i (ai a) Hd1 Hni) as (s' & R0 & R1 & R2 & R3 & R4 & R5 & R6).
      exists s'. split; auto. eapply SI_frame; eauto.
      + intros j. rewrite R3. cbn. unfold fupd. destruct (Nat.eqb_spec j i); [lia|apply HS].
      + intros j Hj. cbn. rewrite fupd_ne by lia. now apply HS.
      + cbn [arel ai]. rewrite E1. exact R1.
      + intros j. cbn [arel ai ah]. rewrite E1. cbn [Nat.eqb pred In]. destruct (Nat.eq_dec j i) as [->|N].
        * rewrite fupd_eq. intuition.
        * rewrite fupd_ne by auto. rewrite <- (si_idle _ _ _ HS). intuition congruence.
    - exists s1. split; auto. eapply SI_frame; eauto.
      + intros j. cbn. unfold fupd. destruct (Nat.eqb_spec j i); [lia|apply HS].
      + intros j Hj. cbn. rewrite fupd_ne by lia. now apply HS.
      + cbn [arel ai]. destruct (Nat.eqb_spec (ah a i) 1); [lia|auto].
      + intros j. cbn [arel ai ah]. destruct (Nat.eqb_spec (ah a i) 1); [lia|].
        destruct (Nat.eq_dec j i) as [->|N].
        * rewrite fupd_eq. rewrite (si_idle _ _ _ HS). lia.
        * rewrite fupd_ne by auto. apply HS.
  Qed.

  Lemma onTree_op fuel o (s : shard D) h' : runOp fuel o (tree s) = Some (tt, h') ->
    onTree (runOp fuel o) s = Some (tt, set_tree h' s).
  Proof. intros H. unfold onTree. now rewrite H. Qed.

  Lemma has_node_occ sp (a : ash) i :
    (forall h i, In (h, tp i) (present sp) <-> exists d, ao a i = Some (h, d)) ->
    hasNode (tp i) sp = match ao a i with Some _ => true | None => false end.
  Proof.
    intros Hp. destruct (ao a i) as [(h, d)|] eqn:E.
    - apply hasNode_iff. unfold ids. apply in_map_iff. exists (h, tp i). split; auto. apply Hp. eauto.
    - destruct (hasNode (tp i) sp) eqn:Eh; auto. apply hasNode_iff in Eh. unfold ids in Eh.
      apply in_map_iff in Eh. destruct Eh as ((h, p) & E1 & E2). cbn in E1. subst p.
      apply Hp in E2. destruct E2 as (d & E2). congruence.
  Qed.

  (* after a slot was taken: its node is out of the tree and clean *)
  Definition taken cap (s : shard D) (a : ash) i : Prop :=
    exists sp t, inv (nodes cap) (tree s) sp t /\
      (forall h j, In (h, tp j) (present sp) <-> j <> i /\ exists d, ao a j = Some (h, d)) /\
      (forall j, j < cap -> ao a j = None \/ j = i -> In (tp j) (clean sp)).

  Lemma remove_taken cap fuel s a i sp t : i < cap -> bound cap <= fuel ->
    inv (nodes cap) (tree s) sp t ->
    (forall h j, In (h, tp j) (present sp) <-> j <> i /\ exists d, ao a j = Some (h, d)) ->
    (forall j, j < cap -> ao a j = None -> In (tp j) (clean sp)) ->
    exists h', onTree (TreeNodeRemove (tp i)) s = Some (tt, set_tree h' s) /\
      taken cap (set_tree h' s) a i.
  Proof.
    intros Hi Hf HI Hp Hc.
    assert (hasNode (tp i) sp = false) as Hno.
    { destruct (hasNode (tp i) sp) eqn:Eh; auto. apply hasNode_iff in Eh. unfold ids in Eh.
      apply in_map_iff in Eh. destruct Eh as ((h, p) & E1 & E2). cbn in E1. subst p. apply Hp in E2. tauto. }
    assert (step (nodes cap) sp (Remove (tp i)) = Some (mkspec (present sp) (tp i :: clean sp))) as Hs.
    { cbn [step]. rewrite Hno. now rewrite (proj2 (existsb_eqb _ _) (proj2 (nodes_in cap i) Hi)). }
    destruct (step_ok _ _ _ _ _ _ fuel HI Hs) as (h' & t' & E1 & E2 & _).
    { eapply length_present_le; eauto. now rewrite nodes_length. }
    exists h'. split; [exact (onTree_op fuel (Remove (tp i)) s h' E1)|].
    exists (mkspec (present sp) (tp i :: clean sp)), t'. split; [exact E2|]. split; [exact Hp|].
    intros j Hj [Ha| ->]; cbn [clean]; [right|left]; auto.
  Qed.

  Lemma finish cap fuel s a i L u h (ok : bool) d :
    bound cap <= fuel -> i < cap -> taken cap s a i ->
    capacity s = cap -> CacheModel.allocated s = u -> u <= cap -> i < u -> au a <= u ->
    (forall j, active s j = Z.of_nat (ah a j)) ->
    (forall j, u <= j -> ah a j = 0) -> sdll s L -> 
    (forall j, In j L <-> j < u /\ j <> i /\ ah a j = 0) ->
    (forall j e, ao a j = Some e -> j < au a) ->
    (forall j h d, ao a j = Some (h, d) -> data s j = d) ->
    (forall j d', ao a j <> Some (h, d')) ->
    exists s', (let s := set_data i d (set_active i 1%Z s) in
       if ok then
        match onTree (set_key h (tp i) ;;; TreeInsert fuel (tp i)) s with
        | Some (_, s') => Some (Some i, s')
        | None => None
        end
      else Some (Some i, s)) = Some (Some i, s') /\
      active s' i = 1%Z /\ data s' i = d /\
      SI cap s' (aload i (if ok then Some (h, d) else None) L u a).
  Proof.
    intros Hf Hi (sp & t & HI & Hp & Hc) Ecap Eal Hu Hiu Hau Hact Hh0 Hdll HL Hocc Hdat Hno.
    cbn zeta. set (s1 := set_data i d (set_active i 1%Z s)).
    assert (forall (s2 : shard D) (e : option (Z * D)), capacity s2 = capacity s -> CacheModel.allocated s2 = CacheModel.allocated s ->
      active s2 = active s1 -> data s2 = data s1 -> nxt s2 = nxt s -> prv s2 = prv s -> first s2 = first s -> last s2 = last s ->
      (forall h d', e = Some (h, d') -> d' = d) ->
      (exists sp t, inv (nodes cap) (tree s2) sp t /\
       (forall h j, In (h, tp j) (present sp) <-> exists d, fupd (ao a) i e j = Some (h, d)) /\
       (forall j, j < cap -> fupd (ao a) i e j = None -> In (tp j) (clean sp))) ->
      SI cap s2 (aload i e L u a)) as Hmk.
    { intros s2 e E1 E2 E3 E4 E5 E6 E7 E8 E9 E10.
      constructor; cbn [aload ah ao ai au]; auto.
      - congruence.
      - congruence.
      - intros j. rewrite E3. cbn. unfold fupd. destruct (Nat.eqb_spec j i); auto.
      - intros j Hj. rewrite fupd_ne by lia. auto.
      - unfold sdll. now rewrite E5, E6, E7, E8.
      - intros j. rewrite HL. unfold fupd. destruct (Nat.eqb_spec j i); [lia|tauto].
      - intros j x. unfold fupd. destruct (Nat.eqb_spec j i); [lia|]. intros Hx. apply Hocc in Hx. lia.
      - intros j h1 d1. rewrite E4. cbn. unfold fupd. destruct (Nat.eqb_spec j i); auto.
        + intros Hx. symmetry. eauto.
        + apply Hdat. }
    destruct ok.
    - assert (step (nodes cap) sp (Insert (tp i) h) =
        Some (mkspec ((h, tp i) :: present sp) (filter (fun q => negb (Nat.eqb (tp i) q)) (clean sp)))) as Hs.
      { cbn [step]. rewrite (proj2 (existsb_eqb _ _) (proj2 (nodes_in cap i) Hi)).
        assert (hasNode (tp i) sp = false) as ->.
        { destruct (hasNode (tp i) sp) eqn:Eh; auto. apply hasNode_iff in Eh. unfold ids in Eh.
          apply in_map_iff in Eh. destruct Eh as ((h1, p) & E1 & E2). cbn in E1. subst p. apply Hp in E2. tauto. }
        assert (hasKey h sp = false) as ->; [|reflexivity].
        destruct (hasKey h sp) eqn:Eh; auto. apply hasKey_iff in Eh. unfold keys in Eh.
        apply in_map_iff in Eh. destruct Eh as ((h1, p) & E1 & E2). cbn in E1. subst h1.
        assert (In p (nodes cap)) as Hn by (apply (i_in _ _ _ _ HI); apply in_map_iff; exists (h, p); auto).
        apply nodes_inv in Hn. destruct Hn as (j & _ & ->). apply Hp in E2. destruct E2 as (_ & d' & E2).
        exfalso. eapply Hno, E2. }
      destruct (step_ok _ _ _ _ _ _ fuel HI Hs) as (h' & t' & E1 & E2 & _).
      { eapply length_present_le; eauto. now rewrite nodes_length. }
      change (tree s) with (tree s1) in E1.
      pose proof (onTree_op fuel (Insert (tp i) h) s1 h' E1) as E3. cbn [runOp] in E3. rewrite E3.
      eexists. split; [reflexivity|]. split; [cbn; apply fupd_eq|]. split; [cbn; apply fupd_eq|].
      apply Hmk; auto.
      { intros h1 d' Hx. injection Hx. auto. }
      eexists _, t'. split; [exact E2|]. cbn [present clean]. split.
      + intros h1 j. cbn [In]. rewrite Hp. unfold fupd. destruct (Nat.eqb_spec j i) as [->|N].
        * split; [intros [Hx|Hx]; [|tauto]|intros (d' & Hx)]; [injection Hx as <-; eauto|left; congruence].
        * split; [intros [Hx|Hx]; [injection Hx; intros Hy; unfold tp in Hy; lia|tauto]|auto].
      + intros j Hj. unfold fupd. destruct (Nat.eqb_spec j i) as [->|N]; [discriminate|].
        intros Hx. apply filter_In. split; [apply Hc; auto|].
        apply negb_true_iff, Nat.eqb_neq. unfold tp. lia.
    - exists s1. split; [reflexivity|]. split; [cbn; apply fupd_eq|]. split; [cbn; apply fupd_eq|].
      apply Hmk; auto; [discriminate|].
      exists sp, t. split; [exact HI|]. split.
      + intros h1 j. rewrite Hp. unfold fupd. destruct (Nat.eqb_spec j i) as [->|N]; [|tauto].
        split; [tauto|intros (d' & Hx); discriminate].
      + intros j Hj. unfold fupd. destruct (Nat.eqb_spec j i) as [->|N]; auto.
  Qed.

  Definition outOf (ok : bool) i (d : D) := if ok then OLoaded i d else OFailed i d.

  Lemma get_new cap fuel s a h (ok : bool) d : SI cap s a -> bound cap <= fuel ->
    (forall i d, ao a i <> Some (h, d)) -> au a < cap ->
    exists s', shardGet fuel h ok d s = Some (outOf ok (au a) d, s') /\
      SI cap s' (aload (au a) (if ok then Some (h, d) else None) (ai a) (S (au a)) a).
  Proof.
    intros HS Hf Hno Hlt. unfold shardGet. rewrite (find_miss _ _ _ _ _ HS Hf Hno). rewrite set_tree_same.
    unfold cacheLoad, cacheGetNextFree. rewrite (si_al _ _ _ HS), (si_cap _ _ _ HS).
    rewrite (proj2 (Nat.ltb_lt _ _) Hlt).
    pose proof (si_tree _ _ _ HS) as (sp & t & HI & Hp & Hc).
    assert (ao a (au a) = None) as Hnone.
    { destruct (ao a (au a)) eqn:E; auto. apply (si_occ _ _ _ HS) in E. lia. }
    set (s1 := set_allocated _ s).
    destruct (remove_taken cap fuel s1 a (au a) sp t Hlt Hf) as (h' & E1 & E2); auto.
    { intros h1 j. rewrite Hp. split; [|tauto]. intros (d' & Hx). split; [|eauto]. intros ->. congruence. }
    rewrite E1.
    destruct (finish cap fuel (set_tree h' s1) a (au a) (ai a) (S (au a)) h ok d) as (s' & F1 & F2 & F3 & F4); auto.
    - apply HS.
    - apply HS.
    - intros j Hj. apply HS. lia.
    - apply HS.
    - intros j. rewrite (si_idle _ _ _ HS). destruct (Nat.eq_dec j (au a)) as [->|]; [|lia]. lia.
    - apply HS.
    - apply HS.
    - cbn zeta in F1. rewrite F1, F2. cbn [Z.ltb Z.compare]. rewrite F3.
      exists s'. destruct ok; auto.
  Qed.

  Lemma get_evict cap fuel s a h (ok : bool) d L i : SI cap s a -> bound cap <= fuel ->
    (forall i d, ao a i <> Some (h, d)) -> au a = cap -> ai a = L ++ [i] ->
    exists s', shardGet fuel h ok d s = Some (outOf ok i d, s') /\
      SI cap s' (aload i (if ok then Some (h, d) else None) L cap a).
  Proof.
    intros HS Hf Hno Hlt HL. unfold shardGet. rewrite (find_miss _ _ _ _ _ HS Hf Hno). rewrite set_tree_same.
    unfold cacheLoad, cacheGetNextFree. rewrite (si_al _ _ _ HS), (si_cap _ _ _ HS), Hlt, Nat.ltb_irrefl.
    pose proof (si_dll _ _ _ HS) as Hd. rewrite HL in Hd.
    assert (last s = Some i) as -> by (destruct Hd as (_ & _ & _ & -> & _); apply lsto_snoc).
    assert (In i (ai a)) as Hin by (rewrite HL; apply in_app_iff; right; now left).
    apply (si_idle _ _ _ HS) in Hin. destruct Hin as (Hi & Hi0).
    rewrite (si_act _ _ _ HS), Hi0. cbn [Z.of_nat Z.eqb].
    destruct (remove_ok _ _ _ _ Hd) as (R1 & R2 & R3 & R4 & R5 & R6). rewrite app_nil_r in R1.
    set (s1 := cacheRemoveFromList i s) in *.
    pose proof (si_tree _ _ _ HS) as (sp & t & HI & Hp & Hc).
    assert (exists sp', step (nodes cap) sp (Delete (tp i)) = Some sp' /\
      (forall h1 j, In (h1, tp j) (present sp') <-> j <> i /\ exists d, ao a j = Some (h1, d)) /\
      clean sp' = clean sp) as (sp' & Hs & Hp' & Hc').
    { cbn [step]. rewrite (has_node_occ sp a i Hp). destruct (ao a i) as [(h0, d0)|] eqn:Eo.
      - eexists. split; [reflexivity|]. cbn [present clean]. split; auto.
        intros h1 j. rewrite filter_In, Hp. cbn [snd]. rewrite negb_true_iff, Nat.eqb_neq.
        unfold tp. split; intros (A & B); split; auto; lia.
      - rewrite (proj2 (isClean_iff _ _)) by (apply Hc; [lia|auto]).
        exists sp. split; auto. split; auto. intros h1 j. rewrite Hp. split; [|tauto].
        intros (d' & Hx). split; [|eauto]. intros ->. congruence. }
    rewrite <- R2 in HI.
    destruct (step_ok _ _ _ _ _ _ fuel HI Hs) as (h1 & t1 & E1 & E2 & _).
    { eapply length_present_le; eauto. now rewrite nodes_length. }
    pose proof (onTree_op fuel (Delete (tp i)) s1 h1 E1) as E3. cbn [runOp] in E3. rewrite E3.
    destruct (remove_taken cap fuel (set_tree h1 s1) a i sp' t1) as (h2 & E4 & E5); auto; [lia| |].
    { rewrite Hc'. exact Hc. }
    rewrite E4.
    destruct (finish cap fuel (set_tree h2 (set_tree h1 s1)) a i L cap h ok d) as (s' & F1 & F2 & F3 & F4); auto.
    - lia.
    - change (capacity s1 = cap). rewrite R6. apply HS.
    - change (CacheModel.allocated s1 = cap). rewrite R5, (si_al _ _ _ HS). exact Hlt.
    - lia.
    - lia.
    - intros j. change (active s1 j = Z.of_nat (ah a j)). rewrite R3. apply HS.
    - intros j Hj. apply HS. lia.
    - intros j. rewrite <- Hlt.
      assert (In j L <-> In j (ai a) /\ j <> i) as ->.
      { rewrite HL, in_app_iff. cbn. split; [intros Hj; split; auto|intros ([Hj|[<-|[]]] & Hn); tauto].
        intros ->. assert (NoDup (L ++ [i])) as Hn by (rewrite <- HL; apply HS).
        apply NoDup_remove_2 in Hn. rewrite app_nil_r in Hn. auto. }
      rewrite (si_idle _ _ _ HS). tauto.
    - apply HS.
    - intros j h3 d3. change (data (set_tree h2 (set_tree h1 s1)) j) with (data s1 j). rewrite R4. apply HS.
    - cbn zeta in F1. rewrite F1, F2. cbn [Z.ltb Z.compare]. rewrite F3.
      exists s'. destruct ok; auto.
  Qed.

  Lemma get_null cap fuel s a h (ok : bool) d : SI cap s a -> bound cap <= fuel ->
    (forall i d, ao a i <> Some (h, d)) -> au a = cap -> ai a = [] ->
    shardGet fuel h ok d s = Some (ONull, s).
  Proof.
    intros HS Hf Hno Hlt HL. unfold shardGet. rewrite (find_miss _ _ _ _ _ HS Hf Hno). rewrite set_tree_same.
    unfold cacheLoad, cacheGetNextFree. rewrite (si_al _ _ _ HS), (si_cap _ _ _ HS), Hlt, Nat.ltb_irrefl.
    pose proof (si_dll _ _ _ HS) as Hd. rewrite HL in Hd.
    assert (last s = None) as -> by (destruct Hd as (_ & _ & _ & -> & _); reflexivity). reflexivity.
  Qed.

  Definition ainit : ash := mkash (fun _ => 0) (fun _ => None) [] 0.
  Lemma initNodes_same ns : CacheModel.initNodes ns = TreeSpec.initNodes (map tp ns).
  Proof. induction ns as [|i ns IH]; cbn; [auto|now rewrite IH]. Qed.
  Lemma shard_init h cap (d0 : D) :
    (forall p, p = ROOT \/ p = EMPTY \/ (exists i, i < cap /\ p = tp i) -> h p <> None) ->
    exists s, cacheInitShard h cap d0 = Some s /\ SI cap s ainit.
  Proof.
    intros Hm. destruct (init_ok (nodes cap) h) as (h' & E1 & HI & _).
    { split; [|split].
      - unfold nodes. apply FinFun.Injective_map_NoDup; [|apply seq_NoDup]. intros i j. apply tp_inj.
      - intros p Hp. apply nodes_inv in Hp. destruct Hp as (i & _ & ->). unfold tp. lia.
      - intros p [Hp|[-> | ->]]; apply Hm; auto. apply nodes_inv in Hp. eauto. }
    unfold cacheInitShard. rewrite initNodes_same.
    unfold initTree in E1. change (map tp (seq 0 cap)) with (nodes cap). rewrite E1.
    eexists. split; [reflexivity|]. constructor; cbn; auto; try lia; try discriminate.
    - split; [constructor|]. cbn. repeat split; auto.
    - exists (mkspec [] (nodes cap)), E. split; auto. cbn. split.
      + intros h1 i. split; [tauto|intros (d & Hd); discriminate].
      + intros i Hi _. now apply nodes_in.
  Qed.
End S.
