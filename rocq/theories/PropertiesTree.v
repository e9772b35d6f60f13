(* C01 - C04: the tree (tree.c). *)
From Coq Require Import Permutation.
From Verif Require Import TreeModel TreeSpec TreeRep TreeOps TreeRun.

(* C01: any history of calls on the tree refines the finite map [step];
   memory other than the nodes and the root record is untouched. *)
Theorem tree_is_finite_map :
  forall ns h0 os s fuel,
  allocated ns h0 -> steps ns (mkspec [] ns) os = Some s -> bound (length ns) <= fuel ->
  exists h, (initTree ns ;;; runOps fuel os) h0 = Some (tt, h) /\
    (forall k, TreeFind fuel k h = Some (lookup k s, h)) /\
    (forall q, ~ In q ns -> q <> ROOT -> q <> EMPTY -> h q = h0 q).
Proof.
  intros ns h0 os s fuel Ha Hs Hf.
  destruct (reached ns h0 os s fuel Ha Hs Hf) as (h & t & E1 & HI & F).
  exists h. split; [exact E1|]. split; [|exact F]. intros k. eapply find_inv; eauto.
  pose proof (length_present_le _ _ _ _ _ HI Hf). lia.
Qed.
Print Assumptions tree_is_finite_map.

(* C02: every path of links from the first node that ends on a node has at
   most 2 log2(n+1) nodes, n being the number of nodes now present; and this
   many loop iterations (plus two) suffice for every operation whatever the
   history was. *)
Theorem tree_balanced :
  forall ns h0 os s fuel,
  allocated ns h0 -> steps ns (mkspec [] ns) os = Some s -> bound (length ns) <= fuel ->
  exists h first, (initTree ns ;;; runOps fuel os) h0 = Some (tt, h) /\
    ld left ROOT h = Some (first, h) /\
    (forall ds q h', descend ds first h = Some (q, h') -> q <> EMPTY ->
       S (length ds) <= 2 * Nat.log2 (length (present s) + 1)) /\
    (forall k, TreeFind (2 * Nat.log2 (length (present s) + 1) + 1) k h = Some (lookup k s, h)) /\
    (forall o s', step ns s o = Some s' ->
       exists h', runOp (2 * Nat.log2 (length (present s) + 1) + 2) o h = Some (tt, h')).
Proof.
  intros ns h0 os s fuel Ha Hs Hf.
  destruct (reached ns h0 os s fuel Ha Hs Hf) as (h & t & E1 & HI & F).
  exists h, (rid t). split; [exact E1|].
  pose proof (i_t _ _ _ _ HI) as Ht. split; [|split; [|split]].
  - apply (ld_ok left _ _ _ (rz_c _ _ _ (ti_z _ _ Ht))).
  - intros ds q h' Hd Hq. destruct (ti_e _ _ Ht) as (ep & He).
    pose proof (descend_height _ _ _ _ _ _ _ He (rz_t _ _ _ (ti_z _ _ Ht)) Hd Hq) as H1.
    pose proof (inv_height _ _ _ _ HI) as H2. unfold bound in H2. lia.
  - intros k. eapply find_inv; eauto. unfold bound. lia.
  - intros o s' Ho. destruct (step_ok _ _ _ _ _ _ (bound (length (present s))) HI Ho (le_n _)) as (h' & t' & E2 & _).
    exists h'. exact E2.
Qed.
Print Assumptions tree_balanced.

(* C03 *)
Theorem tree_iterates_each_node_once :
  forall ns h0 os s fuel,
  allocated ns h0 -> steps ns (mkspec [] ns) os = Some s -> bound (length ns) <= fuel ->
  exists h visited, (initTree ns ;;; runOps fuel os) h0 = Some (tt, h) /\
    TreeIterateNodes fuel h = Some (visited, h) /\
    Permutation visited (map snd (present s)) /\ NoDup visited /\
    TreeCount fuel h = Some (Z.of_nat (length (present s)) mod 2 ^ 32, h)%Z.
Proof.
  intros ns h0 os s fuel Ha Hs Hf.
  destruct (reached ns h0 os s fuel Ha Hs Hf) as (h & t & E1 & HI & F).
  pose proof (i_t _ _ _ _ HI) as Ht.
  pose proof (inv_height _ _ _ _ HI) as H2. pose proof (length_present_le _ _ _ _ _ HI Hf) as H3.
  exists h, (postorder t). split; [exact E1|]. split; [|split; [|split]].
  - apply TreeIterate_ok; auto. lia.
  - etransitivity; [apply postorder_perm|]. apply Permutation_ids, HI.
  - eapply Permutation_NoDup; [apply Permutation_sym, postorder_perm|].
    eapply repz_nodup, ti_z, Ht.
  - rewrite (TreeCount_ok _ t); auto; [|lia]. now rewrite (proj1 (inv_size _ _ _ _ HI)).
Qed.
Print Assumptions tree_iterates_each_node_once.

(* C04: the operations succeed even in a memory from which everything but the
   nodes present, the node operated on and the root record has been removed,
   so they finish and touch nothing else. *)
Theorem tree_operations_stay_inside :
  forall ns h0 os s fuel,
  allocated ns h0 -> steps ns (mkspec [] ns) os = Some s -> bound (length ns) <= fuel ->
  exists h, (initTree ns ;;; runOps fuel os) h0 = Some (tt, h) /\
    (forall k, let m := only (map snd (present s)) h in
       TreeFind fuel k m = Some (lookup k s, m)) /\
    (forall o s', step ns s o = Some s' ->
       exists h', runOp fuel o (only (opNode o :: map snd (present s)) h) = Some (tt, h')).
Proof.
  intros ns h0 os s fuel Ha Hs Hf.
  destruct (reached ns h0 os s fuel Ha Hs Hf) as (h & t & E1 & HI & F).
  pose proof (length_present_le _ _ _ _ _ HI Hf) as H3.
  exists h. split; [exact E1|]. split.
  - intros k. eapply find_only; eauto. lia.
  - intros o s' Ho. eapply op_only; eauto.
Qed.
Print Assumptions tree_operations_stay_inside.

(* A history that meets the hypotheses: ten nodes, inserts in an order that
   needs rotations, deletes of inner nodes with two children, of a clean node,
   and a re-insert of a deleted node. *)
Definition exNs := [3; 4; 5; 6; 7; 8; 9; 10; 11; 12].
Definition exH : heap := fun q => if Nat.ltb q 13 then Some (mk 99 99 99 true 77%Z) else None.
Definition exOps :=
  [Insert 3 10; Insert 4 20; Insert 5 30; Insert 6 15; Insert 7 17; Insert 8 (-4);
   Insert 9 16; Delete 6; Delete 12; Delete 4; Remove 4; Insert 4 18; Insert 10 19;
   Delete 7; Delete 3]%Z.
Definition exS := mkspec [(19%Z, 10); (18%Z, 4); (16%Z, 9); ((-4)%Z, 8); (30%Z, 5)] [11; 12].

Example tree_example_hypotheses :
  allocated exNs exH /\ steps exNs (mkspec [] exNs) exOps = Some exS /\ bound (length exNs) <= 8.
Proof.
  split; [|split; [vm_compute; reflexivity | vm_compute; lia]].
  split; [repeat constructor; cbn; intuition lia|]. split.
  - intros p Hp. cbn in Hp. lia.
  - intros p Hp. unfold exH, ROOT, EMPTY in *. destruct (Nat.ltb_spec p 13); [discriminate|].
    cbn in Hp. lia.
Qed.
Example tree_example_run :
  match (initTree exNs ;;; runOps 8 exOps) exH with
  | Some (_, h) => (TreeFind 8 16 h, TreeFind 8 17 h, TreeCount 8 h)
  | None => (None, None, None)
  end = match (initTree exNs ;;; runOps 8 exOps) exH with
  | Some (_, h) => (Some (Some 9, h), Some (None, h), Some (5%Z, h))
  | None => (None, None, None)
  end.
Proof. vm_compute. reflexivity. Qed.
