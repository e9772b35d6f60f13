(* The life of signals (threading.c) *)
From Verif Require Import SignalLifeProofs.
Local Open Scope Z_scope.

(* C117, always defined: after any uses, whichever calls fail, a signal can be created,
   and each one that is open can be used and closed; a creation succeeds if its calls
   do, and one that fails leaves the heap and the mutexes as they were *)
Theorem signal_life_defined : forall s0 s l, started s0 -> used s0 s l ->
  (forall a b c, exists s' r, SignalCreate s a b c = Some (s', r) /\ (r <> None <-> a = true /\ b = true /\ c = true) /\
    (r = None -> live (heap s') = live (heap s) /\ mutexes s' = mutexes s)) /\
  (forall k p, nth_error l k = Some (Open p) -> SignalUse s p = Some s /\ exists s', SignalClose s (Some p) = Some s') /\
  SignalClose s None = Some s.
Proof.
  intros s0 s l S U. destruct (used_inv _ _ _ S U) as (lost & V). split; [|split; [|reflexivity]].
  - intros a b c. destruct (create_inv _ _ _ _ a b c V) as (s1 & r1 & lost' & E & Q & R & _). exists s1, r1. auto.
  - intros k p N. split; [eapply use_inv; eassumption|]. destruct (close_inv _ _ _ _ _ _ V N) as (s1 & E & _). now exists s1.
Qed.
Print Assumptions signal_life_defined.

(* C117, the mutexes: those of the open signals and those before, so that all are
   given back when all signals are closed *)
Theorem signal_life_mutexes : forall s0 s l, started s0 -> used s0 s l -> Permutation (mutexes s) (opened l ++ mutexes s0).
Proof. intros s0 s l S U. destruct (used_inv _ _ _ S U) as (lost & V). exact (v_mutex _ _ _ _ V). Qed.
Print Assumptions signal_life_mutexes.

(* C117, the memory: the heap is the one before with a block for each signal that was
   given, be it open or closed *)
Theorem signal_life_memory : forall s0 s l, started s0 -> used s0 s l ->
  live (heap s) = map (fun p => (p, sizeofSignal)) (rev (allGiven l)) ++ live (heap s0).
Proof. intros s0 s l S U. destruct (used_inv _ _ _ S U) as (lost & V). exact (v_live _ _ _ _ V). Qed.
Print Assumptions signal_life_memory.

(* C117, refuted for memory: whatever is done, closing every signal leaves the heap as
   it was only if no signal was ever given *)
Theorem signal_life_memory_refuted : forall s0 s l, started s0 -> used s0 s l -> opened l = [] ->
  (live (heap s) = live (heap s0) <-> allGiven l = []).
Proof.
  intros s0 s l S U _. rewrite (signal_life_memory _ _ _ S U). split.
  - intros E. apply (f_equal (@List.length _)) in E. rewrite app_length, map_length, rev_length in E. destruct (allGiven l); [reflexivity|cbn in E; lia].
  - now intros ->.
Qed.
Print Assumptions signal_life_memory_refuted.

(* C117, the condition variables: those of the open signals, those before and those of
   the creations whose mutex could not be initialised *)
Theorem signal_life_conds : forall s0 s l, started s0 -> used s0 s l -> exists lost, Permutation (conds s) (opened l ++ lost ++ conds s0) /\
  (forall a b c s' r, SignalCreate s a b c = Some (s', r) -> (r = None -> conds s' = conds s) \/ (a = true /\ b = true /\ c = false)).
Proof.
  intros s0 s l S U. destruct (used_inv _ _ _ S U) as (lost & V). exists lost. split; [exact (v_conds _ _ _ _ V)|].
  intros a b c s' r E. destruct a, b, c; auto; left; intros ->; unfold SignalCreate in E; cbn [andb] in E;
    repeat match type of E with
    | context [alloc ?m ?n] => destruct (alloc m n)
    | context [match ?x with Some _ => _ | None => _ end] => destruct x; try discriminate E
    end; injection E as <-; reflexivity.
Qed.
Print Assumptions signal_life_conds.

(* C117, refuted for condition variables: if the mutex cannot be initialised NULL is
   returned and the condition variable stays, in memory that is freed *)
Theorem signal_life_conds_refuted : forall s0 s l, started s0 -> used s0 s l ->
  exists s' p, SignalCreate s true true false = Some (s', None) /\ conds s' = p :: conds s /\ sizeOf (live (heap s')) p = None.
Proof.
  intros s0 s l S U. destruct (used_inv _ _ _ S U) as (lost & V). destruct (create_inv _ _ _ _ true true false V) as (s1 & r1 & lost' & E & Q & _ & _ & V').
  pose proof E as E'. unfold SignalCreate, alloc, write, free in E'. cbn [live andb] in E'. cbn [sizeOf] in E'. rewrite Nat.eqb_refl in E'. cbn in E'. rewrite Nat.eqb_refl in E'. injection E' as E1 E2.
  subst r1. exists s1, (fresh (heap s)). split; [exact E|]. split; [now rewrite <- E1|].
  destruct (Q eq_refl) as (L & _). rewrite L. destruct (sizeOf (live (heap s)) (fresh (heap s))) eqn:Z; [|reflexivity].
  apply sizeOf_in in Z. apply (o_older _ _ _ (v_owns _ _ _ _ V)) in Z. lia.
Qed.
Print Assumptions signal_life_conds_refuted.

(* a block before, a creation for each of the calls that fails, two that succeed, uses,
   one closed *)
Definition before : signals := mkSignals (mkMem 3 [(1%nat, 5)]) [1%nat] [1%nat].
Example signal_life_example : started before /\
  used before (mkSignals (mkMem 7 [(6%nat, 96); (5%nat, 96); (1%nat, 5)]) [6%nat; 4%nat; 1%nat] [6%nat; 1%nat]) [NoSignal; NoSignal; NoSignal; Closed 5; Open 6].
Proof.
  split.
  - split; [intros p n [E|[]]; injection E as <- <-; cbn; lia|]. split; [repeat constructor; intros []|]. split; [repeat constructor; intros []|].
    intros p [[<-|[]]|[<-|[]]]; cbn; lia.
  - pose proof (used_none before) as U.
    eapply (used_create _ _ _ false true true _ None) in U; [|reflexivity].
    eapply (used_create _ _ _ true false true _ None) in U; [|reflexivity].
    eapply (used_create _ _ _ true true false _ None) in U; [|reflexivity].
    eapply (used_create _ _ _ true true true _ (Some 5%nat)) in U; [|reflexivity].
    eapply (used_create _ _ _ true true true _ (Some 6%nat)) in U; [|reflexivity].
    eapply (used_use _ _ _ 4 6) in U; [|reflexivity|reflexivity].
    eapply (used_close _ _ _ 3 5) in U; [|reflexivity|reflexivity].
    eapply used_null in U; [|reflexivity]. exact U.
Qed.
(* a signal that was closed cannot be used or closed, and one that was not created
   neither *)
Example signal_life_undefined :
  let s := mkSignals (mkMem 7 [(6%nat, 96); (5%nat, 96); (1%nat, 5)]) [6%nat; 4%nat; 1%nat] [6%nat; 1%nat] in
  (SignalUse s 5, SignalClose s (Some 5%nat), SignalUse s 2, SignalClose s (Some 4%nat)) = (None, None, None, None) /\
  SignalClose s (Some 6%nat) = Some (mkSignals (heap s) [4%nat; 1%nat] [1%nat]).
Proof. split; reflexivity. Qed.
