(* C120: cache.c with the mutex of each shard, step by step (LockModel.v).  Any number of threads call
   get and release; between two steps of one the others may do any number of theirs. *)
From Coq Require Import List Arith ZArith Lia Bool.
Import ListNotations.
From Verif Require Import TreeModel TreeSpec CacheModel CacheShard CacheSpec CacheRun CacheProps PropertiesCache LockModel LockSpec LockProofs LockRun LockProps LockCount.

(* each call is as if done all at once at its unlock: the effects are a history of CacheSpec.exec (so
   everything proved of those, C05 to C11, holds of the threads), they come from calls under way, and a
   shard that nobody has locked is as that history leaves it *)
Theorem lock_atomic :
  forall (D : Type) capacity conc slots hash fuel (c0 : cache D) n tr m,
  setup capacity conc slots hash fuel c0 -> lexec hash fuel c0 n tr m ->
  (exists c, exec hash fuel c0 (ended tr) c /\
    forall j, nth_error (owner m) j = Some None -> nth_error (shards (shared m)) j = nth_error (shards c) j) /\
  (forall t, t < n -> exists st, proper (ofThread t tr) st /\ (st = Out <-> ~ busy m t)).
Proof.
  intros D capacity conc slots hash fuel c0 n tr m HS He. split.
  - destruct (lexec_LI _ _ _ _ _ _ HS _ _ _ He) as (c & L). exists c. split; [apply L|]. intros j. eapply free_shards; eauto.
  - intros t Ht. assert (length (threads m) = n) as El.
    { clear HS Ht. induction He as [|tr m u a m' evs He IH Hu Hs]; [apply repeat_length|]. rewrite <- IH. unfold lstep in Hs.
      repeat match type of Hs with context [match ?x with _ => _ end] => destruct x; try discriminate end; injection Hs as <- <-; apply length_lupd. }
    destruct (nth_error (threads m) t) as [x|] eqn:Et; [|apply nth_error_None in Et; lia].
    exists (statusOf x). split; [exact (proper_all _ _ _ _ _ _ HS _ _ _ He _ _ Et)|]. unfold busy. rewrite Et. split.
    + intros E (y & Ey & Ny). injection Ey as <-. destruct x; try discriminate. contradiction.
    + intros Nb. destruct x; try reflexivity; exfalso; apply Nb; eexists; (split; [reflexivity|discriminate]).
Qed.
Print Assumptions lock_atomic.

(* no step is undefined and no assert fails, the one after the unlock included: a thread in a call that is
   not waiting for a lock another has can do its next step *)
Theorem lock_never_stuck :
  forall (D : Type) capacity conc slots hash fuel (c0 : cache D) n tr m t,
  setup capacity conc slots hash fuel c0 -> lexec hash fuel c0 n tr m -> busy m t -> ~ blocked m t ->
  exists m' evs, lstep hash fuel t Go m = Some (m', evs).
Proof. intros D capacity conc slots hash fuel c0 n tr m t HS He. destruct (lexec_LI _ _ _ _ _ _ HS _ _ _ He) as (c & L). eapply can_go; eauto. Qed.
Print Assumptions lock_never_stuck.

(* no two threads are inside the same shard *)
Theorem lock_excludes :
  forall (D : Type) capacity conc slots hash fuel (c0 : cache D) n tr m t u j,
  setup capacity conc slots hash fuel c0 -> lexec hash fuel c0 n tr m -> inside m t j -> inside m u j -> t = u.
Proof. intros D capacity conc slots hash fuel c0 n tr m t u j HS He. destruct (lexec_LI _ _ _ _ _ _ HS _ _ _ He) as (c & L). eapply inside_one; eauto. Qed.
Print Assumptions lock_excludes.

(* no deadlock, and every call ends: while a thread is in a call one of them can do a step, and together
   they do at most 15 for each thread in a call before a new call begins *)
Theorem lock_finishes :
  forall (D : Type) capacity conc slots hash fuel (c0 : cache D) n tr m,
  setup capacity conc slots hash fuel c0 -> lexec hash fuel c0 n tr m ->
  ((exists t, busy m t) -> exists t m' evs, lstep hash fuel t Go m = Some (m', evs)) /\
  (forall k m', goes hash fuel k m m' -> k <= 15 * sum working (threads m)).
Proof.
  intros D capacity conc slots hash fuel c0 n tr m HS He. destruct (lexec_LI _ _ _ _ _ _ HS _ _ _ He) as (c & L). split.
  - eapply no_deadlock; eauto.
  - intros k m'. eapply goes_bound; eauto.
Qed.
Print Assumptions lock_finishes.

(* from the unlock of a get that returned a slot with data d and for as long as it is held, its memory has
   d at every step of any thread, although it is read with no lock *)
Theorem lock_data_kept :
  forall (D : Type) capacity conc slots hash fuel (c0 : cache D) n tr m tr1 tr0 e k j i d,
  setup capacity conc slots hash fuel c0 -> lexec hash fuel c0 n tr m ->
  ended tr = tr1 ++ e :: tr0 -> e = Hit k (j, i) d \/ e = Load k (j, i) true d ->
  (forall tr2 tr3, tr1 = tr2 ++ tr3 -> 0 < held (tr3 ++ e :: tr0) (j, i)) ->
  exists s, nth_error (shards (shared m)) j = Some s /\ data s i = d.
Proof.
  intros D capacity conc slots hash fuel c0 n tr m tr1 tr0 e k j i d HS He Ee Hk Hh. destruct (lexec_LI _ _ _ _ _ _ HS _ _ _ He) as (c & L).
  pose proof (l_ex _ _ _ _ _ _ L) as Ex. rewrite Ee in Ex.
  destruct (cache_entry_in_use_is_stable _ _ _ _ _ _ _ _ _ _ _ _ _ _ HS Hk Ex Hh) as (Ho & _).
  apply (data_kept _ _ _ _ _ _ HS _ _ _ _ _ k _ L); rewrite Ee; [exact Ho|exact (Hh [] tr1 eq_refl)].
Qed.
Print Assumptions lock_data_kept.

(* with one shard the counters are exact whenever nobody is inside: hits are the gets that found their
   key, misses the others *)
Theorem lock_counters_one_shard :
  forall (D : Type) capacity slots hash fuel (c0 : cache D) n tr m,
  setup capacity 1 slots hash fuel c0 -> lexec hash fuel c0 n tr m -> (forall t j, ~ inside m t j) ->
  hits (shared m) = (Z.of_nat (countEv isHit (ended tr)) mod 2 ^ 64)%Z /\
  misses (shared m) = (Z.of_nat (countEv (fun e => isLoad e || isRefused e) (ended tr)) mod 2 ^ 64)%Z.
Proof.
  intros D capacity slots hash fuel c0 n tr m HS He Ni. destruct (lc_all _ _ _ _ _ HS _ _ _ He) as (H & _). specialize (H Ni). split; [exact (H true)|exact (H false)].
Qed.
Print Assumptions lock_counters_one_shard.

(* ---- executions of two threads *)
Definition lockUsedb (hash : Z -> Z) (tr : list (levent Z)) (m : machine Z) (a : laction Z) : bool :=
  match a with
  | Call (Get k _ _) => negb (Z.eqb (toInt32 (hash k)) (- 2 ^ 31)) && Nat.ltb (length (ended tr) + sum getting (threads m)) 1000
  | Call (Release s) => Nat.ltb (sum (tied s) (threads m)) (held (ended tr) s)
  | Go => true
  end.
Fixpoint lruns (hash : Z -> Z) (fuel : nat) (l : list (nat * laction Z)) (tr : list (levent Z)) (m : machine Z) : option (list (levent Z) * machine Z) :=
  match l with
  | [] => Some (tr, m)
  | (t, a) :: l => if lockUsedb hash tr m a then match lstep hash fuel t a m with Some (m, evs) => lruns hash fuel l (evs ++ tr) m | None => None end else None
  end.
Lemma lruns_exec hash fuel c0 n : forall l tr m tr' m', lexec hash fuel c0 n tr m -> lruns hash fuel l tr m = Some (tr', m') -> lexec hash fuel c0 n tr' m'.
Proof.
  induction l as [|(t, a) l IH]; intros tr m tr' m' He H; cbn [lruns] in H; [injection H as <- <-; exact He|].
  destruct (lockUsedb hash tr m a) eqn:Eu; [|discriminate]. destruct (lstep hash fuel t a m) as [(m1, evs)|] eqn:Es; [|discriminate].
  eapply IH; [|exact H]. econstructor; [exact He| |exact Es]. destruct a as [[k ok d|s]|]; cbn [lockUsedb lockUsed] in *; [| |exact Logic.I].
  - apply andb_true_iff in Eu. destruct Eu as (E1 & E2). apply negb_true_iff, Z.eqb_neq in E1. apply Nat.ltb_lt in E2. split; [exact E1|]. intros s. pose proof (held_length (ended tr) s). lia.
  - apply Nat.ltb_lt. exact Eu.
Qed.
Definition lockCache (capacity conc : Z) : cache Z := match cacheCreate exHeap capacity conc 0%Z with Some (Some c) => c | _ => mkcache [] 0 0 end.
Lemma two_setup : setup 4 2 2 (fun k => k) 10 (lockCache 4 2).
Proof.
  split; [lia|]. split; [lia|]. split; [auto|]. split; [reflexivity|]. split; [|vm_compute; lia]. exists exHeap, 0%Z. split; [intros p _; discriminate|]. vm_compute. reflexivity.
Qed.
Lemma one_setup : setup 2 1 2 (fun k => k) 10 (lockCache 2 1).
Proof.
  split; [lia|]. split; [lia|]. split; [auto|]. split; [reflexivity|]. split; [|vm_compute; lia]. exists exHeap, 0%Z. split; [intros p _; discriminate|]. vm_compute. reflexivity.
Qed.
Definition begin (c : cache Z) : machine Z := machineInit c 2.
Definition gos (t n : nat) : list (nat * laction Z) := repeat (t, Go) n.
Definition seen (r : option (list (levent Z) * machine Z)) : option (list (levent Z) * list (option nat) * Z * Z) :=
  option_map (fun x => (fst x, owner (snd x), hits (shared (snd x)), misses (shared (snd x)))) r.
(* one shard: thread 0 gets key 5 and is stopped in the middle; thread 1 wants key 5 too and cannot have
   the lock; 0 goes on to its unlock, 1 hits and returns, 0 returns; both release *)
Definition scheduleOne : list (nat * laction Z) :=
  [(0%nat, Call (Get 5 true 50%Z)); (1%nat, Call (Get 5 true 51%Z))] ++ gos 0 12 ++ gos 1 7 ++ gos 0 1 ++ gos 1 1.
Definition scheduleRest : list (nat * laction Z) :=
  [(0%nat, Call (Release (0, 0)%nat)); (1%nat, Call (Release (0, 0)%nat))] ++ gos 0 3 ++ gos 1 4.
Definition ids : Z -> Z := fun k => k.
Example lock_cases :
  seen (lruns ids 10 scheduleOne [] (begin (lockCache 2 1))) =
    Some ([Returned 1; Returned 0; Ended 1 (Hit 5 (0, 0)%nat 50%Z); Ended 0 (Load 5 (0, 0)%nat true 50%Z); Began 1 (Get 5 true 51%Z); Began 0 (Get 5 true 50%Z)], [None], 1%Z, 1%Z) /\
  option_map (fun x => firstn 6 (fst x)) (lruns ids 10 (scheduleOne ++ scheduleRest) [] (begin (lockCache 2 1))) =
    Some [Returned 1; Ended 1 (Rel (0, 0)%nat); Returned 0; Ended 0 (Rel (0, 0)%nat); Began 1 (Release (0, 0)%nat); Began 0 (Release (0, 0)%nat)] /\
  seen (lruns ids 10 ((0%nat, Call (Get 5 false 50%Z)) :: gos 0 10) [] (begin (lockCache 2 1))) = Some ([Ended 0 (Load 5 (0, 0)%nat false 50%Z); Began 0 (Get 5 false 50%Z)], [None], 0%Z, 1%Z) /\
  lruns ids 10 (firstn 8 scheduleOne ++ gos 1 1) [] (begin (lockCache 2 1)) = None.
Proof. vm_compute. auto 6. Qed.
Definition shape (x : tstate Z) : option (nat * nat) :=
  match x with Idle => None | Want _ j => Some (0, j) | Inside _ j _ => Some (1, j) | Assert j i => Some (2, j) end.
Lemma lruns_case {A} (f : list (levent Z) -> machine Z -> A) c l v : match lruns ids 10 l [] (begin c) with Some (tr, m) => Some (f tr m) | None => None end = Some v ->
  exists tr m, lexec ids 10 c 2 tr m /\ f tr m = v.
Proof.
  intros E. destruct (lruns ids 10 l [] (begin c)) as [(tr, m)|] eqn:R; [|discriminate]. injection E as <-. exists tr, m. split; auto. eapply lruns_exec; [constructor|exact R].
Qed.
Lemma shape_idle m : map shape (threads m) = [None; None] -> forall t, ~ busy m t.
Proof.
  intros E t (x & H & N). destruct (threads m) as [|a [|b [|? ?]]]; try discriminate. injection E as Ea Eb. destruct t as [|[|t]]; cbn in H; [| |destruct t; discriminate]; injection H as <-; [destruct a|destruct b]; try discriminate; contradiction.
Qed.
(* the hypotheses hold of those: an execution with both in a call, one inside and the other blocked, and its
   end with the slot held by two *)
Example lock_executions :
  (exists tr m, lexec ids 10 (lockCache 2 1) 2 tr m /\ inside m 0 0 /\ blocked m 1 /\ sum working (threads m) = 2) /\
  (exists tr m, lexec ids 10 (lockCache 2 1) 2 tr m /\ held (ended tr) (0, 0)%nat = 2 /\ ended tr = [Hit 5 (0, 0)%nat 50%Z; Load 5 (0, 0)%nat true 50%Z] /\ (forall t j, ~ inside m t j)).
Proof.
  split.
  - destruct (lruns_case (fun tr m => (map shape (threads m), owner m)) (lockCache 2 1) (firstn 8 scheduleOne) ([Some (1, 0); Some (0, 0)], [Some 0])) as (tr & m & X & E); [vm_compute; reflexivity|].
    injection E as E Eo. destruct (threads m) as [|a [|b [|? ?]]] eqn:Et; try discriminate. injection E as Ea Eb. destruct a; try discriminate. destruct b; try discriminate. cbn in Ea, Eb. injection Ea as ->. injection Eb as ->.
    exists tr, m. split; [exact X|]. unfold inside, blocked. rewrite Et, Eo. split; [eexists _, _; reflexivity|]. split; [|reflexivity]. eexists _, 0, 0. split; reflexivity.
  - destruct (lruns_case (fun tr m => (ended tr, map shape (threads m))) (lockCache 2 1) scheduleOne ([Hit 5 (0, 0)%nat 50%Z; Load 5 (0, 0)%nat true 50%Z], [None; None])) as (tr & m & X & E); [vm_compute; reflexivity|].
    injection E as E Es. exists tr, m. split; [exact X|]. rewrite E. split; [reflexivity|]. split; [reflexivity|]. intros t j (o & p & H). apply (shape_idle m Es t). eexists. split; [exact H|discriminate].
Qed.

(* refuted with more shards: "cache->misses++" of two threads with the locks of different shards, both load
   the counter, both store; two misses, and when both returned one is counted *)
Definition scheduleLost : list (nat * laction Z) :=
  [(0%nat, Call (Get 0 true 50%Z)); (1%nat, Call (Get 1 true 51%Z))] ++ gos 0 9 ++ gos 1 13 ++ gos 0 4.
Theorem lock_counters_refuted :
  exists tr m, setup 4 2 2 ids 10 (lockCache 4 2) /\ lexec ids 10 (lockCache 4 2) 2 tr m /\ (forall t, ~ busy m t) /\ countEv isLoad (ended tr) = 2 /\ misses (shared m) = 1%Z.
Proof.
  destruct (lruns_case (fun tr m => (map shape (threads m), countEv isLoad (ended tr), misses (shared m))) (lockCache 4 2) scheduleLost ([None; None], 2, 1%Z)) as (tr & m & X & E); [vm_compute; reflexivity|].
  injection E as Es E1 E2. exists tr, m. split; [exact two_setup|]. split; [exact X|]. split; [exact (shape_idle m Es)|]. auto.
Qed.
Print Assumptions lock_counters_refuted.
(* refuted: all uses of a node are made with the lock of its shard.  The assert of 413 reads activeCount
   after the unlock: here it is the next step of thread 0 while the next of thread 1, inside, writes it *)
Definition writesNext (m : machine Z) : bool :=
  match threads m, shards (shared m) with
  | [Assert 0 0; Inside _ 0 (Access f)], [s] => match f s with Some (_, s') => negb (Z.eqb (active s' 0%nat) (active s 0%nat)) | None => false end
  | _, _ => false
  end.
Theorem lock_assert_race_refuted :
  exists tr m o f s p s', setup 2 1 2 ids 10 (lockCache 2 1) /\ lexec ids 10 (lockCache 2 1) 2 tr m /\
    nth_error (threads m) 0 = Some (Assert 0 0) /\ nth_error (threads m) 1 = Some (Inside o 0 (Access f)) /\
    nth_error (shards (shared m)) 0 = Some s /\ f s = Some (p, s') /\ active s' 0 <> active s 0.
Proof.
  destruct (lruns_case (fun tr m => writesNext m) (lockCache 2 1) ([(0%nat, Call (Get 5 true 50%Z)); (1%nat, Call (Get 5 true 51%Z))] ++ gos 0 12 ++ gos 1 2) true) as (tr & m & X & E); [vm_compute; reflexivity|].
  unfold writesNext in E. destruct (threads m) as [|[| | |[] []] [|[| |o [] [|f| |]|] []]] eqn:Et; try discriminate. destruct (shards (shared m)) as [|s []] eqn:Es; try discriminate.
  destruct (f s) as [(p, s')|] eqn:Ef; [|discriminate]. apply negb_true_iff, Z.eqb_neq in E. exists tr, m, o, f, s, p, s'. rewrite Et, Es. split; [exact one_setup|]. auto 8.
Qed.
Print Assumptions lock_assert_race_refuted.
