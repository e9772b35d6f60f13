(* C17 - C20, C59, C60: the pool (pool.c).  Histories are those of
   PoolSpec.exec: every interleaving of the shared memory accesses of any
   number of threads that release only what they hold. *)
From Verif Require Import CacheModel PoolModel PoolSpec PoolProofs.

(* a concrete history: 2 items, 3 threads.  Thread 0 reads the head and next,
   thread 1 gets an item in between, so thread 0's exchange fails and it
   retries; thread 2 finds nothing; thread 1 releases and thread 2 gets. *)
Definition exSched : list (nat * action) :=
  [(0, CallGet); (0, Continue); (0, Continue);
   (1, CallGet); (1, Continue); (1, Continue); (1, Continue);
   (0, Continue); (0, Continue); (0, Continue); (0, Continue);
   (2, CallGet); (2, Continue); (2, Continue);
   (1, CallRelease 2); (1, Continue); (1, Continue); (1, Continue);
   (2, CallGet); (2, Continue); (2, Continue); (2, Continue)].
Definition exTrace : list event :=
  [Got 2 2; Read 2; GetBegin 2; RelEnd 1 2; RelBegin 1 2; Exhausted 2; Read 2; GetBegin 2;
   Got 0 1; Read 0; Got 1 2; Read 1; GetBegin 1; Read 0; GetBegin 0].
Example pool_example : exists p0 p, fresh 2 3 p0 /\ exec window p0 exTrace p /\
  forall t, t < 3 -> nth_error (threads p) t = Some TIdle.
Proof.
  eexists. destruct (runSched exSched [] (mkpool [0; 0; 1] [false; true; true] (mkhead 2 0) 0 (repeat TIdle 3)))
    as [(tr, p)|] eqn:E; [|vm_compute in E; discriminate].
  exists p. split; [reflexivity|]. split.
  - assert (tr = exTrace) as <- by (vm_compute in E; injection E as <- _; reflexivity).
    eapply runSched_window; [constructor| |exact E]. vm_compute. reflexivity.
  - vm_compute in E. injection E as _ <-. intros [|[|[|t]]] Ht; try reflexivity. lia.
Qed.

(* C17.  Whenever a get hands out an item, nobody held or was releasing it. *)
Theorem pool_item_has_one_user :
  forall n nthreads p0 tr p, (Z.of_nat n < 2 ^ 16 - 1)%Z -> fresh n nthreads p0 -> exec window p0 tr p ->
  forall tr1 t i tr2, tr = tr1 ++ Got t i :: tr2 -> 1 <= i <= n /\ status tr2 i = Free.
Proof.
  intros n nt p0 tr p Hn Hf He tr1 t i tr2 E.
  destruct (exec_event _ _ _ _ He _ _ _ E) as (t' & a & p1 & p2 & He1 & Hw & Hwin & Hs & _).
  destruct (exec_PI _ _ _ Hn Hf _ _ He1) as (L & HI).
  unfold pstep in Hs. unfold window in Hwin. destruct (nth_error (threads p1) t') as [x|] eqn:Et; [|discriminate].
  pose proof (pi_thr _ _ _ _ HI _ _ Et) as Hx.
  destruct x; destruct a; try discriminate;
    repeat match type of Hs with context [match ?x with _ => _ end] => destruct x eqn:?; try discriminate end.
  injection Hs as _ <- <-. cbn in Hx. destruct Hx as (A & B & C & D & _).
  match goal with H : head_eqb _ _ = true |- _ => apply head_eqb_eq in H; rename H into Eh end.
  apply (pi_free _ _ _ _ HI). pose proof (pi_chain _ _ _ _ HI) as Hc. rewrite Eh in Hc.
  destruct L as [|b L]; cbn in Hc; [lia|]. destruct Hc as (-> & _). now left.
Qed.
Print Assumptions pool_item_has_one_user.
Example pool_item_has_one_user_case : exTrace = [] ++ Got 2 2 :: tl exTrace /\ status (tl exTrace) 2 = Free /\
  status (skipn 4 exTrace) 2 = Releasing 1 /\ status (skipn 5 exTrace) 2 = Held.
Proof. repeat split. Qed.

(* C18.  At every moment each item is free, held, or being released by one
   thread, which is then inside its release of that item; when all threads are
   idle, a thread running alone is handed every free item exactly once before
   it is refused. *)
Theorem pool_conserves_items :
  forall n nthreads p0 tr p, (Z.of_nat n < 2 ^ 16 - 1)%Z -> fresh n nthreads p0 -> exec window p0 tr p ->
  (forall i t, status tr i = Releasing t -> exists x, nth_error (threads p) t = Some x /\
     (x = TRel i \/ (exists o v, x = TRelRead i o v) \/ (exists o v, x = TRelNext i o v))) /\
  (forall t, nth_error (threads p) t = Some TIdle -> exists L,
     NoDup L /\ (forall i, In i L <-> 1 <= i <= n /\ status tr i = Free) /\
     soloGets t (length L + 1) p = Some (map (Got t) L ++ [Exhausted t])) /\
  ((forall t x, nth_error (threads p) t = Some x -> x = TIdle) ->
     forall i, 1 <= i <= n -> status tr i = Held \/ status tr i = Free).
Proof.
  intros n nt p0 tr p Hn Hf He. destruct (exec_PI _ _ _ Hn Hf _ _ He) as (L & HI). split; [|split].
  - intros i t Hi. destruct (pi_rel _ _ _ _ HI _ _ Hi) as (x & Hx & Hm). exists x. split; auto.
    destruct x; try contradiction; subst; eauto.
  - intros t Ht. exists L. split; [apply HI|]. split; [apply HI|]. eapply solo_all; eauto.
  - intros Ha i Hi. destruct (status tr i) eqn:E; auto.
    destruct (pi_rel _ _ _ _ HI _ _ E) as (x & Hx & Hm). rewrite (Ha _ _ Hx) in Hm. contradiction.
Qed.
Print Assumptions pool_conserves_items.
Example pool_conserves_items_case : status exTrace 1 = Held /\ status (skipn 3 exTrace) 2 = Free.
Proof. split; reflexivity. Qed.

(* C18.  A get is refused only if, when it read the head during this very
   call, no item was free. *)
Theorem pool_refuses_only_when_empty :
  forall n nthreads p0 tr p, (Z.of_nat n < 2 ^ 16 - 1)%Z -> fresh n nthreads p0 -> exec window p0 tr p ->
  forall tr1 t tr2, tr = tr1 ++ Exhausted t :: tr2 ->
  exists tr3 tr4, tr2 = tr3 ++ Read t :: tr4 /\ ~ In (GetBegin t) tr3 /\ In (GetBegin t) tr4 /\
    forall i, 1 <= i <= n -> status tr4 i <> Free.
Proof.
  intros n nt p0 tr p Hn Hf He tr1 t tr2 E.
  destruct (exec_event _ _ _ _ He _ _ _ E) as (t' & a & p1 & p2 & He1 & Hw & Hwin & Hs & _).
  destruct (exec_PI _ _ _ Hn Hf _ _ He1) as (L & HI).
  unfold pstep in Hs. destruct (nth_error (threads p1) t') as [x|] eqn:Et; [|discriminate].
  pose proof (pi_thr _ _ _ _ HI _ _ Et) as Hx.
  destruct x; destruct a; try discriminate;
    repeat match type of Hs with context [match ?x with _ => _ end] => destruct x eqn:?; try discriminate end.
  injection Hs as _ <-. cbn in Hx. destruct Hx as (_ & _ & _ & D & Hse & _). apply Hse.
  match goal with H : nth_error (resources p1) _ = _ |- _ => rewrite (pi_res _ _ _ _ HI), res_nth in H end.
  destruct (Nat.eqb_spec (idx o) 0); auto. rewrite (proj2 (Nat.leb_le _ _) D) in *. discriminate.
Qed.
Print Assumptions pool_refuses_only_when_empty.
Example pool_refuses_only_when_empty_case :
  skipn 5 exTrace = Exhausted 2 :: [] ++ Read 2 :: skipn 7 exTrace /\
  status (skipn 7 exTrace) 1 = Held /\ status (skipn 7 exTrace) 2 = Held.
Proof. repeat split. Qed.

(* C19 is false.  With 3 items: thread 0 reads head 3 and its next 2; thread 1
   takes all three, gives 3 back, and then gets and releases 3 until 65536
   exchanges have happened.  Thread 0's exchange succeeds and makes the held
   item 2 the head, so the next get hands it out again. *)
Definition cycleSched : list (nat * action) :=
  [(1, CallGet); (1, Continue); (1, Continue); (1, Continue);
   (1, CallRelease 3); (1, Continue); (1, Continue); (1, Continue)].
Definition cycleState (k : nat) : pool :=
  mkpool [0; 0; 1; 0] [false; true; true; true] (mkhead 3 ((4 + 2 * Z.of_nat k) mod 2 ^ 16)) (4 + 2 * k)
    [TGetNext (mkhead 3 0) 0 2; TIdle].
Lemma cycle_step tr k : status tr 3 = Free ->
  exists tr', runSched cycleSched tr (cycleState k) = Some (tr', cycleState (S k)) /\
    status tr' 3 = Free /\ status tr' 2 = status tr 2.
Proof.
  intros H. eexists. split.
  - unfold cycleState, cycleSched. cbn [runSched wellUsedb pstep threads nth_error setT lupd hd_ ver nexts resources idx].
    unfold head_eqb. cbn [idx aba]. rewrite Nat.eqb_refl, Z.eqb_refl. cbn [andb app runSched wellUsedb].
    cbn [status]. rewrite Nat.eqb_refl. cbn [pstep threads nth_error setT lupd hd_ ver nexts resources idx length app].
    change (3 <? 4) with true. cbv iota. cbn [runSched wellUsedb pstep threads nth_error setT lupd hd_ ver nexts resources idx length app].
    unfold head_eqb. cbn [idx aba]. rewrite Nat.eqb_refl, Z.eqb_refl. cbn [andb app runSched wellUsedb].
    assert (inc16 (inc16 ((4 + 2 * Z.of_nat k) mod 2 ^ 16)) = (4 + 2 * Z.of_nat (S k)) mod 2 ^ 16)%Z as ->.
    { unfold inc16. rewrite Nat2Z.inj_succ. unfold Z.succ. rewrite Zplus_mod_idemp_l, <- Z.add_assoc, Zplus_mod_idemp_l. f_equal. lia. }
    replace (S (S (4 + 2 * k))) with (4 + 2 * S k) by lia. reflexivity.
  - split; reflexivity.
Qed.
Lemma cycles p0 k : forall tr, exec anyWindow p0 tr (cycleState 0) -> status tr 3 = Free ->
  exists tr', exec anyWindow p0 tr' (cycleState k) /\ status tr' 3 = Free /\ status tr' 2 = status tr 2.
Proof.
  induction k as [|k IH]; intros tr He H; [eauto|].
  destruct (IH tr He H) as (tr' & He' & H3 & H2). destruct (cycle_step tr' k H3) as (tr'' & E & H3' & H2').
  exists tr''. split; [|split; congruence].
  eapply runSched_exec; [intros; exact I|exact He'|exact E].
Qed.
Theorem pool_unbounded_window_refuted :
  exists n nthreads p0, (Z.of_nat n < 2 ^ 16 - 1)%Z /\ fresh n nthreads p0 /\
  exists tr t i p, exec anyWindow p0 (Got t i :: tr) p /\ status tr i = Held.
Proof.
  exists 3, 2, (mkpool [0; 0; 1; 2] [false; true; true; true] (mkhead 3 0) 0 [TIdle; TIdle]).
  split; [reflexivity|]. split; [reflexivity|].
  set (p0 := mkpool _ _ _ _ _).
  assert (exists tr, exec anyWindow p0 tr (cycleState 0) /\ status tr 3 = Free /\ status tr 2 = Held) as (tr & He & H3 & H2).
  { destruct (runSched ([(0, CallGet); (0, Continue); (0, Continue)] ++
       flat_map (fun _ => [(1, CallGet); (1, Continue); (1, Continue); (1, Continue)]) [tt; tt; tt] ++
       [(1, CallRelease 3); (1, Continue); (1, Continue); (1, Continue)]) [] p0) as [(tr, p)|] eqn:E;
      [|vm_compute in E; discriminate].
    exists tr. assert (p = cycleState 0) as -> by (vm_compute in E; injection E as _ <-; reflexivity).
    split; [eapply runSched_exec; [intros; exact I|constructor|exact E]|].
    vm_compute in E. injection E as <-. split; reflexivity. }
  destruct (cycles p0 (Z.to_nat 32766) tr He H3) as (tr' & He' & H3' & H2'). rewrite H2 in H2'.
  assert (cycleState (Z.to_nat 32766) = mkpool [0; 0; 1; 0] [false; true; true; true] (mkhead 3 0) (4 + 2 * Z.to_nat 32766)
    [TGetNext (mkhead 3 0) 0 2; TIdle]) as Ec.
  { unfold cycleState. rewrite Z2Nat.id by lia. reflexivity. }
  rewrite Ec in He'. clear Ec. remember (4 + 2 * Z.to_nat 32766) as v. clear Heqv.
  destruct (runSched [(0, Continue); (1, CallGet); (1, Continue); (1, Continue); (1, Continue)] tr'
    (mkpool [0; 0; 1; 0] [false; true; true; true] (mkhead 3 0) v [TGetNext (mkhead 3 0) 0 2; TIdle])) as [(tr2, p)|] eqn:E;
    [|vm_compute in E; discriminate].
  pose proof (runSched_exec anyWindow p0 _ ltac:(intros; exact I) _ _ _ _ He' E) as He2.
  vm_compute in E. injection E as <- _.
  eexists _, 1, 2, p. split; [exact He2|]. cbn. exact H2'.
Qed.
Print Assumptions pool_unbounded_window_refuted.

(* C20.  For every concurrency below 65535 the pool hands out exactly that
   many distinct items before refusing; at 65535 the initialisation writes
   outside its allocation. *)
Theorem pool_holds_configured_number :
  forall n nthreads, (Z.of_nat n < 2 ^ 16 - 1)%Z ->
  exists p0, PoolInit n (fun _ => (true, true)) nthreads = Some (p0, n) /\
  forall t, t < nthreads -> exists L, NoDup L /\ length L = n /\ (forall i, In i L <-> 1 <= i <= n) /\
    soloGets t (n + 1) p0 = Some (map (Got t) L ++ [Exhausted t]).
Proof.
  intros n nt Hn. eexists. split; [apply init_val; auto|]. intros t Ht.
  set (p0 := mkpool _ _ _ _ _). assert (fresh n nt p0) as Hf by (apply init_val; auto).
  pose proof (init_PI n nt p0 Hn Hf) as HI. exists (rev (seq 1 n)).
  assert (length (rev (seq 1 n)) = n) as Hl by now rewrite rev_length, seq_length.
  split; [apply HI|]. split; [exact Hl|]. split.
  - intros i. rewrite (pi_free _ _ _ _ HI). cbn. tauto.
  - rewrite <- Hl at 1. eapply solo_all; [exact HI|]. cbn. now apply nth_error_repeat.
Qed.
Print Assumptions pool_holds_configured_number.
Example pool_holds_configured_number_case :
  exists p0, PoolInit 4 (fun _ => (true, true)) 1 = Some (p0, 4) /\
  soloGets 0 5 p0 = Some [Got 0 4; Got 0 3; Got 0 2; Got 0 1; Exhausted 0].
Proof. eexists. split; reflexivity. Qed.
Theorem pool_concurrency_65535_refuted :
  forall creates nthreads, PoolInit (Z.to_nat 65535) creates nthreads = None.
Proof.
  intros. unfold PoolInit. rewrite Nat2Z.inj_add, Z2Nat.id by lia. reflexivity.
Qed.
Print Assumptions pool_concurrency_65535_refuted.

(* C59.  Whatever the creation function does: creation stops at the first
   exception, and freeing the pool frees each resource that was created
   exactly once and nothing else. *)
Theorem pool_frees_each_created_resource_once :
  forall n creates nthreads p count, (Z.of_nat n < 2 ^ 16 - 1)%Z ->
  PoolInit n creates nthreads = Some (p, count) ->
  count <= n /\
  (forall i, 1 <= i < count -> snd (creates i) = true) /\
  (count < n -> snd (creates count) = false) /\
  PoolFree p count = filter (fun i => fst (creates i)) (seq 1 count).
Proof.
  intros n creates nt p count Hn H. unfold PoolInit in H. rewrite Z.mod_small in H by lia.
  replace (Z.to_nat (Z.of_nat (n + 1))) with (S n) in H by lia.
  destruct (poolInitLoop _ _ _ _ _ _ _ _) as [[[nx rs] h] c] eqn:E.
  injection H as <- <-. apply initLoop_gen in E; try reflexivity; try (rewrite repeat_length; lia).
  destruct E as (A & B & C & D & F & G & K). repeat split; try lia; auto.
  unfold PoolFree. cbn [resources].
  assert (forall j, nth j (repeat false (S n)) false = false) as Hr.
  { intros j. destruct (nth_in_or_default j (repeat false (S n)) false) as [Q|Q]; auto. eapply repeat_spec, Q. }
  cbn [seq filter]. rewrite (K 0). cbn [Nat.leb andb]. rewrite Hr.
  apply filter_ext_in. intros j Hj. apply in_seq in Hj. rewrite K.
  destruct (Nat.leb_spec 1 j), (Nat.leb_spec j c); cbn [andb]; auto; lia.
Qed.
Print Assumptions pool_frees_each_created_resource_once.
Example pool_frees_each_created_resource_once_case :
  exists p, PoolInit 5 (fun i => (Nat.ltb i 3, Nat.ltb i 3)) 1 = Some (p, 3) /\ PoolFree p 3 = [1; 2].
Proof. eexists. split; reflexivity. Qed.

(* C60.  Progress and memory safety: a thread inside a call can always take
   its next step (every index it uses is inside the stack), and an exchange
   fails only if another thread's exchange succeeded since this thread read
   the head, so some thread always gets through. *)
Theorem pool_is_lock_free :
  forall n nthreads p0 tr p, (Z.of_nat n < 2 ^ 16 - 1)%Z -> fresh n nthreads p0 -> exec window p0 tr p ->
  forall t x, nth_error (threads p) t = Some x ->
  (x <> TIdle -> exists p' evs, pstep t Continue p = Some (p', evs)) /\
  (forall o v nx, x = TGetNext o v nx -> v <= ver p /\
     (v = ver p -> exists p', pstep t Continue p = Some (p', [Got t (idx o)]))) /\
  (forall i o v, x = TRelNext i o v -> v <= ver p /\
     (v = ver p -> exists p', pstep t Continue p = Some (p', [RelEnd t i]))).
Proof.
  intros n nt p0 tr p Hn Hf He t x Ht. destruct (exec_PI _ _ _ Hn Hf _ _ He) as (L & HI).
  pose proof (pi_thr _ _ _ _ HI _ _ Ht) as Hx. split; [|split].
  - intros Hi. eapply step_progress; eauto.
  - intros o v nx ->. cbn in Hx. split; [tauto|]. intros Hv. destruct Hx as (_ & B & _). destruct (B Hv) as (-> & _).
    unfold pstep. rewrite Ht, (proj2 (head_eqb_eq _ _) eq_refl). eauto.
  - intros i o v ->. cbn in Hx. split; [tauto|]. intros Hv. destruct Hx as (_ & B & _).
    unfold pstep. rewrite Ht, (B Hv), (proj2 (head_eqb_eq _ _) eq_refl). eauto.
Qed.
Print Assumptions pool_is_lock_free.
Example pool_is_lock_free_case :
  exists p0 tr p o v nx, fresh 2 3 p0 /\ exec window p0 tr p /\
    nth_error (threads p) 0 = Some (TGetNext o v nx) /\ v <> ver p.
Proof.
  eexists. destruct (runSched (firstn 7 exSched) [] (mkpool [0; 0; 1] [false; true; true] (mkhead 2 0) 0 (repeat TIdle 3)))
    as [(tr, p)|] eqn:E; [|vm_compute in E; discriminate].
  exists tr, p. do 3 eexists. split; [reflexivity|]. split.
  - eapply runSched_window; [constructor| |exact E]. vm_compute. reflexivity.
  - vm_compute in E. injection E as _ <-. split; [reflexivity|]. cbn. discriminate.
Qed.
