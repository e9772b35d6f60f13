(* C124: the pool where the exchanged word has 32 bits that no code assigns (pool.h,
   pool.c with a long of 64 bits).  Histories are those of WideSpec.wexec: every
   interleaving, and any bits in the half of next that is not assigned. *)
From Verif Require Import PoolSpec PoolProofs PropertiesPool WideSpec WideProofs.

(* C124.  Whatever the bits are, a history of the pool is one where only the index and
   the ABA value are exchanged. *)
Theorem wide_serial :
  forall n nthreads w0 tr w, (Z.of_nat n < 2 ^ 16 - 1)%Z -> wfresh n nthreads w0 -> wexec true window w0 tr w ->
  exec window (narrow w0) tr (narrow w).
Proof. intros n nt w0 tr w Hn F X. exact (proj1 (wide_ok _ _ _ Hn F _ _ X)). Qed.
Print Assumptions wide_serial.

(* C124.  The bits never make an exchange fail: each step that the narrow pool makes is
   made with the same events, whatever the garbage is, and no other. *)
Theorem wide_follows :
  forall n nthreads w0 tr w, (Z.of_nat n < 2 ^ 16 - 1)%Z -> wfresh n nthreads w0 -> wexec true window w0 tr w ->
  forall t a garbage p' evs, window (narrow w) t ->
  (pstep t a (narrow w) = Some (p', evs) <-> exists w', wstep true t a garbage w = Some (w', evs) /\ narrow w' = p').
Proof.
  intros n nt w0 tr w Hn F X t a g p' evs Hw. destruct (wide_ok _ _ _ Hn F _ _ X) as (Y & HS). destruct (exec_PI _ _ _ Hn (proj1 F) _ _ Y) as (L & HI).
  pose proof (lockstep n tr w L t a g Hn HI HS Hw) as K. destruct (pstep t a (narrow w)) as [(p1, evs1)|].
  - destruct K as (w1 & M & <- & _). split.
    + intros E. exists w1. split; congruence.
    + intros (w2 & M2 & <-). congruence.
  - split; [discriminate|]. intros (w2 & M2 & _). congruence.
Qed.
Print Assumptions wide_follows.

(* C124.  No item is handed to two users. *)
Theorem wide_item_has_one_user :
  forall n nthreads w0 tr w, (Z.of_nat n < 2 ^ 16 - 1)%Z -> wfresh n nthreads w0 -> wexec true window w0 tr w ->
  forall tr1 t i tr2, tr = tr1 ++ Got t i :: tr2 -> 1 <= i <= n /\ status tr2 i = Free.
Proof. intros n nt w0 tr w Hn F X. exact (pool_item_has_one_user n nt _ tr _ Hn (proj1 F) (wide_serial _ _ _ _ _ Hn F X)). Qed.
Print Assumptions wide_item_has_one_user.

(* C124.  A get is refused only when nothing was free. *)
Theorem wide_refuses_only_when_empty :
  forall n nthreads w0 tr w, (Z.of_nat n < 2 ^ 16 - 1)%Z -> wfresh n nthreads w0 -> wexec true window w0 tr w ->
  forall tr1 t tr2, tr = tr1 ++ Exhausted t :: tr2 ->
  exists tr3 tr4, tr2 = tr3 ++ Read t :: tr4 /\ ~ In (GetBegin t) tr3 /\ In (GetBegin t) tr4 /\
    forall i, 1 <= i <= n -> status tr4 i <> Free.
Proof. intros n nt w0 tr w Hn F X. exact (pool_refuses_only_when_empty n nt _ tr _ Hn (proj1 F) (wide_serial _ _ _ _ _ Hn F X)). Qed.
Print Assumptions wide_refuses_only_when_empty.

(* C124.  The pool stays lock free: an exchange by a thread that read the newest head
   succeeds whatever the garbage of it and of all the exchanges before is. *)
Theorem wide_is_lock_free :
  forall n nthreads w0 tr w, (Z.of_nat n < 2 ^ 16 - 1)%Z -> wfresh n nthreads w0 -> wexec true window w0 tr w ->
  forall t x garbage, nth_error (threads (narrow w)) t = Some x -> window (narrow w) t ->
  (x <> TIdle -> exists w' evs, wstep true t Continue garbage w = Some (w', evs)) /\
  (forall o v nx, x = TGetNext o v nx -> v = ver (narrow w) -> exists w', wstep true t Continue garbage w = Some (w', [Got t (idx o)])) /\
  (forall i o v, x = TRelNext i o v -> v = ver (narrow w) -> exists w', wstep true t Continue garbage w = Some (w', [RelEnd t i])).
Proof.
  intros n nt w0 tr w Hn F X t x g E Hw. pose proof (wide_follows _ _ _ _ _ Hn F X t Continue g) as K.
  destruct (pool_is_lock_free _ _ _ _ _ Hn (proj1 F) (wide_serial _ _ _ _ _ Hn F X) t x E) as (A & B & C). split; [|split].
  - intros N. destruct (A N) as (p' & evs & P). apply (K _ _ Hw) in P. destruct P as (w' & M & _). eauto.
  - intros o v nx Ex V. destruct (proj2 (B o v nx Ex) V) as (p' & P). apply (K _ _ Hw) in P. destruct P as (w' & M & _). eauto.
  - intros i o v Ex V. destruct (proj2 (C i o v Ex) V) as (p' & P). apply (K _ _ Hw) in P. destruct P as (w' & M & _). eauto.
Qed.
Print Assumptions wide_is_lock_free.

(* C124.  The half adds nothing to rely on: when it happens to be 0 each time, every
   history of the narrow pool is there, inside the window or not... *)
Theorem wide_contains :
  forall n nthreads p0 W tr p, (Z.of_nat n < 2 ^ 16 - 1)%Z -> fresh n nthreads p0 -> exec W p0 tr p ->
  exists w0 w, wfresh n nthreads w0 /\ narrow w0 = p0 /\ wexec true W w0 tr w /\ narrow w = p.
Proof.
  intros n nt p0 W tr p Hn F X. destruct (zero_exec n nt p0 Hn F W tr p X) as (_ & w & Y & N & _). exists (zero p0), w.
  split; [split; [exact F|reflexivity]|]. split; [reflexivity|]. split; assumption.
Qed.
Print Assumptions wide_contains.
(* ...so 65536 exchanges still hand an item out twice *)
Theorem wide_unbounded_window_refuted :
  exists n nthreads w0, (Z.of_nat n < 2 ^ 16 - 1)%Z /\ wfresh n nthreads w0 /\
  exists tr t i w, wexec true anyWindow w0 (Got t i :: tr) w /\ status tr i = Held.
Proof.
  destruct pool_unbounded_window_refuted as (n & nt & p0 & Hn & F & tr & t & i & p & X & H).
  destruct (wide_contains _ _ _ _ _ _ Hn F X) as (w0 & w & F' & _ & Y & _). exists n, nt, w0. split; [exact Hn|]. split; [exact F'|]. eauto 6.
Qed.
Print Assumptions wide_unbounded_window_refuted.

(* C124.  All this is with a copy of the head that has its other half too.  C allows
   "orig = pool->head" to leave that half unspecified; then a thread that runs alone
   with an item free can fail its exchange any number of times. *)
Definition loneWide : wide := mkWide (mkpool [0; 0] [false; true] (mkhead 1 0) 0 [TIdle]) 0 (fun _ => 0%Z).
Lemma lone_round k : exists sv, wexec false window loneWide (repeat (Read 0) k ++ [GetBegin 0])
  (mkWide (mkpool [0; 0] [false; true] (mkhead 1 0) 0 [TGet]) 0 sv).
Proof.
  induction k as [|k (sv & IH)].
  - exists (fun _ => 0%Z). apply (wexec_cons _ _ _ [] loneWide 0 CallGet 0 _ [GetBegin 0]); [constructor|exact I|exact I|reflexivity].
  - exists (fun u => if Nat.eqb u 0 then 1 else sv u)%Z.
    change (repeat (Read 0) (S k) ++ [GetBegin 0]) with ([] ++ ([] ++ ([Read 0] ++ (repeat (Read 0) k ++ [GetBegin 0])))).
    apply (wexec_cons _ _ _ _ (mkWide (mkpool [0; 0] [false; true] (mkhead 1 0) 0 [TGetNext (mkhead 1 0) 0 0]) 0 (fun u => if Nat.eqb u 0 then 1 else sv u)%Z) 0 Continue 0);
      [|exact I|unfold window; cbn [narrow threads nth_error ver]; pose proof (Nat.pow_nonzero 2 16); lia|reflexivity].
    apply (wexec_cons _ _ _ _ (mkWide (mkpool [0; 0] [false; true] (mkhead 1 0) 0 [TGetRead (mkhead 1 0) 0]) 0 (fun u => if Nat.eqb u 0 then 1 else sv u)%Z) 0 Continue 0);
      [|exact I|exact I|reflexivity].
    apply (wexec_cons _ _ _ _ (mkWide (mkpool [0; 0] [false; true] (mkhead 1 0) 0 [TGet]) 0 sv) 0 Continue 1);
      [exact IH|exact I|exact I|reflexivity].
Qed.
Theorem wide_lost_refuted :
  exists w0, wfresh 1 1 w0 /\ forall k, exists w, wexec false window w0 (repeat (Read 0) k ++ [GetBegin 0]) w /\ nth_error (threads (narrow w)) 0 = Some TGet.
Proof. exists loneWide. split; [split; reflexivity|]. intros k. destruct (lone_round k) as (sv & X). eexists. split; [exact X|reflexivity]. Qed.
Print Assumptions wide_lost_refuted.

(* the history of pool_example with the garbage 7, 8, 9... of each step: the first
   exchange of thread 0 fails, and the half changes three times *)
Fixpoint runWide (sch : list (nat * action)) (garbage : Z) (tr : list event) (w : wide) : option (list event * wide) :=
  match sch with
  | [] => Some (tr, w)
  | (t, a) :: sch' =>
    if wellUsedb tr a then
      match wstep true t a garbage w with Some (w', evs) => runWide sch' (garbage + 1) (evs ++ tr) w' | None => None end
    else None
  end.
Example wide_example :
  let w0 := mkWide (mkpool [0; 0; 1] [false; true; true] (mkhead 2 0) 0 (repeat TIdle 3)) 0 (fun _ => (-1)%Z) in
  wfresh 2 3 w0 /\
  option_map (fun r => (fst r, high (snd r), hd_ (narrow (snd r)), map (saved (snd r)) [0; 1; 2])) (runWide exSched 7 [] w0)
  = Some (exTrace, 28, mkhead 0 4, [13; 17; 24])%Z.
Proof. split; [split; reflexivity|vm_compute; reflexivity]. Qed.
(* the word, and an exchange that fails by the other half alone *)
Example wide_words :
  exchange (mkhead 2 3) 0 = 196610%Z /\ exchange (mkhead 2 3) 5 = 21475033090%Z /\
  (let w := mkWide (mkpool [0; 0] [false; true] (mkhead 1 0) 0 [TGetNext (mkhead 1 0) 0 0]) 5 in
   option_map (fun r => (high (fst r), snd r)) (wstep true 0 Continue 9 (w (fun _ => 5%Z))) = Some (9%Z, [Got 0 1]) /\
   option_map (fun r => (high (fst r), snd r)) (wstep true 0 Continue 9 (w (fun _ => 6%Z))) = Some (5%Z, [])).
Proof. repeat split; vm_compute; reflexivity. Qed.
