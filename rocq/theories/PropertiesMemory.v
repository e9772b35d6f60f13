(* C45, C46, C47: memory.c *)
From Verif Require Import MemoryProofs.
From Verif Require TreeSpec.

(* the first call that finds the tracker not initialised *)
Definition start (st : Tracker) : option machine := option_map (fun st' => mkMachine st' [] []) (tryInit st).
Definition nothing : ledger := mkLedger [] [] [].
(* what is not freed and, until their frees have brought the totals up to date, what
   is being freed *)
Definition held (l : ledger) : Z := (sumOf (map fst (live l)) + sumOf (frees l))%Z.

(* C45: whatever the threads do, no step is undefined, the total is the sum of the
   blocks, and the maximum is the largest total there was *)
Theorem memory_totals : forall st fuel events l, unused st -> allowedRun nothing events l -> TreeSpec.bound (length events) <= fuel ->
  exists m0 m, start st = Some m0 /\ runEvents fuel m0 events = Some m /\
    MemoryTrackingGetAllocated (tracker m) = held l /\
    (forall a b l1, events = a ++ b -> allowedRun nothing a l1 -> (held l1 <= MemoryTrackingGetMax (tracker m))%Z) /\
    (exists a b l1, events = a ++ b /\ allowedRun nothing a l1 /\ held l1 = MemoryTrackingGetMax (tracker m)).
Proof.
  intros st fuel events l U R F. destruct (start_ok st U) as (st' & E & I). exists (mkMachine st' [] []).
  destruct (runs_ok fuel events _ _ _ I R) as (m & E2 & I2); [cbn; exact F|]. exists m.
  split; [unfold start; now rewrite E|]. split; [exact E2|]. split; [exact (mi_total _ _ I2)|].
  assert (A : forall a b l1, events = a ++ b -> allowedRun nothing a l1 -> exists m1, runEvents fuel (mkMachine st' [] []) a = Some m1 /\ runEvents fuel m1 b = Some m /\ minv m1 l1).
  { intros a b l1 -> Ra. destruct (runs_ok fuel a _ _ _ I Ra) as (m1 & E3 & I3).
    - rewrite app_length in F. refine (Nat.le_trans _ _ _ _ F). apply TreeRun.bound_mono. cbn. apply Nat.le_add_r.
    - exists m1. rewrite runEvents_app, E3 in E2. auto. }
  split.
  - intros a b l1 Ea Ra. destruct (A a b l1 Ea Ra) as (m1 & _ & E4 & I3). apply (max_mono _ _ _ _ (mi_init _ _ I3)) in E4. pose proof (mi_max _ _ I3) as M. rewrite (mi_total _ _ I3) in M.
    unfold MemoryTrackingGetMax, held. unfold totalOf in M. exact (Z.le_trans _ _ _ M E4).
  - assert (S : forall events l0 l', allowedRun l0 events l' -> forall a b, events = a ++ b -> exists l1, allowedRun l0 a l1).
    { clear. induction 1 as [|l0 e l1 events l2 X _ IH]; intros a b Ea.
      - symmetry in Ea. apply app_eq_nil in Ea. destruct Ea as (-> & _). eexists; constructor.
      - destruct a as [|e' a]; [eexists; constructor|]. cbn in Ea. injection Ea as -> Ea. destruct (IH a b Ea) as (l3 & R). exists l3. econstructor; eassumption. }
    destruct (max_reached _ _ _ _ (mi_init _ _ I) E2) as [Q|(a & b & m1 & Ea & E3 & Q)].
    + exists [], events, nothing. split; [reflexivity|]. split; [constructor|]. unfold MemoryTrackingGetMax. rewrite Q. cbn [tracker].
      unfold tryInit, MemoryTrackingReset in E. destruct U as (_ & U & _). rewrite U in E. destruct (initShards _); [|discriminate E]. injection E as <-. reflexivity.
    + destruct (S _ _ _ R a b Ea) as (l1 & Ra). exists a, b, l1. split; [exact Ea|]. split; [exact Ra|].
      destruct (A a b l1 Ea Ra) as (m2 & E5 & _ & I3). rewrite E3 in E5. injection E5 as <-. unfold MemoryTrackingGetMax. rewrite Q. symmetry. exact (mi_total _ _ I3).
Qed.
Print Assumptions memory_totals.

(* with no call in progress the total is the sum of the blocks not yet freed *)
Theorem memory_total_at_rest : forall st fuel events l, unused st -> allowedRun nothing events l -> frees l = [] -> TreeSpec.bound (length events) <= fuel ->
  exists m0 m, start st = Some m0 /\ runEvents fuel m0 events = Some m /\
    MemoryTrackingGetAllocated (tracker m) = sumOf (map fst (live l)).
Proof.
  intros st fuel events l U R E F. destruct (memory_totals st fuel events l U R F) as (m0 & m & A & B & C & _). exists m0, m.
  split; [exact A|]. split; [exact B|]. rewrite C. unfold held. rewrite E. apply Z.add_0_r.
Qed.
Print Assumptions memory_total_at_rest.

Definition emptyNode : node := mk 0 0 0 false 0%Z.
Definition memory0 : Tracker :=
  mkTracker (repeat (mkShard (fun p => if Nat.ltb p 3 then Some emptyNode else None) (fun _ => 0%Z)) SHARDS) 77 88 false.
Lemma memory0_unused : unused memory0.
Proof.
  split; [reflexivity|]. split; [reflexivity|]. apply Forall_forall. intros sh H. apply repeat_spec in H. subst. cbn. repeat split; try discriminate.
  intros p H. destruct p as [|[|[|p]]]; try lia. reflexivity.
Qed.
(* two threads: 1000 and 24000 fall into the same shard *)
Definition memoryEvents : list event :=
  [MallocBegin 1000 10 3 emptyNode; MallocBegin 24040 20 4 emptyNode; MallocEnd 24040; MallocEnd 1000; FreeBegin 1000; MallocBegin 96 5 3 emptyNode;
   FreeEnd 1000; MallocEnd 96].
Example memory_example : getShardFromPointer 1000 = getShardFromPointer 24040 /\
  allowedRun nothing memoryEvents (mkLedger [((96, 5)%Z, 3); ((24040, 20)%Z, 4)] [] []) /\
  match start memory0 with
  | Some m0 => option_map (fun m => (MemoryTrackingGetAllocated (tracker m), MemoryTrackingGetMax (tracker m))) (runEvents 10 m0 memoryEvents)
  | None => None
  end = Some (25, 30)%Z.
Proof.
  split; [reflexivity|]. split; [|vm_compute; reflexivity]. unfold memoryEvents.
  eapply r_cons; [apply a_malloc; cbn; try lia; tauto|]. cbn [live mallocs frees nothing].
  eapply r_cons; [apply a_malloc; cbn; try lia; intros [H|[]]; discriminate|]. cbn [live mallocs frees].
  eapply r_cons; [eapply (a_malloced _ _ _ _ []); reflexivity|]. cbn [live mallocs frees app].
  eapply r_cons; [eapply (a_malloced _ _ _ _ []); reflexivity|]. cbn [live mallocs frees app].
  eapply r_cons; [eapply (a_free _ _ _ _ []); reflexivity|]. cbn [live mallocs frees app].
  eapply r_cons; [apply a_malloc; cbn; try lia; intuition discriminate|]. cbn [live mallocs frees].
  eapply r_cons; [eapply (a_freed _ _ _ []); reflexivity|]. cbn [live mallocs frees app].
  eapply r_cons; [eapply (a_malloced _ _ _ _ []); reflexivity|]. cbn [live mallocs frees app]. constructor.
Qed.

(* refuted outside of that: a reset does not forget the blocks, so freeing one makes
   the total wrap around; the record of a block of 2^32 bytes says 0; malloc twice
   without memory inserts the key 0 twice; free of NULL that was not tracked *)
Definition onStart {A} (f : Tracker -> option A) : option A :=
  match tryInit memory0 with Some st => f st | None => None end.
Theorem memory_reset_refuted :
  onStart (fun st => match trackAllocation 10 st 1000 10 3 emptyNode with
                     | Some st1 => match MemoryTrackingReset st1 with
                                   | Some st2 => option_map MemoryTrackingGetAllocated (untrackAllocation 10 st2 1000)
                                   | None => None end
                     | None => None end) = Some (2 ^ 64 - 10)%Z.
Proof. vm_compute. reflexivity. Qed.
Print Assumptions memory_reset_refuted.
Theorem memory_large_refuted :
  onStart (fun st => match trackAllocation 10 st 1000 (2 ^ 32) 3 emptyNode with
                     | Some st1 => option_map MemoryTrackingGetAllocated (untrackAllocation 10 st1 1000)
                     | None => None end) = Some (2 ^ 32)%Z.
Proof. vm_compute. reflexivity. Qed.
Print Assumptions memory_large_refuted.
Theorem memory_null_refuted :
  onStart (fun st => match trackAllocation 10 st 0 10 3 emptyNode with
                     | Some st1 => Some (trackAllocation 10 st1 0 10 4 emptyNode)
                     | None => None end) = Some None /\
  onStart (fun st => Some (untrackAllocation 10 st 0)) = Some None.
Proof. vm_compute. split; reflexivity. Qed.
Print Assumptions memory_null_refuted.

(* C46: with memory up to lastByte (for a collection one after the last byte) *)
Fixpoint advances (r : MemoryReader) (l : list Z) : MemoryReader * list bool :=
  match l with
  | [] => (r, [])
  | a :: rest =>
    match MemoryAdvance (Some r) a with
    | (Some r', ok) => let '(r'', oks) := advances r' rest in (r'', ok :: oks)
    | (None, ok) => (r, [ok])
    end
  end.
Definition sum (l : list Z) : Z := fold_right Z.add 0%Z l.
(* amounts that do not go around the address space *)
Theorem reader_advances : forall r l, (0 < current r <= lastByte r)%Z ->
  Forall (fun a => 0 <= a /\ lastByte r + a < 2 ^ 64)%Z l ->
  (forall a, In a l -> (snd (MemoryAdvance (Some r) a) = true <-> (current r + a <= lastByte r)%Z)) /\
  (Forall (eq true) (snd (advances r l)) <-> (current r + sum l <= lastByte r)%Z) /\
  (Forall (eq true) (snd (advances r l)) -> fst (advances r l) = mkReader (current r + sum l) (lastByte r)).
Proof.
  assert (A : forall r a, (0 < current r <= lastByte r)%Z -> (0 <= a /\ lastByte r + a < 2 ^ 64)%Z ->
    MemoryAdvance (Some r) a = (Some (mkReader (current r + a) (lastByte r)), Z.leb (current r + a) (lastByte r))).
  { intros r a Hr Ha. unfold MemoryAdvance. destruct (Z.eqb_spec (current r) 0); [lia|]. unfold word. rewrite Z.mod_small by lia. f_equal.
    destruct (Z.ltb_spec (lastByte r) (current r + a)), (Z.leb_spec (current r + a) (lastByte r)); auto; lia. }
  intros r l Hr Hl. split.
  { intros a Ha. rewrite Forall_forall in Hl. rewrite (A r a Hr (Hl a Ha)). cbn [snd]. apply Z.leb_le. }
  revert r Hr Hl. induction l as [|a l IH]; intros r Hr Hl.
  - cbn. rewrite Z.add_0_r. split; [split; [lia|constructor]|]. intros _. now destruct r.
  - apply Forall_cons_iff in Hl. destruct Hl as (Ha & Hl). cbn [advances]. rewrite (A r a Hr Ha).
    assert (P : (0 <= sum l)%Z) by (clear -Hl; induction Hl as [|x l (H & _) _ I]; [cbn; lia|change (sum (x :: l)) with (x + sum l)%Z; lia]).
    destruct (Z.leb_spec (current r + a) (lastByte r)) as [L|L].
    + destruct (IH (mkReader (current r + a) (lastByte r)) ltac:(cbn; lia) Hl) as (I1 & I2).
      destruct (advances _ l) as (r2, oks). cbn [fst snd current lastByte] in *. change (sum (a :: l)) with (a + sum l)%Z. rewrite Z.add_assoc.
      split; [|intros F; apply Forall_cons_iff in F; apply I2, F].
      rewrite <- I1. split; [intros F; apply Forall_cons_iff in F; apply F|intros F; constructor; [reflexivity|exact F]].
    + destruct (advances _ l) as (r2, oks). cbn [fst snd] in *. change (sum (a :: l)) with (a + sum l)%Z.
      split; [split; [intros F; apply Forall_cons_iff in F; destruct F; discriminate|intros; exfalso; lia]|intros F; apply Forall_cons_iff in F; destruct F; discriminate].
Qed.
Print Assumptions reader_advances.
Example reader_example : let r := mkReader 1000 1010 in
  advances r [4; 6]%Z = (mkReader 1010 1010, [true; true]) /\ advances r [4; 7]%Z = (mkReader 1011 1010, [true; false]) /\
  MemoryAdvance (Some (mkReader 0 1010)) 1 = (Some (mkReader 0 1010), false) /\ MemoryAdvance None 1 = (None, false).
Proof. vm_compute. repeat split. Qed.
(* refuted for amounts that go around: the position is before the memory *)
Theorem reader_wrap_refuted : MemoryAdvance (Some (mkReader 1000 1010)) (2 ^ 64 - 50) = (Some (mkReader 950 1010), true).
Proof. vm_compute. reflexivity. Qed.
Print Assumptions reader_wrap_refuted.

(* C47: refuted; it is a multiple only for two of the residues *)
Theorem aligned_size_refuted : (alignedSize 8 5 mod 8 <> 0)%Z.
Proof. vm_compute. discriminate. Qed.
Print Assumptions aligned_size_refuted.
Theorem aligned_size : forall k size, let a := (2 ^ k)%Z in (0 <= k < 31)%Z -> (0 <= size)%Z -> (size + a < 2 ^ 64)%Z ->
  (size <= alignedSize a size)%Z /\
  ((alignedSize a size mod a = 0)%Z <-> (size mod a = 0)%Z \/ (2 * (size mod a) = a)%Z).
Proof.
  intros k size a Hk Hs Ho. assert (Ha : (0 < a)%Z) by (apply Z.pow_pos_nonneg; lia). pose proof (Z.mod_pos_bound size a Ha) as Hb.
  unfold alignedSize, word. rewrite Z.mod_small by lia. split; [lia|].
  rewrite Z.add_mod by lia. rewrite Z.mod_mod by lia. set (m := (size mod a)%Z) in *. split.
  - intros H. destruct (Z.eq_dec m 0) as [|N]; [now left|]. right.
    destruct (Z.lt_ge_cases (m + m) a) as [L|L]; [rewrite Z.mod_small in H; lia|].
    rewrite <- (Z_mod_plus_full (m + m) (-1) a) in H. rewrite Z.mod_small in H; lia.
  - intros [-> | H]; [apply Z.mod_0_l; lia|]. replace (m + m)%Z with a by lia. apply Z.mod_same. lia.
Qed.
Print Assumptions aligned_size.
Example aligned_size_example : alignedSize 8 12 = 16%Z /\ alignedSize 8 16 = 16%Z /\ alignedSize 8 5 = 10%Z.
Proof. vm_compute. repeat split. Qed.
