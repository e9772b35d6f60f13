(* C122: memory.c, tracking switched on and off *)
From Verif Require Import SessionProofs.
From Verif Require TreeSpec.

(* whatever is allocated and freed with tracking on and off, by any threads: no step
   is undefined, Unset returns the bytes of the session that were not freed, and the
   totals are those of the session *)
Theorem session_totals : forall st fuel calls k outs, untouched st -> mayAll opened calls k outs -> TreeSpec.bound (length calls) <= fuel ->
  exists w, callSteps fuel (begin st) calls = Some (w, outs) /\
    MemoryTrackingGetAllocated (tracker (inside w)) = bytes (now k) /\
    MemoryTrackingGetMax (tracker (inside w)) = peak k /\
    functions w = mkPointers (on k) (on k) (on k) (on k).
Proof.
  intros st fuel calls k outs U M F. destruct (calls_ok fuel calls _ _ _ _ (begin_ok st U) M F) as (w & E & I). exists w.
  destruct (allocated_is _ _ I) as (A & X). split; [exact E|]. split; [exact A|]. split; [exact X|exact (proj1 I)].
Qed.
Print Assumptions session_totals.

(* a session after anything: Unset returns 0 exactly when all its blocks with bytes
   were freed, whatever earlier sessions left *)
Lemma calls_app fuel a : forall w b, callSteps fuel w (a ++ b) =
  match callSteps fuel w a with
  | Some (w', out) => option_map (fun r => (fst r, out ++ snd r)) (callSteps fuel w' b)
  | None => None
  end.
Proof.
  induction a as [|c a IH]; intros w b; cbn [app callSteps]; [destruct (callSteps fuel w b) as [(?, ?)|]; reflexivity|].
  destruct (callStep fuel w c) as [(w', out)|]; [|reflexivity]. rewrite IH. destruct (callSteps fuel w' a) as [(w2, out2)|]; [|reflexivity]. cbn [option_map fst snd].
  destruct (callSteps fuel w2 b) as [(w3, out3)|]; [|reflexivity]. cbn [option_map fst snd]. now rewrite app_assoc.
Qed.
Lemma may_app k a k1 o1 b k2 o2 : mayAll k a k1 o1 -> mayAll k1 b k2 o2 -> mayAll k (a ++ b) k2 (o1 ++ o2).
Proof. intros H. revert k2 o2. induction H; intros; cbn [app]; [assumption|]. rewrite <- app_assoc. econstructor; eauto. Qed.
Theorem session_leak : forall st fuel earlier k outs session k' outs', untouched st ->
  mayAll opened earlier k outs -> atRest k -> mayAll (restart true k) session k' outs' -> atRest k' ->
  TreeSpec.bound (length (earlier ++ SetUp :: session ++ [Unset])) <= fuel ->
  exists w, callSteps fuel (begin st) (earlier ++ SetUp :: session ++ [Unset]) = Some (w, outs ++ outs' ++ [sumOf (map fst (live (now k')))]) /\
    functions w = initialPointers /\ MemoryTrackingGetAllocated (tracker (inside w)) = 0%Z /\ MemoryTrackingGetMax (tracker (inside w)) = 0%Z.
Proof.
  intros st fuel earlier k outs session k' outs' U M1 R1 M2 R2 F.
  assert (M : mayAll opened (earlier ++ SetUp :: session ++ [Unset]) (restart false k') (outs ++ [] ++ outs' ++ [sumOf (map fst (live (now k')))] ++ [])).
  { eapply may_app; [exact M1|]. eapply ma_cons; [apply m_setup; exact R1|]. eapply may_app; [exact M2|]. eapply ma_cons; [apply m_unset; exact R2|constructor]. }
  destruct (session_totals st fuel _ _ _ U M F) as (w & E & A & X & P). exists w. split; [exact E|]. split; [exact P|]. split; [exact A|exact X].
Qed.
Print Assumptions session_leak.

Definition blank : node := mk 0 0 0 false 0%Z.
Definition static0 : Tracker :=
  mkTracker (repeat (mkShard (fun p => if Nat.ltb p 3 then Some blank else None) (fun _ => 0%Z)) SHARDS) 0 0 false.
Lemma static0_untouched : untouched static0.
Proof.
  split; [|split; reflexivity]. split; [reflexivity|]. split; [reflexivity|]. apply Forall_forall. intros sh H. apply repeat_spec in H. subst. cbn. repeat split; try discriminate.
  intros p H. destruct p as [|[|[|p]]]; try lia. reflexivity.
Qed.
(* what Unset returned, the total and the maximum *)
Definition results (calls : list call) : option (list Z * Z * Z) :=
  option_map (fun r => (snd r, MemoryTrackingGetAllocated (tracker (inside (fst r))), MemoryTrackingGetMax (tracker (inside (fst r))))) (callSteps 20 (begin static0) calls).

(* a block with tracking off; a session that leaves 20 bytes; that block stays, and in
   the next session an aligned block of 12 bytes counts as 16 *)
Definition earlierCalls : list call :=
  [Malloc 500 99 3 blank; SetUp; Malloc 1000 10 3 blank; Malloc 24040 20 4 blank; Malloced 24040; Malloced 1000; Free 1000; Freed 1000; Unset; Free 500; MallocAligned 8 600 7 3 blank; FreeAligned 600].
Definition sessionCalls : list call :=
  [MallocAligned 8 1000 12 3 blank; Malloced 1000; Malloc 500 7 5 blank; Malloced 500; FreeAligned 1000; Freed 1000].
Ltac goFresh := repeat split; cbn; try lia; intuition (try discriminate; try lia).
Example session_example :
  mayAll opened earlierCalls (mkBook false [] [((24040, 20)%Z, 4)] noBlocks 0) [20%Z] /\
  mayAll (restart true (mkBook false [] [((24040, 20)%Z, 4)] noBlocks 0)) sessionCalls (mkBook true [] [((24040, 20)%Z, 4)] (mkLedger [((500, 7)%Z, 5)] [] []) 23) [] /\
  results earlierCalls = Some ([20], 0, 0)%Z /\
  results (earlierCalls ++ SetUp :: sessionCalls) = Some ([20], 7, 23)%Z /\
  results (earlierCalls ++ SetUp :: sessionCalls ++ [Unset]) = Some ([20; 7], 0, 0)%Z /\
  results (earlierCalls ++ SetUp :: sessionCalls ++ [Reset]) = Some ([20], 0, 0)%Z.
Proof.
  split; [|split; [|vm_compute; repeat split]].
  - unfold earlierCalls. change [20%Z] with ([] ++ [] ++ [] ++ [] ++ [] ++ [] ++ [] ++ [] ++ [20%Z] ++ [] ++ [] ++ [] ++ @nil Z).
    eapply ma_cons; [apply m_plain; [reflexivity|goFresh]|]. eapply ma_cons; [apply m_setup; split; reflexivity|].
    eapply ma_cons; [apply m_malloc; [reflexivity|goFresh|goFresh|goFresh]|]. eapply ma_cons; [apply m_malloc; [reflexivity|goFresh|goFresh|goFresh]|].
    eapply ma_cons; [eapply (m_malloced _ _ _ _ []); reflexivity|]. eapply ma_cons; [eapply (m_malloced _ _ _ _ []); reflexivity|].
    eapply ma_cons; [eapply (m_free _ _ _ _ []); reflexivity|]. eapply ma_cons; [eapply (m_freed _ _ _ []); reflexivity|].
    eapply ma_cons; [apply (m_unset (mkBook true [500%Z] [] (mkLedger [((24040, 20)%Z, 4)] [] []) 30)); split; reflexivity|].
    eapply ma_cons; [eapply (m_plain_free _ _ []); reflexivity|]. eapply ma_cons; [apply m_plain_aligned; [reflexivity|goFresh]|].
    eapply ma_cons; [eapply (m_plain_free_aligned _ _ []); reflexivity|]. constructor.
  - unfold sessionCalls. change (@nil Z) with ([] ++ [] ++ [] ++ [] ++ [] ++ [] ++ @nil Z).
    eapply ma_cons; [apply m_malloc_aligned; [reflexivity|goFresh|goFresh|lia|goFresh]|]. eapply ma_cons; [eapply (m_malloced _ _ _ _ []); reflexivity|].
    eapply ma_cons; [apply m_malloc; [reflexivity|goFresh|goFresh|goFresh]|]. eapply ma_cons; [eapply (m_malloced _ _ _ _ []); reflexivity|].
    eapply ma_cons; [eapply (m_free_aligned _ _ _ _ [_]); reflexivity|]. eapply ma_cons; [eapply (m_freed _ _ _ []); reflexivity|]. constructor.
Qed.

(* each pointer is used by its call *)
Example session_pointer_cases :
  let m := match resetInside (mkMachine static0 [] []) with Some m => m | None => mkMachine static0 [] [] end in
  let go f c := option_map (fun r => adding (inside (fst r))) (callStep 20 (mkWorld f m) c) in
  go (mkPointers true false false false) (Malloc 1000 5 3 blank) = Some [(1000, 5)%Z] /\
  go (mkPointers false true true true) (Malloc 1000 5 3 blank) = Some [] /\
  go (mkPointers false true false false) (MallocAligned 8 1000 5 3 blank) = Some [(1000, 10)%Z] /\
  go (mkPointers true false true true) (MallocAligned 8 1000 5 3 blank) = Some [] /\
  go (mkPointers false false true false) (Free 1000) = None /\ go (mkPointers true true false true) (Free 1000) = Some [] /\
  go (mkPointers false false false true) (FreeAligned 1000) = None /\ go (mkPointers true true true false) (FreeAligned 1000) = Some [].
Proof. vm_compute. repeat split. Qed.

(* refuted outside of that: a block allocated with tracking off is freed with tracking
   on: it has no record, which is an assert, and without asserts NULL is read *)
Theorem session_early_refuted : forall size, results [Malloc 500 size 3 blank; SetUp; Free 500] = None /\ results [Malloc 500 size 3 blank; SetUp; FreeAligned 500] = None.
Proof. intros size. vm_compute. split; reflexivity. Qed.
Print Assumptions session_early_refuted.
(* a block of a session is freed with tracking off: when malloc returns the address
   again in a later session, the key is inserted twice, which is an assert *)
Theorem session_late_refuted :
  results [SetUp; Malloc 1000 10 3 blank; Malloced 1000; Unset; Free 1000] = Some ([10], 0, 0)%Z /\
  results [SetUp; Malloc 1000 10 3 blank; Malloced 1000; Unset; Free 1000; SetUp; Malloc 1000 10 4 blank] = None.
Proof. vm_compute. split; reflexivity. Qed.
Print Assumptions session_late_refuted.
(* a block of an earlier session is freed in a later one: the total is below 0, so the
   leak of 10 bytes that follows is not reported, and 0 is returned *)
Theorem session_old_refuted :
  results [SetUp; Malloc 1000 10 3 blank; Malloced 1000; Reset; Free 1000; Freed 1000] = Some ([], 2 ^ 64 - 10, 0)%Z /\
  results [SetUp; Malloc 1000 10 3 blank; Malloced 1000; Reset; Free 1000; Freed 1000; Malloc 2000 10 3 blank; Malloced 2000; Unset] = Some ([0], 0, 0)%Z.
Proof. vm_compute. split; reflexivity. Qed.
Print Assumptions session_old_refuted.
(* tracking is switched while calls are in progress: their second sections count in
   the next session *)
Theorem session_progress_refuted :
  results [SetUp; Malloc 1000 10 3 blank; Unset; SetUp; Malloced 1000; Unset] = Some ([0; 10], 0, 0)%Z /\
  results [SetUp; Malloc 1000 10 3 blank; Malloced 1000; Free 1000; Unset; SetUp; Freed 1000; Unset] = Some ([10; 2 ^ 64 - 10], 0, 0)%Z.
Proof. vm_compute. split; reflexivity. Qed.
Print Assumptions session_progress_refuted.
