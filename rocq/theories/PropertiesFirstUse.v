(* C123: memory.c, the first use of the tracker by threads *)
From Verif Require Import MemoryProofs FirstUseProofs.
From Verif Require TreeSpec.

(* when one thread sets up the tracker before others call tryInit, every execution is
   one of the tracker set up at once: nothing is tracked before, and then the tracker
   is what the tracked sections make of it in their order *)
Theorem first_use_serial : forall st fuel moves s k, unused st -> execution fuel st moves s k -> TreeSpec.bound (length moves) <= fuel ->
  (initialised (tracker (engine s)) = false -> eventsOf moves = [] /\ k = mkLedger [] [] []) /\
  (initialised (tracker (engine s)) = true -> exists st0, tryInit st = Some st0 /\
    runEvents fuel (mkMachine st0 [] []) (eventsOf moves) = Some (engine s) /\ allowedRun (mkLedger [] [] []) (eventsOf moves) k).
Proof.
  intros st fuel moves s k U X F. destruct (shards_init st U) as (l' & E). destruct (execution_ok fuel st l' U E moves s k X F) as (I & _).
  pose proof U as (_ & Ui & _). destruct I as [En Pl Ev Kn|t En St Pl Ev Kn|Mi Pl Rn Al].
  - split; [now split|]. rewrite En. cbn [tracker]. congruence.
  - split; [now split|]. intros H. exfalso. destruct (places s t); cbn [stage] in St; try (destruct St as (_ & St)); try contradiction; rewrite St in H; try discriminate H. congruence.
  - split; [rewrite (mi_init _ _ Mi); discriminate|]. intros _. exists (mkTracker l' 0 0 true). unfold tryInit, MemoryTrackingReset. rewrite Ui, E. auto.
Qed.
Print Assumptions first_use_serial.

(* and no step is undefined *)
Theorem first_use_defined : forall st fuel moves s k v k', unused st -> execution fuel st moves s k -> TreeSpec.bound (length moves) <= fuel ->
  orderly s k v k' -> exists s', moveStep fuel s v = Some s'.
Proof.
  intros st fuel moves s k v k' U X F O. destruct (shards_init st U) as (l' & E). destruct (execution_ok fuel st l' U E moves s k X F) as (I & L).
  pose proof (TreeRun.bound_mono _ _ L) as B. destruct (step_ok fuel st l' moves s k v k' U E I O) as (s' & M & _); [exact (Nat.le_trans _ _ _ B F)|]. eauto.
Qed.
Print Assumptions first_use_defined.

(* the total is the sum of the blocks *)
Theorem first_use_total : forall st fuel moves s k, unused st -> execution fuel st moves s k -> TreeSpec.bound (length moves) <= fuel ->
  initialised (tracker (engine s)) = true -> MemoryTrackingGetAllocated (tracker (engine s)) = (sumOf (map fst (live k)) + sumOf (frees k))%Z.
Proof.
  intros st fuel moves s k U X F H. destruct (shards_init st U) as (l' & E). destruct (execution_ok fuel st l' U E moves s k X F) as (I & _).
  pose proof U as (_ & Ui & _). destruct I as [En Pl Ev Kn|t En St Pl Ev Kn|Mi Pl Rn Al].
  - rewrite En in H. cbn [tracker] in H. congruence.
  - exfalso. destruct (places s t); cbn [stage] in St; try (destruct St as (_ & St)); try contradiction; rewrite St in H; try discriminate H. congruence.
  - exact (mi_total _ _ Mi).
Qed.
Print Assumptions first_use_total.

(* the thread that sets up the tracker is done after 25 steps at most *)
Definition left (x : place) : nat :=
  match x with Checked => 25 | Setting i => 24 - i | AtAllocated => 3 | AtMax => 2 | AtFlag => 1 | Outside | Past => 0 end.
Theorem first_use_finishes : forall st fuel t n moves s k, unused st -> execution fuel st moves s k -> inSetUp (places s t) -> left (places s t) <= n ->
  TreeSpec.bound (length moves + n) <= fuel ->
  exists j s', j <= n /\ moveSteps fuel s (repeat (Advance t) j) = Some s' /\ execution fuel st (moves ++ repeat (Advance t) j) s' k /\
    places s' t = Past /\ initialised (tracker (engine s')) = true.
Proof.
  intros st fuel t n. induction n as [|n IH]; intros moves s k U X P L F; pose proof U as (Ul & Ui & _).
  - exfalso. destruct P as (P & P'). destruct (shards_init st U) as (l' & E).
    destruct (execution_ok fuel st l' U E moves s k X) as (I & _); [exact (Nat.le_trans _ _ _ (TreeRun.bound_mono _ _ (Nat.le_add_r _ _)) F)|].
    destruct I as [En Pl Ev Kn|u En St Pl Ev Kn|Mi Pl Rn Al]; [now destruct (P (Pl t))| |destruct (Pl t); tauto].
    destruct (Nat.eq_dec t u) as [->|N]; [|now destruct (P (Pl t N))].
    destruct (places s u); cbn [left stage] in *; try tauto; try (inversion L; fail). destruct St as (Hi & _). unfold SHARDS in Hi. lia.
  - destruct (shards_init st U) as (l' & E).
    assert (F0 : TreeSpec.bound (length moves) <= fuel) by exact (Nat.le_trans _ _ _ (TreeRun.bound_mono _ _ (Nat.le_add_r _ _)) F).
    assert (O : orderly s k (Advance t) k) by now constructor.
    destruct (first_use_defined st fuel moves s k _ _ U X F0 O) as (s1 & M). assert (X1 : execution fuel st (moves ++ [Advance t]) s1 k) by (eapply e_more; eassumption).
    assert (F1 : TreeSpec.bound (length (moves ++ [Advance t]) + n) <= fuel) by (rewrite app_length; cbn [length]; replace (length moves + 1 + n) with (length moves + S n) by lia; exact F).
    assert (F2 : TreeSpec.bound (length (moves ++ [Advance t])) <= fuel) by exact (Nat.le_trans _ _ _ (TreeRun.bound_mono _ _ (Nat.le_add_r _ _)) F1).
    destruct (execution_ok fuel st l' U E moves s k X F0) as (I & _).
    assert (C : (places s1 t = Past /\ initialised (tracker (engine s1)) = true) \/ (inSetUp (places s1 t) /\ left (places s1 t) <= n)).
    { destruct P as (P & P'). destruct I as [En Pl Ev Kn|u En St Pl Ev Kn|Mi Pl Rn Al]; [now destruct (P (Pl t))| |destruct (Pl t); tauto].
      destruct (Nat.eq_dec t u) as [->|N]; [|now destruct (P (Pl t N))]. cbn [moveStep] in M.
      destruct (places s u) as [| |i| | | |]; cbn [left stage] in *; try tauto.
      - rewrite St, Ui in M. injection M as <-. cbn [places]. unfold goto. rewrite Nat.eqb_refl. right. split; [split; discriminate|cbn [left]; lia].
      - destruct St as (Hi & _). destruct (Nat.ltb_spec i SHARDS) as [Q|Q].
        + destruct (initShard _ i); [|discriminate M]. injection M as <-. cbn [places]. unfold goto. rewrite Nat.eqb_refl. right. split; [split; discriminate|cbn [left]; lia].
        + injection M as <-. cbn [places]. unfold goto. rewrite Nat.eqb_refl. right. split; [split; discriminate|cbn [left]; unfold SHARDS in *; lia].
      - injection M as <-. cbn [places]. unfold goto. rewrite Nat.eqb_refl. right. split; [split; discriminate|cbn [left]; lia].
      - injection M as <-. cbn [places]. unfold goto. rewrite Nat.eqb_refl. right. split; [split; discriminate|cbn [left]; lia].
      - injection M as <-. cbn [places engine tracker]. unfold goto. rewrite Nat.eqb_refl. left. split; reflexivity. }
    destruct C as [(C1 & C2)|(C1 & C2)].
    + exists 1, s1. split; [lia|]. cbn [repeat moveSteps]. rewrite M. auto.
    + destruct (IH _ s1 k U X1 C1 C2 F1) as (j & s' & Lj & M' & X' & R). exists (S j), s'. split; [lia|]. cbn [repeat moveSteps]. rewrite M.
      split; [exact M'|]. split; [|exact R]. rewrite <- app_assoc in X'. exact X'.
Qed.
Print Assumptions first_use_finishes.

Definition blank : node := mk 0 0 0 false 0%Z.
Definition static0 : Tracker :=
  mkTracker (repeat (mkShard (fun p => if Nat.ltb p 3 then Some blank else None) (fun _ => 0%Z)) SHARDS) 0 0 false.
Lemma static0_unused : unused static0.
Proof.
  split; [reflexivity|]. split; [reflexivity|]. apply Forall_forall. intros sh H. apply repeat_spec in H. subst. cbn. repeat split; try discriminate.
  intros p H. destruct p as [|[|[|p]]]; try lia. reflexivity.
Qed.
(* total, maximum, whether it is set up and where threads 1 and 2 are *)
Definition outcome (moves : list move) : option (Z * Z * bool * place * place) :=
  option_map (fun s => (MemoryTrackingGetAllocated (tracker (engine s)), MemoryTrackingGetMax (tracker (engine s)), initialised (tracker (engine s)), places s 1, places s 2))
    (moveSteps 20 (outset static0) moves).
Definition setUp (t : nat) : list move := repeat (Advance t) 25.
(* one thread sets up, the other comes when it is done *)
Definition goodMoves : list move :=
  Enter 1 :: setUp 1 ++ [Enter 2; Track 2 1000 10 3 blank; Track 1 24040 20 4 blank; Other (MallocEnd 1000); Other (MallocEnd 24040); Other (FreeBegin 1000); Other (FreeEnd 1000)].
Example first_use_cases :
  outcome [Enter 1] = Some (0%Z, 0%Z, false, Checked, Outside) /\
  outcome (Enter 1 :: repeat (Advance 1) 4) = Some (0%Z, 0%Z, false, Setting 3, Outside) /\
  outcome (Enter 1 :: repeat (Advance 1) 22) = Some (0%Z, 0%Z, false, AtAllocated, Outside) /\
  outcome (Enter 1 :: repeat (Advance 1) 24) = Some (0%Z, 0%Z, false, AtFlag, Outside) /\
  outcome (Enter 1 :: setUp 1) = Some (0%Z, 0%Z, true, Past, Outside) /\
  outcome (Enter 1 :: setUp 1 ++ [Enter 2]) = Some (0%Z, 0%Z, true, Past, Past) /\
  outcome goodMoves = Some (20%Z, 30%Z, true, Outside, Outside) /\
  outcome (Enter 1 :: setUp 1 ++ [Advance 1]) = None /\ outcome [Track 1 1000 10 3 blank] = None /\ outcome [Enter 1; Enter 1] = None.
Proof. vm_compute. repeat split. Qed.
(* the hypotheses are met by that execution *)
Example first_use_execution : exists s, execution 200 static0 goodMoves s (mkLedger [((24040, 20)%Z, 4)] [] []) /\
  TreeSpec.bound (length goodMoves) <= 200 /\ initialised (tracker (engine s)) = true.
Proof.
  assert (B : TreeSpec.bound (length goodMoves) <= 200) by (apply Nat.leb_le; vm_compute; reflexivity).
  pose proof (e_start 200 static0) as X0. assert (P0 : forall u, places (outset static0) u = Outside) by reflexivity.
  assert (O1 : orderly (outset static0) (mkLedger [] [] []) (Enter 1) (mkLedger [] [] [])) by (constructor; [reflexivity|right; exact P0]).
  pose proof (e_more _ _ _ _ _ _ _ _ X0 O1 eq_refl) as X1. cbn [app] in X1.
  destruct (first_use_finishes static0 200 1 25 _ _ _ static0_unused X1) as (j & s & Lj & M & X & P & I).
  - split; discriminate.
  - cbn. lia.
  - apply Nat.leb_le. vm_compute. reflexivity.
  - assert (j = 25) as ->.
    { clear X B X0 X1 O1 P0. destruct (Nat.eq_dec j 25) as [E|N]; [exact E|exfalso].
      change (moveSteps 200 (mkScene (mkMachine static0 [] []) (goto (outset static0) 1 Checked)) (repeat (Advance 1) j) = Some s) in M.
      assert (C : option_map (fun s => initialised (tracker (engine s))) (moveSteps 200 (mkScene (mkMachine static0 [] []) (goto (outset static0) 1 Checked)) (repeat (Advance 1) j)) = Some true) by (rewrite M; cbn [option_map]; now rewrite I).
      clear M I P s. do 25 (destruct j as [|j]; [vm_compute in C; discriminate C|]). lia. }
    clear M Lj B.
    assert (Step : forall moves s k v k', execution 200 static0 moves s k -> length moves < 36 -> orderly s k v k' -> exists s', moveStep 200 s v = Some s' /\ execution 200 static0 (moves ++ [v]) s' k').
    { intros moves s0 k v k' Y L O. destruct (first_use_defined static0 200 moves s0 k v k' static0_unused Y) as (s' & M); [|exact O|exists s'; split; [exact M|eapply e_more; eassumption]].
      refine (Nat.le_trans _ _ _ (TreeRun.bound_mono (length moves) 36 _) _); [lia|apply Nat.leb_le; vm_compute; reflexivity]. }
    assert (Pl2 : places s 2 = Outside).
    { destruct (shards_init static0 static0_unused) as (l' & E). destruct (execution_ok 200 static0 l' static0_unused E _ s _ X) as (FI0 & _); [apply Nat.leb_le; vm_compute; reflexivity|].
      destruct FI0 as [_ Q _ _|t _ St Q _ _|Mi Q _ _]; [apply Q| |].
      - destruct (Nat.eq_dec t 1) as [->|N]; [rewrite P in St; destruct St|]. rewrite (Q 1 ltac:(lia)) in P. discriminate P.
      - destruct (Q 2) as [H|H]; [exact H|]. exfalso. clear -X H.
        assert (K : forall l s k, execution 200 static0 l s k -> (forall v, In v l -> v = Enter 1 \/ v = Advance 1) -> places s 2 = Outside).
        { clear. intros l s k X. induction X as [|l s k v s' k' X IH O M]; intros V; [reflexivity|].
          specialize (IH (fun v Hv => V v (in_or_app _ _ _ (or_introl Hv)))). destruct (V v) as [-> | ->]; [apply in_or_app; right; now left| |].
          - cbn [moveStep] in M. destruct (places s 1); try discriminate M. injection M as <-. cbn [places]. unfold goto. cbn. exact IH.
          - cbn [moveStep] in M. destruct (places s 1); try discriminate M; try (injection M as <-; cbn [places]; unfold goto; cbn; exact IH).
            destruct (Nat.ltb i SHARDS); [|injection M as <-; cbn [places]; unfold goto; cbn; exact IH]. destruct (initShard _ i); [|discriminate M]. injection M as <-. cbn [places]. unfold goto. cbn. exact IH. }
        rewrite (K _ _ _ X) in H; [discriminate H|]. intros v [V|V]; [now left|]. right. apply (repeat_spec _ _ _ V). }
    destruct (Step _ _ _ (Enter 2) (mkLedger [] [] []) X) as (s1 & M1 & X2); [cbn; lia|constructor; [exact Pl2|now left]|].
    cbn [moveStep] in M1. rewrite Pl2, I in M1. injection M1 as <-.
    destruct (Step _ _ _ (Track 2 1000 10 3 blank) (mkLedger [] [((1000, 10)%Z, 3)] []) X2) as (s2 & M2 & X3);
      [cbn; lia|apply o_track; [reflexivity|apply (a_malloc (mkLedger [] [] [])); cbn; try lia; tauto]|].
    assert (Q2 : places s2 1 = Past).
    { cbn [moveStep places] in M2. unfold goto at 1 in M2. cbn [Nat.eqb] in M2. destruct (trackInsert _ _ _ _ _ _); [|discriminate M2]. injection M2 as <-. cbn [places]. unfold goto. cbn. exact P. }
    clear M2.
    destruct (Step _ _ _ (Track 1 24040 20 4 blank) (mkLedger [] [((24040, 20)%Z, 4); ((1000, 10)%Z, 3)] []) X3) as (s3 & _ & X4);
      [cbn; lia|apply o_track; [exact Q2|apply (a_malloc (mkLedger [] [((1000, 10)%Z, 3)] [])); cbn; try lia; intuition discriminate]|].
    destruct (Step _ _ _ (Other (MallocEnd 1000)) (mkLedger [((1000, 10)%Z, 3)] [((24040, 20)%Z, 4)] []) X4) as (s4 & _ & X5);
      [cbn; lia|apply o_other; [discriminate|apply (a_malloced (mkLedger [] [((24040, 20)%Z, 4); ((1000, 10)%Z, 3)] []) 1000 10 3 [((24040, 20)%Z, 4)] []); reflexivity]|].
    destruct (Step _ _ _ (Other (MallocEnd 24040)) (mkLedger [((24040, 20)%Z, 4); ((1000, 10)%Z, 3)] [] []) X5) as (s5 & _ & X6);
      [cbn; lia|apply o_other; [discriminate|apply (a_malloced (mkLedger [((1000, 10)%Z, 3)] [((24040, 20)%Z, 4)] []) 24040 20 4 [] []); reflexivity]|].
    destruct (Step _ _ _ (Other (FreeBegin 1000)) (mkLedger [((24040, 20)%Z, 4)] [] [(1000, 10)%Z]) X6) as (s6 & _ & X7);
      [cbn; lia|apply o_other; [discriminate|apply (a_free (mkLedger [((24040, 20)%Z, 4); ((1000, 10)%Z, 3)] [] []) 1000 10 3 [((24040, 20)%Z, 4)] []); reflexivity]|].
    destruct (Step _ _ _ (Other (FreeEnd 1000)) (mkLedger [((24040, 20)%Z, 4)] [] []) X7) as (s7 & _ & X8);
      [cbn; lia|apply o_other; [discriminate|apply (a_freed (mkLedger [((24040, 20)%Z, 4)] [] [(1000, 10)%Z]) 1000 10 [] []); reflexivity]|].
    exists s7. split; [exact X8|]. split; [apply Nat.leb_le; vm_compute; reflexivity|].
    destruct (first_use_serial static0 200 _ s7 _ static0_unused X8) as (Q & _); [apply Nat.leb_le; vm_compute; reflexivity|].
    destruct (initialised (tracker (engine s7))); [reflexivity|]. destruct (Q eq_refl) as (Z & _). discriminate Z.
Qed.

(* refuted when two threads call tryInit first: both see that it is not set up.  If
   thread 2 is behind in the loop, it sets up the trees again once thread 1 tracked a
   block: the total is 0 and the block has no record when it is freed, an assert *)
Theorem first_use_race_refuted :
  outcome ([Enter 1; Enter 2; Advance 2] ++ setUp 1 ++ [Track 1 1000 10 3 blank; Other (MallocEnd 1000)]) = Some (10%Z, 10%Z, true, Outside, Setting 0) /\
  outcome ([Enter 1; Enter 2; Advance 2] ++ setUp 1 ++ [Track 1 1000 10 3 blank; Other (MallocEnd 1000)] ++ repeat (Advance 2) 24) = Some (0%Z, 0%Z, true, Outside, Past) /\
  outcome ([Enter 1; Enter 2; Advance 2] ++ setUp 1 ++ [Track 1 1000 10 3 blank; Other (MallocEnd 1000)] ++ repeat (Advance 2) 24 ++ [Other (FreeBegin 1000)]) = None.
Proof. vm_compute. repeat split. Qed.
Print Assumptions first_use_race_refuted.
(* if it comes to the loop after the flag is set, it only sets the totals to 0, and the
   free makes the total wrap around *)
Theorem first_use_late_refuted :
  outcome ([Enter 1; Enter 2] ++ setUp 1 ++ [Track 1 1000 10 3 blank; Other (MallocEnd 1000)] ++ repeat (Advance 2) 4) = Some (0%Z, 0%Z, true, Outside, Past) /\
  outcome ([Enter 1; Enter 2] ++ setUp 1 ++ [Track 1 1000 10 3 blank; Other (MallocEnd 1000)] ++ repeat (Advance 2) 4 ++ [Other (FreeBegin 1000); Other (FreeEnd 1000)]) =
    Some ((2 ^ 64 - 10)%Z, 0%Z, true, Outside, Past).
Proof. vm_compute. split; reflexivity. Qed.
Print Assumptions first_use_late_refuted.
