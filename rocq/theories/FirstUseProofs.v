(* Proofs about the first use of the tracker. *)
From Verif Require Import MemoryProofs.
From Verif Require TreeSpec.
From Verif Require Export FirstUseModel FirstUseSpec.
Import TreeSpec(bound).

Lemma init_nth l : forall l' i sh, initShards l = Some l' -> nth_error l i = Some sh ->
  exists h, TreeRootInit (nodes sh) = Some (tt, h) /\ nth_error l' i = Some (mkShard h (sizes sh)).
Proof.
  induction l as [|x l IH]; intros l' i sh E N; [destruct i; discriminate N|]. cbn [initShards] in E.
  destruct (TreeRootInit (nodes x)) as [([], h)|] eqn:T; [|discriminate E]. destruct (initShards l) as [rest|] eqn:R; [|discriminate E]. injection E as <-.
  destruct i as [|i]; cbn [nth_error] in *; [injection N as <-; eauto|]. now apply IH.
Qed.
Lemma init_length l : forall l', initShards l = Some l' -> length l' = length l.
Proof.
  induction l as [|x l IH]; intros l' E; cbn [initShards] in E; [now injection E as <-|].
  destruct (TreeRootInit (nodes x)) as [([], h)|]; [|discriminate E]. destruct (initShards l) as [rest|]; [|discriminate E]. injection E as <-. cbn. f_equal. now apply IH.
Qed.
Lemma firstn_S {A} (l : list A) i x : nth_error l i = Some x -> firstn (S i) l = firstn i l ++ [x].
Proof. revert i. induction l as [|y l IH]; intros [|i] E; cbn in *; try discriminate E; [now injection E as ->|]. f_equal. now apply IH. Qed.
Lemma skipn_nth {A} (l : list A) i x : nth_error l i = Some x -> skipn i l = x :: skipn (S i) l.
Proof. revert i. induction l as [|y l IH]; intros [|i] E; cbn in *; try discriminate E; [now injection E as ->|]. now apply IH. Qed.

(* the tracker while shards up to i are set up *)
Definition halfway (st : Tracker) (l' : list Shard) (i : nat) : list Shard := firstn i l' ++ skipn i (shards st).
Lemma halfway_step st l' i a x b : initShards (shards st) = Some l' -> i < length (shards st) ->
  initShard (mkTracker (halfway st l' i) a x b) i = Some (mkTracker (halfway st l' (S i)) a x b).
Proof.
  intros E L. pose proof (init_length _ _ E) as Ll. destruct (nth_error (shards st) i) as [sh|] eqn:N; [|apply nth_error_None in N; lia].
  destruct (init_nth _ _ _ _ E N) as (h & T & N'). unfold initShard, halfway. cbn [shards].
  assert (F : length (firstn i l') = i) by (rewrite firstn_length; lia).
  rewrite nth_error_app2 by lia. rewrite F, Nat.sub_diag. rewrite (skipn_nth _ _ _ N). cbn [nth_error]. rewrite T. cbn [allocatedTotal maxTotal initialised]. do 2 f_equal.
  rewrite (firstn_S _ _ _ N'). unfold setShard. rewrite firstn_app, F, Nat.sub_diag. cbn [firstn]. rewrite app_nil_r. rewrite firstn_firstn, Nat.min_id.
  rewrite skipn_app, F. rewrite skipn_all2 by lia. replace (S i - i) with 1 by lia. cbn [skipn app]. rewrite <- app_assoc. reflexivity.
Qed.

(* how far the set-up is *)
Definition stage (st : Tracker) (l' : list Shard) (x : place) (t : Tracker) : Prop :=
  match x with
  | Checked => t = st
  | Setting i => i <= SHARDS /\ t = mkTracker (halfway st l' i) (allocatedTotal st) (maxTotal st) false
  | AtAllocated => t = mkTracker l' (allocatedTotal st) (maxTotal st) false
  | AtMax => t = mkTracker l' 0 (maxTotal st) false
  | AtFlag => t = mkTracker l' 0 0 false
  | Outside | Past => False
  end.
Inductive FI (fuel : nat) (st : Tracker) (l' : list Shard) (moves : list move) (s : scene) (k : ledger) : Prop :=
| fi_none : engine s = mkMachine st [] [] -> (forall u, places s u = Outside) -> eventsOf moves = [] -> k = mkLedger [] [] [] -> FI fuel st l' moves s k
| fi_one t : engine s = mkMachine (tracker (engine s)) [] [] -> stage st l' (places s t) (tracker (engine s)) -> (forall u, u <> t -> places s u = Outside) ->
    eventsOf moves = [] -> k = mkLedger [] [] [] -> FI fuel st l' moves s k
| fi_all : minv (engine s) k -> (forall u, places s u = Outside \/ places s u = Past) ->
    runEvents fuel (mkMachine (mkTracker l' 0 0 true) [] []) (eventsOf moves) = Some (engine s) ->
    allowedRun (mkLedger [] [] []) (eventsOf moves) k -> FI fuel st l' moves s k.

Lemma events_snoc l v : eventsOf (l ++ [v]) = eventsOf l ++ eventOf v.
Proof. unfold eventsOf. rewrite flat_map_app. cbn. now rewrite app_nil_r. Qed.
Lemma allowed_snoc l a m e n : allowedRun l a m -> allowed m e n -> allowedRun l (a ++ [e]) n.
Proof. intros H. induction H; intros A; cbn [app]; [econstructor; [exact A|constructor]|econstructor; eauto]. Qed.
Lemma tracker_eta s : s = mkTracker (shards s) (allocatedTotal s) (maxTotal s) (initialised s).
Proof. now destruct s. Qed.
Lemma nothing_in_progress e k : allowed (mkLedger [] [] []) e k -> exists p size record garbage, e = MallocBegin p size record garbage.
Proof. intros H. inversion H; subst; eauto; cbn in *; match goal with X : [] = ?a ++ _ |- _ => destruct a; discriminate X end. Qed.

Lemma step_ok fuel st l' moves s k v k' : unused st -> initShards (shards st) = Some l' -> FI fuel st l' moves s k -> orderly s k v k' ->
  bound (length (tracked k)) <= fuel -> exists s', moveStep fuel s v = Some s' /\ FI fuel st l' (moves ++ [v]) s' k'.
Proof.
  intros U E I O F. pose proof U as (Ul & Ui & _). pose proof (init_length _ _ E) as Ll.
  destruct I as [En Pl Ev Kn|t En St Pl Ev Kn|Mi Pl Rn Al].
  - (* nobody *)
    destruct O as [k t P H|k t (P & _)|k t p size r g k' P A|k e k' N A].
    + cbn [moveStep]. rewrite P, En. cbn [tracker]. rewrite Ui. eexists. split; [reflexivity|]. eapply (fi_one _ _ _ _ _ _ t).
      * reflexivity.
      * cbn [places engine tracker]. unfold goto. rewrite Nat.eqb_refl. reflexivity.
      * intros u Hu. cbn [places]. unfold goto. destruct (Nat.eqb_spec u t); [contradiction|apply Pl].
      * rewrite events_snoc, Ev. reflexivity.
      * exact Kn.
    + destruct (P (Pl t)).
    + rewrite Pl in P. discriminate P.
    + subst k. destruct (nothing_in_progress _ _ A) as (p & size & r & g & ->). now destruct (N p size r g).
  - (* one *)
    assert (Ex : forall u, u <> t -> places s u = Outside) by exact Pl.
    destruct O as [k u P H|k u (P & P')|k u p size r g k' P A|k e k' N A].
    + exfalso. destruct H as [H|H].
      * rewrite En in H. cbn [tracker] in H. destruct (places s t); cbn [stage] in St; try (destruct St as (_ & St)); try contradiction; rewrite St in H; try discriminate H. congruence.
      * rewrite H in St. exact St.
    + destruct (Nat.eq_dec u t) as [->|Nu]; [|now destruct (P (Pl u Nu))].
      cbn [moveStep]. unfold withTracker. rewrite En. cbn [tracker adding subtracting].
      assert (G : forall x u, u <> t -> goto s t x u = Outside) by (intros x u Hu; unfold goto; destruct (Nat.eqb_spec u t); [contradiction|now apply Pl]).
      assert (T : forall x, goto s t x t = x) by (intros x; unfold goto; now rewrite Nat.eqb_refl).
      destruct (places s t) as [| |i| | | |] eqn:Hp; cbn [stage] in St; try contradiction.
      * rewrite St, Ui. eexists. split; [reflexivity|]. eapply (fi_one _ _ _ _ _ _ t); cbn [engine places tracker]; [reflexivity|rewrite T; cbn [stage]|apply G|now rewrite events_snoc, Ev|exact Kn].
        split; [lia|]. unfold halfway. cbn [firstn skipn app]. rewrite <- Ui. apply tracker_eta.
      * destruct St as (Hi & St). rewrite St. destruct (Nat.ltb_spec i SHARDS) as [L|L].
        -- rewrite (halfway_step st l' i _ _ _ E) by lia. eexists. split; [reflexivity|].
           eapply (fi_one _ _ _ _ _ _ t); cbn [engine places tracker]; [reflexivity|rewrite T; cbn [stage]; split; [lia|reflexivity]|apply G|now rewrite events_snoc, Ev|exact Kn].
        -- eexists. split; [reflexivity|]. assert (i = SHARDS) by lia. subst i.
           eapply (fi_one _ _ _ _ _ _ t); cbn [engine places tracker]; [reflexivity|rewrite T; cbn [stage]|apply G|now rewrite events_snoc, Ev|exact Kn].
           unfold halfway. rewrite firstn_all2 by lia. rewrite skipn_all2 by lia. now rewrite app_nil_r.
      * rewrite St. eexists. split; [reflexivity|].
        eapply (fi_one _ _ _ _ _ _ t); cbn [engine places tracker]; [reflexivity|rewrite T; reflexivity|apply G|now rewrite events_snoc, Ev|exact Kn].
      * rewrite St. eexists. split; [reflexivity|].
        eapply (fi_one _ _ _ _ _ _ t); cbn [engine places tracker]; [reflexivity|rewrite T; reflexivity|apply G|now rewrite events_snoc, Ev|exact Kn].
      * rewrite St. eexists. split; [reflexivity|]. apply fi_all; cbn [engine places].
        -- destruct (start_ok st U) as (st' & T' & I'). unfold tryInit, MemoryTrackingReset in T'. rewrite Ui, E in T'. injection T' as <-. rewrite Kn. exact I'.
        -- intros u. destruct (Nat.eq_dec u t) as [->|Nu]; [right; apply T|left; now apply G].
        -- rewrite events_snoc, Ev. reflexivity.
        -- rewrite events_snoc, Ev, Kn. constructor.
    + exfalso. destruct (Nat.eq_dec u t) as [->|Nu]; [rewrite P in St; exact St|]. rewrite (Pl u Nu) in P. discriminate P.
    + subst k. destruct (nothing_in_progress _ _ A) as (p & size & r & g & ->). now destruct (N p size r g).
  - (* set up *)
    pose proof (mi_init _ _ Mi) as Hi.
    destruct O as [k t P H|k t (P & P')|k t p size r g k' P A|k e k' N A].
    + cbn [moveStep]. rewrite P, Hi. eexists. split; [reflexivity|]. apply fi_all; cbn [engine places]; [exact Mi| | |].
      * intros u. unfold goto. destruct (Nat.eqb_spec u t); [now right|apply Pl].
      * rewrite events_snoc. cbn [eventOf]. rewrite app_nil_r. exact Rn.
      * rewrite events_snoc. cbn [eventOf]. rewrite app_nil_r. exact Al.
    + exfalso. destruct (Pl t); tauto.
    + inversion A as [? ? ? ? ? B1 B2 B3 B4 B5 B6| | |]; subst. destruct (step_malloc fuel _ _ p size r g Mi F B1 B2 B3 B4 B5 B6) as (m' & Em & Mi').
      cbn [moveStep]. rewrite P. pose proof Em as Er. cbn [runEvent] in Em. unfold tryInit in Em. rewrite Hi in Em.
      destruct (trackInsert fuel (tracker (engine s)) p size r g) as [st'|]; [|discriminate Em]. cbn [option_map] in *.
      assert (X : mkMachine st' ((p, size) :: adding (engine s)) (subtracting (engine s)) = m') by congruence. rewrite X.
      eexists. split; [reflexivity|]. apply fi_all; cbn [engine places]; [exact Mi'| | |].
      * intros u. unfold goto. destruct (Nat.eqb_spec u t); [now left|apply Pl].
      * rewrite events_snoc, runEvents_app, Rn. cbn [eventOf runEvents]. now rewrite Er.
      * rewrite events_snoc. eapply allowed_snoc; eassumption.
    + assert (exists m', runEvent fuel (engine s) e = Some m' /\ minv m' k') as (m' & Em & Mi').
      { destruct A; [eapply step_malloc|eapply step_malloced|eapply step_free|eapply step_freed]; eauto. }
      exists (mkScene m' (places s)). split.
      * cbn [moveStep]. destruct e as [p size r g|p|p|p]; [now destruct (N p size r g)| | |]; rewrite Em; reflexivity.
      * apply fi_all; cbn [engine places]; [exact Mi'|exact Pl| |].
        -- rewrite events_snoc, runEvents_app, Rn. cbn [eventOf runEvents]. now rewrite Em.
        -- rewrite events_snoc. eapply allowed_snoc; eassumption.
Qed.
Lemma orderly_grows s k v k' : orderly s k v k' -> length (tracked k') <= S (length (tracked k)).
Proof. intros O. destruct O; try lia; eapply allowed_grows; eassumption. Qed.
Lemma execution_ok fuel st l' : unused st -> initShards (shards st) = Some l' -> forall moves s k, execution fuel st moves s k -> bound (length moves) <= fuel ->
  FI fuel st l' moves s k /\ length (tracked k) <= length moves.
Proof.
  intros U E moves s k X. induction X as [|l s k v s' k' X IH O M]; intros F.
  - split; [apply fi_none; reflexivity|cbn; lia].
  - rewrite app_length in F. cbn [length] in F. pose proof (TreeRun.bound_mono (length l) (length l + 1) ltac:(lia)) as B. destruct (IH ltac:(lia)) as (I & L).
    pose proof (TreeRun.bound_mono (length (tracked k)) (length l) L) as B2.
    destruct (step_ok fuel st l' l s k v k' U E I O ltac:(lia)) as (s2 & M2 & I2). assert (s2 = s') as -> by congruence. split; [exact I2|].
    rewrite app_length. cbn [length]. pose proof (orderly_grows _ _ _ _ O). lia.
Qed.
Lemma shards_init st : unused st -> exists l', initShards (shards st) = Some l'.
Proof. intros (_ & _ & F). destruct (initShards_good _ F) as (l' & E & _). eauto. Qed.
