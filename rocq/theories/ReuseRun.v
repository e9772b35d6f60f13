From Verif Require Import CacheModel CacheRun PoolProofs ResourceModel ResourceSpec ResourceProofs ResourceRun ResourceSeq ReuseModel ReuseSpec ReuseProofs.

Definition simR (m : rmanager) (n : manager) : Prop := Sim (res m) (made m) (core m) n.
Definition actOf (a : raction) : action :=
  match a with Get => CallGet | Release _ r => CallRelease r | Replace => CallReplace | FreeManager => CallFree | Go _ => Continue end.
Definition dead (n : manager) (r : nat) : Prop := exists hd, nth_error (hs n) r = Some hd /\ alive hd = false.
(* home: the block each resource was put in *)
Record GI (tr : list (event * nat)) (m : rmanager) (n : manager) (home : list nat) : Prop := {
  gi_len : length home = made m;
  gi_cur : forall h, h < length (hs (core m)) -> nth_error home (resOf m h) = Some h;
  gi_old : forall r h, nth_error home r = Some h -> h < length (hs (core m)) /\ (resOf m h = r \/ dead n r);
  gi_ev : forall t h r, In (Got t h, r) tr \/ In (RelBegin t h, r) tr -> nth_error home r = Some h }.

Lemma nth_put_keep l h hd hd' r : nth_error l r = Some hd' -> alive hd' = false -> (forall x, nth_error l h = Some x -> alive x = false -> alive hd = false) ->
  exists y, nth_error (lupd l h hd) r = Some y /\ alive y = false.
Proof.
  intros E D H. rewrite nth_lupd. destruct (Nat.eqb_spec r h) as [->|]; [rewrite E; eauto|eauto].
Qed.
Lemma dead_stays t a n n' evs r : rstep t a n = Some (n', evs) -> dead n r -> dead n' r.
Proof.
  intros Hs (hd & E & D). unfold rstep, afterDec in Hs. destruct (nth_error (thr n) t) as [x|]; [|discriminate].
  destruct x; destruct a; try discriminate; brk Hs; injection Hs as <- <-; unfold dead; cbn [setT setH touch setActive hs];
  try (eexists; split; [exact E|exact D]);
  try (eexists; split; [rewrite nth_error_app1; [exact E|apply nth_error_Some; congruence]|exact D]; fail).
  all: rewrite nth_lupd; match goal with |- context [Nat.eqb ?a ?b] => destruct (Nat.eqb_spec a b) as [Eq|] end; [|eexists; split; [exact E|exact D]].
  all: subst; rewrite E; eexists; split; [reflexivity|]; cbn [alive]; congruence.
Qed.
Lemma hs_length t a c c' evs : (forall fin b, nth_error (thr c) t = Some (RepRead fin b) -> a <> Continue) -> rstep t a c = Some (c', evs) -> length (hs c') = length (hs c) /\ forall h, ~ In (Created h) evs.
Proof.
  intros Hn Hs. unfold rstep, afterDec in Hs. destruct (nth_error (thr c) t) as [x|]; [|discriminate].
  destruct x; destruct a; try discriminate; try (destruct (Hn _ _ eq_refl eq_refl); fail); brk Hs; injection Hs as <- <-; cbn; rewrite ?length_lupd; (split; [reflexivity|]); intros; intuition discriminate.
Qed.
Lemma got_ref t a c c' evs s h : rstep t a c = Some (c', evs) -> In (Got s h) evs -> exists x, nth_error (thr c) t = Some x /\ refersTo x h.
Proof.
  intros Hs. unfold rstep, afterDec in Hs. destruct (nth_error (thr c) t) as [x|]; [|discriminate]. intros Hi. exists x. split; [reflexivity|].
  destruct x; destruct a; try discriminate; brk Hs; injection Hs as <- <-; cbn in Hi; try (exfalso; intuition discriminate).
  destruct Hi as [Hi|[]]. injection Hi as <- <-. cbn. unfold inCounter. auto.
Qed.
Lemma rel_act t a c c' evs s h : rstep t a c = Some (c', evs) -> In (RelBegin s h) evs -> a = CallRelease h.
Proof.
  intros Hs Hi. unfold rstep, afterDec in Hs. destruct (nth_error (thr c) t) as [x|]; [|discriminate].
  destruct x; destruct a; try discriminate; brk Hs; injection Hs as <- <-; cbn in Hi; try (exfalso; intuition discriminate).
  destruct Hi as [Hi|[]]. injection Hi as <- <-. reflexivity.
Qed.
Lemma gi_step tr m n home t a c' evs n' e' evs' : GI tr m n home -> simR m n -> rstep t a (core m) = Some (c', evs) ->
  (forall fin b, nth_error (thr (core m)) t = Some (RepRead fin b) -> a <> Continue) -> (forall h, a <> CallRelease h) ->
  rstep t e' n = Some (n', evs') -> GI (note m evs ++ tr) (mkR c' (res m) (made m)) n' home.
Proof.
  intros G S Hs Hn Hr Hs'. destruct (hs_length _ _ _ _ _ Hn Hs) as (El & _). split; cbn [made core res]; rewrite ?El.
  - apply (gi_len _ _ _ _ G).
  - apply (gi_cur _ _ _ _ G).
  - intros r h H. destruct (gi_old _ _ _ _ G _ _ H) as (A & [B|B]); split; auto. right. eapply dead_stays; eauto.
  - intros s h r [H|H]; apply in_app_iff in H; destruct H as [H|H]; [|exact (gi_ev _ _ _ _ G s h r (or_introl H))| |exact (gi_ev _ _ _ _ G s h r (or_intror H))];
    unfold note in H; apply in_map_iff in H; destruct H as (e & X & Hi); injection X as -> <-; cbn [blockOf].
    + destruct (got_ref _ _ _ _ _ _ _ Hs Hi) as (x & Ex & Rx). apply (gi_cur _ _ _ _ G). exact (s_ref _ _ _ _ S _ _ _ Ex Rx).
    + destruct (Hr h). eapply rel_act; eauto.
Qed.

Lemma sum_pos {A} (f : A -> nat) l : list_sum (map f l) > 0 -> exists x, In x l /\ f x > 0.
Proof. induction l as [|y l IH]; cbn; [lia|]. intros H. fold (list_sum (map f l)) in H. destruct (f y) eqn:E; [destruct IH as (x & A1 & A2); [lia|]; eauto|]. exists y. split; auto. lia. Qed.
Lemma counts_at home h r tr : (forall t k s, In (Got t k, s) tr \/ In (RelBegin t k, s) tr -> nth_error home s = Some k) -> nth_error home r = Some h ->
  list_sum (map (isGotAt h r) tr) = count (isGot r) (view tr) /\ list_sum (map (isRelAt h r) tr) = count (isRel r) (view tr).
Proof.
  intros H E. induction tr as [|(e, s) tr IH]; [split; reflexivity|].
  assert (forall t k s, In (Got t k, s) tr \/ In (RelBegin t k, s) tr -> nth_error home s = Some k) as H1 by (intros t k s0 [X|X]; apply (H t k s0); [left|right]; right; auto).
  destruct (IH H1) as (I1 & I2). unfold count, view in *. cbn [map list_sum fold_right]. fold (list_sum (map (isGotAt h r) tr)) (list_sum (map (isRelAt h r) tr)).
  rewrite I1, I2. unfold list_sum. cbn [fold_right]. split; f_equal; destruct e as [ | |t| | | | | | | | |]; cbn; auto.
  - destruct (Nat.eqb_spec s r) as [->|]; [|now rewrite andb_false_r]. rewrite andb_true_r. pose proof (H t h0 r (or_introl (or_introl eq_refl))) as X. rewrite E in X. injection X as <-. now rewrite Nat.eqb_refl.
  - destruct (Nat.eqb_spec s r) as [->|]; [|now rewrite andb_false_r]. rewrite andb_true_r. pose proof (H t h0 r (or_intror (or_introl eq_refl))) as X. rewrite E in X. injection X as <-. now rewrite Nat.eqb_refl.
Qed.
Lemma ren_replacing f x : replacing (renT f x) = replacing x.
Proof. destruct x as [| | | |[|]|[|]|[|]|[|]| | | | | | |]; reflexivity. Qed.
Lemma ren_getting f x : getting (renT f x) = getting x.
Proof. destruct x as [| | | |[|]|[|]|[|]|[|]| | | | | | |]; reflexivity. Qed.

Lemma sim_reuse W nt tr m n home t a m' evs : exec W nt (view tr) n -> simR m n -> GI tr m n home -> reuseUsed tr m a -> quarantine m t a ->
  reuseStep t a m = Some (m', evs) ->
  wellUsed (view tr) n (actOf a) /\ exists n' home', rstep t (actOf a) n = Some (n', view evs) /\ simR m' n' /\ GI (evs ++ tr) m' n' home'.
Proof.
  intros He S G Hu Hq Hs.
  assert (forall b, (forall h, b <> CallRelease h) -> (forall fin c, nth_error (thr (core m)) t = Some (RepRead fin c) -> b <> Continue) -> lift m (rstep t b (core m)) = Some (m', evs) ->
    exists n' home', rstep t b n = Some (n', view evs) /\ simR m' n' /\ GI (evs ++ tr) m' n' home') as HL.
  { intros b Nb Nc Hb. unfold lift in Hb. destruct (rstep t b (core m)) as [(c', es)|] eqn:Es; [|discriminate]. injection Hb as <- <-.
    destruct (sim_step _ _ _ _ t b c' es S) with (3 := Es) as (n' & E1 & E2).
    - intros h ->. destruct (Nb h eq_refl).
    - intros -> fin c X. exact (Nc _ _ X eq_refl).
    - exists n', home. rewrite view_note. assert (renA (at_ (res m)) b = b) as Eb by (destruct b; auto; destruct (Nb h eq_refl)). rewrite Eb in E1. split; [exact E1|]. split; [exact E2|].
      eapply gi_step; eauto. }
  destruct a as [|h r| | |p]; cbn [reuseStep actOf reuseUsed wellUsed] in *.
  - split; auto. apply HL; auto; discriminate.
  - unfold holders in Hu. destruct (sum_pos (isGotAt h r) tr) as ((e, s) & Hi & Hp); [lia|]. destruct e; cbn in Hp; try lia.
    destruct (Nat.eqb_spec h0 h) as [->|], (Nat.eqb_spec s r) as [->|]; cbn in Hp; try lia.
    pose proof (gi_ev _ _ _ _ G _ _ _ (or_introl Hi)) as Eh. destruct (counts_at home h r tr (gi_ev _ _ _ _ G) Eh) as (C1 & C2).
    assert (users (view tr) r > 0) as Up by (unfold users; lia). split; auto.
    destruct (gi_old _ _ _ _ G _ _ Eh) as (Lh & [Er|(hd & Ed & Da)]).
    + destruct (rstep t (CallRelease h) (core m)) as [(c', es)|] eqn:Es; [|discriminate]. injection Hs as <- <-.
      destruct (sim_step _ _ _ _ t (CallRelease h) c' es S) with (3 := Es) as (n' & E1 & E2); [intros k X; injection X as <-; auto|discriminate|].
      cbn [renA] in E1. change (at_ (res m) h) with (resOf m h) in E1. rewrite Er in E1.
      assert (view [(RelBegin t h, r)] = map (renE (at_ (res m))) es) as Ev.
      { unfold rstep in Es. destruct (nth_error (thr (core m)) t) as [[]|]; try discriminate. injection Es as _ <-. cbn. change (at_ (res m) h) with (resOf m h). rewrite Er. reflexivity. }
      rewrite Ev. exists n', home. split; [exact E1|]. split; [exact E2|].
      destruct (hs_length t (CallRelease h) _ _ _ ltac:(discriminate) Es) as (El & _). split; cbn [made core res]; rewrite ?El.
      * apply (gi_len _ _ _ _ G).
      * apply (gi_cur _ _ _ _ G).
      * intros r' h' H. destruct (gi_old _ _ _ _ G _ _ H) as (A & [B|B]); split; auto. right. eapply dead_stays; eauto.
      * intros s k q [[X|X]|[X|X]]; try discriminate X; [apply (gi_ev _ _ _ _ G s); auto| |apply (gi_ev _ _ _ _ G s); auto]. injection X as <- <- <-. exact Eh.
    + exfalso. pose proof (exec_RI _ _ _ _ He) as HI. pose proof (ri_h _ _ HI _ _ Ed) as Hv. unfold HInv in Hv. rewrite Da in Hv. destruct Hv as (V1 & V2 & _ & _ & _ & V3).
      destruct V3 as [V3|V3].
      * destruct (reach_freed _ _ _ _ r He) as (_ & X). unfold timesFreed in X. destruct (X V3). lia.
      * destruct (sum_pos (isHFreed r) (view tr)) as (e & Ie & Pe); [unfold count in V3; lia|]. destruct e; cbn in Pe; try lia. destruct (Nat.eqb_spec h0 r) as [->|]; [|lia].
        destruct (nf_ev _ _ (exec_NF _ _ _ _ He) _ Ie) as (_ & X). unfold users in Up. lia.
  - split; auto. apply HL; auto; discriminate.
  - split; [split; [apply Hu|]|apply HL; auto; discriminate]. intros s x Hx. rewrite (s_thr _ _ _ _ S), nth_error_map in Hx.
    destruct (nth_error (thr (core m)) s) as [y|] eqn:Ey; [|discriminate]. injection Hx as <-. rewrite ren_replacing, ren_getting. apply (proj2 Hu _ _ Ey).
  - split; auto. destruct (nth_error (thr (core m)) t) as [x|] eqn:Et; [|unfold rstep in Hs; rewrite Et in Hs; discriminate].
    assert ((exists fin b, x = RepRead fin b) \/ (forall fin b, x <> RepRead fin b) /\ lift m (rstep t Continue (core m)) = Some (m', evs)) as [(fin & b & ->)|(Nx & Hl)].
    { destruct x; try (right; split; [discriminate|exact Hs]; fail). left. eauto. }
    2: { apply HL; auto; try discriminate. intros fin c X. exfalso. injection X as X. exact (Nx _ _ X). }
    destruct (nth_error (hs (core m)) b) as [hd|] eqn:Eb; [|discriminate]. destruct (freeBlock m p) eqn:Ef; [|discriminate]. injection Hs as <- <-.
    destruct (Hq _ _ Et) as (Na & Nr).
    assert (p <= length (hs (core m)) /\ forall x, nth_error (hs (core m)) p = Some x -> alive x = false) as (Lp & Dp).
    { unfold freeBlock in Ef. destruct (nth_error (hs (core m)) p) as [y|] eqn:Ey.
      - split; [assert (p < length (hs (core m))) by (apply nth_error_Some; congruence); lia|]. intros x X. injection X as <-. destruct (alive y); [discriminate|auto].
      - apply Nat.eqb_eq in Ef. split; [lia|discriminate]. }
    destruct (sim_alloc _ _ _ _ t fin b hd p S Et Eb Lp Na Nr) as (n' & E1 & E2). exists n', (home ++ [p]). split; [exact E1|]. split; [exact E2|].
    pose proof (gi_len _ _ _ _ G) as Gl. pose proof (s_len _ _ _ _ S) as Rl. pose proof (s_made _ _ _ _ S) as Ml.
    assert (forall k, resOf (mkR (setT t (Inc (ForReplace p fin)) (touch hd (mkM (put (hs (core m)) p (mkH 0 true true)) (active (core m)) (touched (core m)) (thr (core m))))) (put (res m) p (made m)) (Datatypes.S (made m))) k =
      if Nat.eqb k p then made m else resOf m k) as Rp by (intros k; apply (at_put (res m) p (made m) k); lia).
    split; cbn [made core setT touch hs]; rewrite ?put_length by auto.
    + rewrite app_length. cbn. lia.
    + intros h Lh. rewrite Rp. destruct (Nat.eqb_spec h p) as [->|Ne].
      * rewrite nth_error_app2 by lia. rewrite Gl, Nat.sub_diag. reflexivity.
      * rewrite nth_error_app1; [apply (gi_cur _ _ _ _ G); lia|]. rewrite Gl, <- Ml. apply nth_error_Some. destruct (nth_error (hs (core m)) h) as [y|] eqn:Ey; [|apply nth_error_None in Ey; lia].
        unfold resOf. pose proof (s_h _ _ _ _ S _ _ Ey) as X. unfold at_ in X. rewrite X. discriminate.
    + intros r h H. rewrite Rp. destruct (Nat.lt_ge_cases r (length home)) as [Lr|Gr].
      * rewrite nth_error_app1 in H by auto. destruct (gi_old _ _ _ _ G _ _ H) as (A & B). split; [lia|]. destruct (Nat.eqb_spec h p) as [->|].
        { right. eapply dead_stays; [exact E1|]. destruct B as [<-|B]; auto. destruct (nth_error (hs (core m)) p) as [y|] eqn:Ey; [|apply nth_error_None in Ey; lia].
          exists y. split; [exact (s_h _ _ _ _ S _ _ Ey)|auto]. }
        { destruct B as [B|B]; auto. right. eapply dead_stays; eauto. }
      * rewrite nth_error_app2 in H by auto. destruct (r - length home) as [|d] eqn:Er; [|destruct d; discriminate]. injection H as <-. split; [lia|]. rewrite Nat.eqb_refl. left. lia.
    + intros s h r H. assert (nth_error home r = Some h) as X.
      { apply (gi_ev _ _ _ _ G s). destruct H as [[X|H]|[X|H]]; try discriminate X; auto. }
      rewrite nth_error_app1; auto. apply nth_error_Some. congruence.
Qed.

Lemma reuse_exec (W : rmanager -> nat -> raction -> Prop) (W' : manager -> nat -> action -> Prop) nt :
  (forall tr m n t a m' evs, exec W' nt (view tr) n -> simR m n -> W m t a -> reuseStep t a m = Some (m', evs) -> quarantine m t a) ->
  (forall m n t a, simR m n -> W m t a -> W' n t (actOf a)) ->
  forall tr m, rexec W nt tr m -> exists n home, exec W' nt (view tr) n /\ simR m n /\ GI tr m n home.
Proof.
  intros HQ HW tr m. induction 1 as [|tr m t a m' evs He (n & home & IH & S & G) Hu Hw Hs].
  - exists (fst (ManagerInit nt)), [0]. split; [constructor|]. split.
    + split; cbn.
      * reflexivity.
      * reflexivity.
      * intros [|h] hd H; cbn in *; [exact H|destruct h; discriminate].
      * intros h k Hh Hk _. lia.
      * lia.
      * reflexivity.
      * reflexivity.
      * clear. induction nt as [|k IHk]; cbn; [reflexivity|]. f_equal. exact IHk.
      * intros t x h Hx. apply nth_error_In, repeat_spec in Hx. subst. cbn. tauto.
    + split; cbn.
      * reflexivity.
      * intros h Hh. assert (h = 0) as -> by lia. reflexivity.
      * intros [|r] h H; cbn in H; [injection H as <-; split; [lia|left; reflexivity]|destruct r; discriminate].
      * intros t h r [[X|[]]|[X|[]]]; discriminate.
  - destruct (sim_reuse _ _ _ _ _ _ _ _ _ _ IH S G Hu (HQ _ _ _ _ _ _ _ IH S Hw Hs) Hs) as (U & n' & home' & E1 & E2 & E3).
    exists n', home'. split; [|auto]. unfold view. rewrite map_app. econstructor; eauto.
Qed.
