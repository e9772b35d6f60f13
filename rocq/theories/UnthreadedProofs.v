(* Proofs about resource.c without threads: each call is the threaded one run alone. *)
From Verif Require PoolProofs.
From Verif Require Import CacheRun ResourceSpec ResourceProofs ResourceRun ResourceSeq.
From Verif Require Export UnthreadedModel UnthreadedSpec.

(* k steps of thread 0 *)
Fixpoint srun (k : nat) (m : manager) : option (manager * list event) :=
  match k with
  | 0 => Some (m, [])
  | S k' =>
    match rstep 0 Continue m with
    | Some (m1, e1) => match srun k' m1 with Some (m2, e2) => Some (m2, e2 ++ e1) | None => None end
    | None => None
    end
  end.
Lemma rstep_len t a m m' evs : rstep t a m = Some (m', evs) -> length (thr m') = length (thr m).
Proof.
  unfold rstep, afterDec. intros H. destruct (nth_error (thr m) t) as [x|]; [|discriminate H]. destruct x; try discriminate H; destruct a; try discriminate H;
  try match goal with k : option nat |- _ => destruct k end;
  repeat match type of H with context [match ?x with _ => _ end] => destruct x; try discriminate H end;
  injection H as <- _; cbn; rewrite ?length_lupd; reflexivity.
Qed.
Lemma alone m t a : length (thr m) = 1 -> t = 0 -> sequential m t a.
Proof. intros L -> t' x N E. assert (t' < length (thr m)) by (apply nth_error_Some; congruence). lia. Qed.
Lemma srun_exec k : forall tr m m' evs, exec sequential 1 tr m -> length (thr m) = 1 -> srun k m = Some (m', evs) -> exec sequential 1 (evs ++ tr) m'.
Proof.
  induction k as [|k IH]; intros tr m m' evs X L H; cbn [srun] in H.
  - assert (m' = m) by congruence. assert (evs = []) by congruence. subst. exact X.
  - destruct (rstep 0 Continue m) as [(m1, e1)|] eqn:R; [|discriminate H]. destruct (srun k m1) as [(m2, e2)|] eqn:S; [|discriminate H].
    assert (m' = m2) by congruence. assert (evs = e2 ++ e1) by congruence. subst. rewrite <- app_assoc. eapply IH; [|rewrite (rstep_len _ _ _ _ _ R); exact L|exact S].
    apply (exec_step _ _ _ m 0 Continue); [exact X|exact I|now apply alone|exact R].
Qed.
Lemma srun_app j k : forall m m1 e1 m2 e2, srun j m = Some (m1, e1) -> srun k m1 = Some (m2, e2) -> srun (j + k) m = Some (m2, e2 ++ e1).
Proof.
  induction j as [|j IH]; intros m m1 e1 m2 e2 A B; cbn [srun Nat.add] in *.
  - assert (m = m1) by congruence. assert (e1 = []) by congruence. subst. rewrite app_nil_r. exact B.
  - destruct (rstep 0 Continue m) as [(ma, ea)|]; [|discriminate A]. destruct (srun j ma) as [(mb, eb)|] eqn:S; [|discriminate A].
    assert (mb = m1) by congruence. assert (e1 = eb ++ ea) by congruence. subst. rewrite (IH _ _ _ _ _ S B), app_assoc. reflexivity.
Qed.
Lemma nth_self {A} (l : list A) i v x : nth_error l i = Some x -> nth_error (lupd l i v) i = Some v.
Proof. intros E. apply PoolProofs.nth_lupd_eq. apply nth_error_Some. congruence. Qed.
Lemma lupd_lupd {A} (l : list A) i v w : lupd (lupd l i v) i w = lupd l i w.
Proof. revert i. induction l as [|a l IH]; intros [|i]; cbn [lupd]; [reflexivity..|]. now rewrite IH. Qed.

(* a release run alone *)
Definition frees (hd : handle) (a h : nat) : bool := Z.eqb (inUse hd - 1) 0 && negb (Nat.eqb a h).
Lemma dec_run h hd l a tch k : nth_error l h = Some hd -> self hd = true -> alive hd = true -> exists n,
  srun n (mkM l a tch [Dec h k]) =
  Some (mkM (lupd l h (if frees hd a h then mkH 0 false false else mkH (inUse hd - 1) true true)) a tch [match k with None => Idle | Some nh => FreeNew nh end],
        (match k with None => [Done 0] | Some _ => [] end) ++ (if frees hd a h then [Freed h] else [])).
Proof.
  intros E S A. destruct hd as [c s b]. cbn [self alive] in S, A. subst s b. unfold frees. cbn [inUse].
  assert (S1 : forall n, srun (S (S n)) (mkM l a tch [Dec h k]) =
    match (if Z.eqb (c - 1) 0 then Some (mkM (lupd l h (mkH (c - 1) true true)) a tch [DecZero h k], []) else Some (afterDec 0 k (mkM (lupd l h (mkH (c - 1) true true)) a tch [DecCas h k (c, Some h)]))) with
    | Some (m1, e1) => match srun n m1 with Some (m2, e2) => Some (m2, (e2 ++ e1) ++ []) | None => None end | None => None end).
  { intros n. cbn [srun]. unfold rstep at 1. cbn [thr nth_error hs]. rewrite E. unfold setT, setH, touch, setActive; cbn [hs active touched thr lupd alive negb counterOf inUse self].
    rewrite orb_false_r. unfold rstep at 1. cbn [thr nth_error hs]. rewrite E. cbn [counterOf inUse self]. rewrite counter_eqb_refl. unfold setT, setH, touch, setActive; cbn [hs active touched thr lupd alive negb inUse self].
    rewrite orb_false_r. destruct (Z.eqb (c - 1) 0); [destruct (srun n _) as [(m2, e2)|]; reflexivity|].
    destruct (afterDec 0 k _) as (m1, e1). destruct (srun n m1) as [(m2, e2)|]; reflexivity. }
  destruct (Z.eqb_spec (c - 1) 0) as [Zc|Nz].
  - assert (S2 : forall n, srun (S n) (mkM (lupd l h (mkH (c - 1) true true)) a tch [DecZero h k]) =
      match (if Nat.eqb a h then Some (afterDec 0 k (mkM (lupd l h (mkH (c - 1) true true)) a tch [DecZero h k])) else Some (mkM (lupd l h (mkH (c - 1) true true)) a tch [DecEmpty h k], [])) with
      | Some (m1, e1) => match srun n m1 with Some (m2, e2) => Some (m2, e2 ++ e1) | None => None end | None => None end).
    { intros n. cbn [srun]. unfold rstep at 1. cbn [thr nth_error hs]. rewrite (nth_self _ _ _ _ E). unfold setT, setH, touch, setActive; cbn [hs active touched thr lupd alive negb]. rewrite orb_false_r. reflexivity. }
    destruct (Nat.eqb a h) eqn:Ea.
    + exists 3. rewrite S1, S2. cbn [srun andb negb]. destruct k; unfold setT, setH, touch, setActive; cbn [afterDec hs active touched thr lupd app]; reflexivity.
    + exists 5. rewrite S1, S2. cbn [srun]. unfold rstep at 1. cbn [thr nth_error hs]. rewrite (nth_self _ _ _ _ E). unfold setT, setH, touch, setActive; cbn [hs active touched thr lupd alive negb counterOf inUse self].
      rewrite Zc, counter_eqb_refl, orb_false_r, lupd_lupd. unfold setT, setH, touch, setActive; cbn [hs active touched thr lupd].
      unfold rstep at 1. cbn [thr nth_error hs]. rewrite (nth_self _ _ _ _ E). unfold setT, setH, touch, setActive; cbn [hs active touched thr lupd alive negb inUse self].
      rewrite orb_false_r, lupd_lupd. cbn [andb negb]. destruct k; unfold setT, setH, touch, setActive; cbn [afterDec hs active touched thr lupd app]; reflexivity.
  - exists 2. rewrite S1. cbn [andb]. destruct k; unfold setT, setH, touch, setActive; cbn [afterDec hs active touched thr lupd app srun]; reflexivity.
Qed.
(* a get, and a replace until its release *)
Lemma inc_run k hd l a tch : nth_error l a = Some hd -> self hd = true -> alive hd = true ->
  srun 4 (mkM l a tch [Inc k]) =
  Some (mkM (lupd l a (mkH (inUse hd + 1) true true)) a tch [match k with ForUser => Idle | ForReplace nh fin => RepCas nh fin a end], match k with ForUser => [Got 0 a] | _ => [] end).
Proof.
  intros E S A. destruct hd as [c s b]. cbn [self alive] in S, A. subst s b. cbn [srun].
  unfold rstep at 1. unfold setT, setH, touch, setActive; cbn [thr nth_error hs active touched lupd].
  unfold rstep at 1. cbn [thr nth_error hs]. rewrite E. unfold setT, setH, touch, setActive; cbn [hs active touched thr lupd alive negb counterOf inUse self]. rewrite orb_false_r.
  unfold rstep at 1. unfold setT, setH, touch, setActive; cbn [thr nth_error hs active touched lupd].
  unfold rstep at 1. cbn [thr nth_error hs]. rewrite E. cbn [counterOf inUse self]. rewrite counter_eqb_refl. unfold setT, setH, touch, setActive; cbn [snd hs active touched thr lupd alive negb inUse self]. rewrite orb_false_r.
  destruct k; reflexivity.
Qed.
Lemma rep_run fin hd l a tch : nth_error l a = Some hd -> self hd = true -> alive hd = true ->
  srun 7 (mkM l a tch [RepStart fin]) =
  Some (mkM (lupd (l ++ [mkH 0 true true]) a (mkH (inUse hd + 1) true true)) (length l) tch [Dec a (if fin then Some (length l) else None)], [Activated (length l); Created (length l)]).
Proof.
  intros E S A. assert (E2 : nth_error (l ++ [mkH 0 true true]) a = Some hd) by (rewrite nth_error_app1 by (apply nth_error_Some; congruence); exact E).
  assert (R1 : srun 2 (mkM l a tch [RepStart fin]) = Some (mkM (l ++ [mkH 0 true true]) a tch [Inc (ForReplace (length l) fin)], [Created (length l)])).
  { cbn [srun]. unfold rstep at 1. unfold setT, setH, touch, setActive; cbn [thr nth_error hs active touched lupd]. unfold rstep at 1. cbn [thr nth_error hs]. rewrite E.
    unfold setT, setH, touch, setActive; cbn [hs active touched thr lupd]. rewrite A. cbn [negb]. rewrite orb_false_r. reflexivity. }
  pose proof (inc_run (ForReplace (length l) fin) hd _ a tch E2 S A) as R2.
  assert (R3 : srun 1 (mkM (lupd (l ++ [mkH 0 true true]) a (mkH (inUse hd + 1) true true)) a tch [RepCas (length l) fin a]) =
    Some (mkM (lupd (l ++ [mkH 0 true true]) a (mkH (inUse hd + 1) true true)) (length l) tch [Dec a (if fin then Some (length l) else None)], [Activated (length l)])).
  { cbn [srun]. unfold rstep at 1. cbn [thr nth_error active]. rewrite Nat.eqb_refl. unfold setT, setH, touch, setActive; cbn [hs active touched thr lupd]. reflexivity. }
  exact (srun_app 6 1 _ _ _ _ _ (srun_app 2 4 _ _ _ _ _ R1 R2) R3).
Qed.

(* the two states are the same but for the counter of a freed handle *)
Definition like (x y : handle) : Prop := inUse x = inUse y /\ alive x = alive y /\ self x = true /\ (alive y = true -> self y = true).
Record SIM (u : umanager) (m : manager) : Prop := {
  si_thr : thr m = [Idle]; si_act : active m = uactive u; si_tch : touched m = utouched u; si_hs : Forall2 like (uhs u) (hs m) }.
Lemma Forall2_nth {A B} (R : A -> B -> Prop) l l' i y : Forall2 R l l' -> nth_error l' i = Some y -> exists x, nth_error l i = Some x /\ R x y.
Proof. intros F. revert i. induction F as [|a b l l' H F IH]; intros [|i] E; cbn [nth_error] in *; try discriminate E; [injection E as <-; eauto|now apply IH]. Qed.
Lemma Forall2_lupd {A B} (R : A -> B -> Prop) l l' i x y : Forall2 R l l' -> R x y -> Forall2 R (lupd l i x) (lupd l' i y).
Proof. intros F V. revert i. induction F; intros [|i]; cbn [lupd]; constructor; auto. Qed.
Lemma Forall2_len {A B} (R : A -> B -> Prop) l l' : Forall2 R l l' -> length l = length l'.
Proof. induction 1; cbn [length]; congruence. Qed.

Lemma active_live tr m : exec sequential 1 tr m -> (forall t, ~ In (FreeBegin t) tr) -> exists hd, nth_error (hs m) (active m) = Some hd /\ self hd = true /\ alive hd = true.
Proof.
  intros X N. pose proof (exec_RI _ _ _ _ X) as HI. pose proof (exec_SQ _ _ _ X) as HS. destruct (act_lt _ _ _ HI (ri_actA _ _ HI)) as (hd & E).
  exists hd. split; [exact E|]. pose proof (active_self _ _ _ HI E) as S. split; [exact S|]. eapply alive_self; [exact HI|exact E|exact S|].
  destruct (count (isHFreed (active m)) tr) eqn:C; [reflexivity|]. exfalso. destruct (sq_hf _ _ HS (active m)) as (_ & _ & _ & _ & t & I); [lia|]. exact (N _ I).
Qed.
Lemma user_live tr m h : exec sequential 1 tr m -> users tr h > 0 -> exists hd, nth_error (hs m) h = Some hd /\ self hd = true /\ alive hd = true.
Proof.
  intros X U. pose proof (exec_RI _ _ _ _ X) as HI. pose proof (exec_SQ _ _ _ X) as HS. unfold users in U. destruct (nth_error (hs m) h) as [hd|] eqn:E.
  - exists hd. split; [reflexivity|]. pose proof (ri_h _ _ HI _ _ E) as K. unfold HInv in K. assert (S : self hd = true) by (destruct (self hd); [reflexivity|lia]). split; [exact S|].
    eapply alive_self; [exact HI|exact E|exact S|]. destruct (count (isHFreed h) tr) eqn:C; [reflexivity|]. exfalso. destruct (sq_hf _ _ HS h) as (_ & G & _); [lia|]. lia.
  - apply (ri_none _ _ HI) in E. unfold HNone in E. lia.
Qed.

Lemma sim_call tr u m a : exec sequential 1 tr m -> SIM u m -> ucallable tr a ->
  exists u' evs m', ucall a u = Some (u', evs) /\ exec sequential 1 (evs ++ tr) m' /\ SIM u' m'.
Proof.
  intros X [T Ac Tc H] W. destruct m as [l act tch th]. cbn [thr active touched hs] in *. subst th act tch. destruct u as [ul ua ut]. cbn [uhs uactive utouched] in *.
  assert (Start : forall a' x evs, ResourceSpec.wellUsed tr (mkM l ua ut [Idle]) a' -> rstep 0 a' (mkM l ua ut [Idle]) = Some (mkM l ua ut [x], evs) -> exec sequential 1 (evs ++ tr) (mkM l ua ut [x])).
  { intros a' x evs Wu R. eapply exec_step; [exact X|exact Wu|now apply alone|exact R]. }
  destruct a as [|h| | |]; cbn [ucallable] in W; [| | | |destruct W].
  - destruct (active_live _ _ X W) as (hd & E & S & A). cbn [hs active] in E. destruct (Forall2_nth _ _ _ _ _ H E) as (hu & Eu & L1 & L2 & L3 & L4).
    cbn [ucall]. unfold uIncUse. cbn [uhs uactive utouched]. rewrite Eu, L2, A, L3. cbn [option_map fst snd negb]. rewrite orb_false_r. do 3 eexists. split; [reflexivity|]. split.
    + exact (srun_exec 4 _ _ _ _ (Start CallGet (Inc ForUser) [GetBegin 0] W eq_refl) eq_refl (inc_run ForUser hd l ua ut E S A)).
    + constructor; try reflexivity. cbn [uhs hs]. apply Forall2_lupd; [exact H|]. repeat split; cbn; congruence.
  - destruct (user_live _ _ h X W) as (hd & E & S & A). cbn [hs] in E. destruct (Forall2_nth _ _ _ _ _ H E) as (hu & Eu & L1 & L2 & L3 & L4).
    cbn [ucall]. unfold uDecUse. cbn [uhs uactive utouched]. rewrite Eu, L2, A, L3, L1. cbn [negb andb]. rewrite orb_false_r.
    destruct (dec_run h hd l ua ut None E S A) as (n & R). unfold frees in R.
    pose proof (srun_exec n _ _ _ _ (Start (CallRelease h) (Dec h None) [RelBegin 0 h] W eq_refl) eq_refl R) as Y.
    destruct (Z.eqb (inUse hd - 1) 0 && negb (Nat.eqb ua h)) eqn:F; cbn [option_map fst snd app]; (do 3 eexists; split; [reflexivity|]; split; [exact Y|]); (constructor; try reflexivity);
      cbn [uhs hs]; (apply Forall2_lupd; [exact H|]); unfold like; cbn; repeat split; try congruence. apply andb_prop in F. destruct F as (F & _). now apply Z.eqb_eq in F.
  - destruct (active_live _ _ X W) as (hd & E & S & A). cbn [hs active] in E. destruct (Forall2_nth _ _ _ _ _ H E) as (hu & Eu & L1 & L2 & L3 & L4).
    assert (H' : Forall2 like (ul ++ [mkH 0 true true]) (l ++ [mkH 0 true true])) by (apply Forall2_app; [exact H|constructor; [repeat split|constructor]]).
    assert (Len : length ul = length l) by (eapply Forall2_len; exact H).
    assert (Eu2 : nth_error (ul ++ [mkH 0 true true]) ua = Some hu) by (rewrite nth_error_app1 by (apply nth_error_Some; congruence); exact Eu).
    assert (E2 : nth_error (l ++ [mkH 0 true true]) ua = Some hd) by (rewrite nth_error_app1 by (apply nth_error_Some; congruence); exact E).
    assert (Lt : ua < length l) by (apply nth_error_Some; congruence).
    cbn [ucall]. unfold uReplace, uIncUse. cbn [uhs uactive utouched]. rewrite Eu, Eu2, L3. unfold uDecUse. cbn [uhs uactive utouched]. rewrite (nth_self _ _ _ _ Eu2). cbn [inUse self alive].
    rewrite L2, A, L1, Len. cbn [negb andb]. rewrite !orb_false_r, lupd_lupd. replace (length l =? ua) with false by (symmetry; apply Nat.eqb_neq; lia). cbn [negb]. rewrite andb_true_r.
    destruct (dec_run ua (mkH (inUse hd + 1) true true) (lupd (l ++ [mkH 0 true true]) ua (mkH (inUse hd + 1) true true)) (length l) ut None (nth_self _ _ _ _ E2) eq_refl eq_refl) as (n & R).
    pose proof (srun_app _ _ _ _ _ _ _ (rep_run false hd l ua ut E S A) R) as R'. unfold frees in R'. cbn [inUse] in R'. replace (length l =? ua) with false in R' by (symmetry; apply Nat.eqb_neq; lia).
    cbn [negb] in R'. rewrite andb_true_r, lupd_lupd in R'.
    pose proof (srun_exec _ _ _ _ _ (Start CallReplace (RepStart false) [] W eq_refl) eq_refl R') as Y.
    destruct (Z.eqb (inUse hd + 1 - 1) 0) eqn:F; cbn [option_map fst snd app] in *; (do 3 eexists; split; [reflexivity|]; split; [exact Y|]); (constructor; try reflexivity);
      cbn [uhs hs]; rewrite ?lupd_lupd; (apply Forall2_lupd; [exact H'|]); unfold like; cbn; repeat split; try congruence. now apply Z.eqb_eq in F.
  - destruct (active_live _ _ X W) as (hd & E & S & A). cbn [hs active] in E. destruct (Forall2_nth _ _ _ _ _ H E) as (hu & Eu & L1 & L2 & L3 & L4).
    assert (H' : Forall2 like (ul ++ [mkH 0 true true]) (l ++ [mkH 0 true true])) by (apply Forall2_app; [exact H|constructor; [repeat split|constructor]]).
    assert (Len : length ul = length l) by (eapply Forall2_len; exact H).
    assert (Eu2 : nth_error (ul ++ [mkH 0 true true]) ua = Some hu) by (rewrite nth_error_app1 by (apply nth_error_Some; congruence); exact Eu).
    assert (E2 : nth_error (l ++ [mkH 0 true true]) ua = Some hd) by (rewrite nth_error_app1 by (apply nth_error_Some; congruence); exact E).
    assert (Lt : ua < length l) by (apply nth_error_Some; congruence).
    assert (Nu : forall v, nth_error (lupd (ul ++ [mkH 0 true true]) ua v) (length l) = Some (mkH 0 true true)).
    { intros v. rewrite PoolProofs.nth_lupd_ne by lia. rewrite <- Len, nth_error_app2, Nat.sub_diag by lia. reflexivity. }
    assert (Nm : forall v, nth_error (lupd (l ++ [mkH 0 true true]) ua v) (length l) = Some (mkH 0 true true)).
    { intros v. rewrite PoolProofs.nth_lupd_ne by lia. rewrite nth_error_app2, Nat.sub_diag by lia. reflexivity. }
    cbn [ucall]. unfold uFree, uReplace, uIncUse. cbn [uhs uactive utouched]. rewrite Eu, Eu2, L3. unfold uDecUse. cbn [uhs uactive utouched]. rewrite (nth_self _ _ _ _ Eu2). cbn [inUse self alive].
    rewrite L2, A, L1, Len. cbn [negb andb]. rewrite !orb_false_r, lupd_lupd. replace (length l =? ua) with false by (symmetry; apply Nat.eqb_neq; lia). cbn [negb]. rewrite andb_true_r.
    destruct (dec_run ua (mkH (inUse hd + 1) true true) (lupd (l ++ [mkH 0 true true]) ua (mkH (inUse hd + 1) true true)) (length l) ut (Some (length l)) (nth_self _ _ _ _ E2) eq_refl eq_refl) as (n & R).
    pose proof (srun_app _ _ _ _ _ _ _ (rep_run true hd l ua ut E S A) R) as R'. unfold frees in R'. cbn [inUse] in R'. replace (length l =? ua) with false in R' by (symmetry; apply Nat.eqb_neq; lia).
    cbn [negb] in R'. rewrite andb_true_r, lupd_lupd in R'.
    assert (RF : forall v, srun 1 (mkM (lupd (l ++ [mkH 0 true true]) ua v) (length l) ut [FreeNew (length l)]) =
      Some (mkM (lupd (lupd (l ++ [mkH 0 true true]) ua v) (length l) (mkH 0 true false)) (length l) ut [Idle], [Done 0; HandleFreed (length l)])).
    { intros v. cbn [srun]. unfold rstep at 1. cbn [thr nth_error hs]. rewrite Nm. unfold setT, setH, touch, setActive; cbn [hs active touched thr lupd inUse self alive negb]. rewrite orb_false_r. reflexivity. }
    pose proof (srun_app _ _ _ _ _ _ _ R' (RF _)) as R2.
    assert (WF : ResourceSpec.wellUsed tr (mkM l ua ut [Idle]) CallFree).
    { split; [exact W|]. intros [|t] x Ex; cbn in Ex; [injection Ex as <-; split; reflexivity|destruct t; discriminate Ex]. }
    pose proof (srun_exec _ _ _ _ _ (Start CallFree (RepStart true) [FreeBegin 0] WF eq_refl) eq_refl R2) as Y.
    destruct (Z.eqb (inUse hd + 1 - 1) 0) eqn:F; cbn [option_map fst snd app uhs uactive utouched] in *; rewrite ?lupd_lupd, Nu; cbn [option_map fst snd app inUse self alive negb]; rewrite ?orb_false_r;
      (do 3 eexists; split; [reflexivity|]; split; [exact Y|]); (constructor; try reflexivity);
      cbn [uhs hs]; rewrite ?lupd_lupd; (apply Forall2_lupd; [apply Forall2_lupd; [exact H'|]|]); unfold like; cbn; repeat split; try congruence. now apply Z.eqb_eq in F.
Qed.
Lemma unthreaded_sim tr u : uexec tr u -> exists m, exec sequential 1 tr m /\ SIM u m.
Proof.
  induction 1 as [|tr u a u' evs _ (m & X & HS) W C].
  - eexists. split; [apply exec_init|]. constructor; try reflexivity. constructor; [repeat split|constructor].
  - destruct (sim_call _ _ _ _ X HS W) as (u2 & evs2 & m' & C2 & X' & HS'). assert (u2 = u') by congruence. assert (evs2 = evs) by congruence. subst. eauto.
Qed.
