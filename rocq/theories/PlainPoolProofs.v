(* Proofs about pool.c without threads: each call is the threaded one run alone. *)
From Verif Require Import CacheRun PoolSpec PoolProofs.
From Verif Require Export PlainPoolModel PlainPoolSpec.

Lemma window_new p t : (forall o v nx, nth_error (threads p) t = Some (TGetNext o v nx) -> v = ver p) ->
  (forall i o v, nth_error (threads p) t = Some (TRelNext i o v) -> v = ver p) -> window p t.
Proof.
  intros A B. unfold window. pose proof (Nat.pow_nonzero 2 16). destruct (nth_error (threads p) t) as [[]|] eqn:E; try exact I;
    [rewrite (A _ _ _ eq_refl)|rewrite (B _ _ _ eq_refl)]; rewrite Nat.sub_diag; lia.
Qed.
Lemma head_eqb_refl h : head_eqb h h = true.
Proof. now apply head_eqb_eq. Qed.
Lemma plain_call n p0 tr p a : (Z.of_nat n < 2 ^ 16 - 1)%Z -> fresh n 1 p0 -> exec window p0 tr p -> threads p = [TIdle] -> wellUsed tr a -> a <> Continue ->
  exists q' evs p', plainCall a (plainOf p) = Some (q', evs) /\ exec window p0 (evs ++ tr) p' /\ plainOf p' = q' /\ threads p' = [TIdle].
Proof.
  intros Hn F X T W Na. destruct p as [nx rs h vr th]. cbn [threads] in T. subst th.
  destruct a as [|i|]; [| |congruence]; cbn [plainCall]; unfold plainOf; cbn [nexts resources hd_].
  - assert (X1 : exec window p0 ([GetBegin 0] ++ tr) (mkpool nx rs h vr [TGet])) by (eapply (exec_cons _ _ _ _ 0 CallGet); [exact X|exact I|exact I|reflexivity]).
    assert (X2 : exec window p0 ([Read 0] ++ GetBegin 0 :: tr) (mkpool nx rs h vr [TGetRead h vr])) by (eapply (exec_cons _ _ _ _ 0 Continue); [exact X1|exact I|exact I|reflexivity]).
    destruct (exec_PI _ _ _ Hn F _ _ X2) as (L & HI). destruct (step_progress _ _ _ _ 0 (TGetRead h vr) HI eq_refl) as (p3 & e3 & P); [discriminate|].
    unfold plainGet. cbn [presources pnexts phead]. pose proof P as P'. unfold pstep in P'. cbn [threads nth_error resources nexts] in P'.
    destruct (nth_error rs (idx h)) as [[]|] eqn:Er; [|clear P'|discriminate P'].
    + destruct (nth_error nx (idx h)) as [k|] eqn:En; [|discriminate P']. clear P'. do 3 eexists. split; [reflexivity|].
      assert (X3 : exec window p0 ([] ++ Read 0 :: GetBegin 0 :: tr) (mkpool nx rs h vr [TGetNext h vr k])).
      { eapply (exec_cons _ _ _ _ 0 Continue); [exact X2|exact I|exact I|]. unfold pstep. cbn [threads nth_error resources nexts]. rewrite Er, En. reflexivity. }
      split; [|split].
      * eapply (exec_cons _ _ (Read 0 :: GetBegin 0 :: tr) _ 0 Continue _ [Got 0 (idx h)]); [exact X3|exact I| |].
        -- apply window_new; cbn [threads nth_error ver]; congruence.
        -- unfold pstep. cbn [threads nth_error hd_]. rewrite head_eqb_refl. reflexivity.
      * reflexivity.
      * reflexivity.
    + do 3 eexists. split; [reflexivity|]. split; [|split].
      * eapply (exec_cons _ _ (Read 0 :: GetBegin 0 :: tr) _ 0 Continue _ [Exhausted 0]); [exact X2|exact I|exact I|]. unfold pstep. cbn [threads nth_error resources]. rewrite Er. reflexivity.
      * reflexivity.
      * reflexivity.
  - assert (X1 : exec window p0 ([RelBegin 0 i] ++ tr) (mkpool nx rs h vr [TRel i])) by (eapply (exec_cons _ _ _ _ 0 (CallRelease i)); [exact X|exact W|exact I|reflexivity]).
    assert (X2 : exec window p0 ([] ++ RelBegin 0 i :: tr) (mkpool nx rs h vr [TRelRead i h vr])) by (eapply (exec_cons _ _ _ _ 0 Continue); [exact X1|exact I|exact I|reflexivity]).
    destruct (exec_PI _ _ _ Hn F _ _ X2) as (L & HI). destruct (step_progress _ _ _ _ 0 (TRelRead i h vr) HI eq_refl) as (p3 & e3 & P); [discriminate|].
    unfold plainRelease. cbn [pnexts presources phead]. unfold pstep in P. cbn [threads nth_error nexts] in P. destruct (Nat.ltb i (length nx)) eqn:Ei; [|discriminate P]. clear P.
    do 3 eexists. split; [reflexivity|].
    assert (X3 : exec window p0 ([] ++ RelBegin 0 i :: tr) (mkpool (lupd nx i (idx h)) rs h vr [TRelNext i h vr])).
    { eapply (exec_cons _ _ _ _ 0 Continue); [exact X2|exact I|exact I|]. unfold pstep. cbn [threads nth_error nexts]. rewrite Ei. reflexivity. }
    split; [|split].
    + eapply (exec_cons _ _ (RelBegin 0 i :: tr) _ 0 Continue _ [RelEnd 0 i]); [exact X3|exact I| |].
      * apply window_new; cbn [threads nth_error ver]; congruence.
      * unfold pstep. cbn [threads nth_error hd_]. rewrite head_eqb_refl. reflexivity.
    + reflexivity.
    + reflexivity.
Qed.
Lemma plain_sim n p0 tr q : (Z.of_nat n < 2 ^ 16 - 1)%Z -> fresh n 1 p0 -> pexec (plainOf p0) tr q -> exists p, exec window p0 tr p /\ plainOf p = q /\ threads p = [TIdle].
Proof.
  intros Hn F. induction 1 as [|tr q a q' evs _ (p & X & <- & T) W C].
  - exists p0. split; [constructor|]. split; [reflexivity|]. unfold fresh in F. rewrite (init_val n 1 Hn) in F. injection F as <-. reflexivity.
  - assert (Na : a <> Continue) by (intros ->; discriminate C).
    destruct (plain_call n p0 tr p a Hn F X T W Na) as (q2 & evs2 & p' & C2 & X' & Q & T'). assert (q2 = q') by congruence. assert (evs2 = evs) by congruence. subst. eauto.
Qed.
