(* Proofs about the pool of file handles. *)
From Verif Require Import CacheModel PoolModel PoolSpec PoolProofs PropertiesPool FilePoolModel FilePoolSpec.

Lemma initLoop_ext li c1 c2 todo : forall i nx rs h count,
  (forall j, i <= j < i + todo -> c1 j = c2 j) ->
  poolInitLoop li i todo c1 nx rs h count = poolInitLoop li i todo c2 nx rs h count.
Proof.
  induction todo as [|todo IH]; intros i nx rs h count H; cbn [poolInitLoop]; [reflexivity|].
  rewrite (H i) by lia. destruct (c2 i) as [r ok]. destruct ok; [|reflexivity].
  apply IH. intros j Hj. apply H. lia.
Qed.
Lemma init_ext n c1 c2 nt : (Z.of_nat n < 2 ^ 16 - 1)%Z -> (forall j, 1 <= j <= n -> c1 j = c2 j) ->
  PoolInit n c1 nt = PoolInit n c2 nt.
Proof.
  intros Hn H. unfold PoolInit. rewrite Z.mod_small by lia.
  replace (Z.to_nat (Z.of_nat (n + 1))) with (S n) by lia.
  rewrite (initLoop_ext _ c1 c2); [reflexivity|]. intros j Hj. apply H. lia.
Qed.

Lemma nth_seq n : nth_error (0 :: seq 0 (S n)) (S n) = Some n.
Proof.
  cbn [nth_error]. rewrite (nth_error_nth' _ 0) by (rewrite seq_length; lia).
  now rewrite seq_nth by lia.
Qed.
Lemma lupd_same {A} (l : list A) i v : nth_error l i = Some v -> lupd l i v = l.
Proof.
  revert i. induction l as [|x l IH]; intros [|i] H; cbn in *; try discriminate; auto.
  - now injection H as ->.
  - now rewrite IH.
Qed.

(* the pool after getting and releasing the last item of a new pool *)
Lemma get_new nx rs n nt : nth_error nx (S n) = Some n -> nth_error rs (S n) = Some true ->
  getAlone (mkpool nx rs (mkhead (S n) 0) 0 (repeat TIdle (S nt)))
  = Some (mkpool nx rs (mkhead n 1) 1 (repeat TIdle (S nt)), Some (S n)).
Proof.
  intros Hn Hr. remember (S n) as m eqn:Em. clear Em. unfold getAlone. cbn [pstep threads repeat nth_error]. unfold setT.
  cbn [threads nexts resources hd_ ver lupd]. unfold pstep at 1. cbn [threads nth_error]. unfold setT.
  cbn [threads nexts resources hd_ ver lupd]. unfold pstep at 1. cbn [threads nth_error resources nexts idx].
  rewrite Hr, Hn. unfold setT. cbn [threads nexts resources hd_ ver lupd].
  unfold pstep. cbn [threads nth_error hd_]. rewrite (proj2 (head_eqb_eq _ _) eq_refl). reflexivity.
Qed.
Lemma release_new nx rs n nt : nth_error nx (S n) = Some n -> S n < length nx ->
  releaseAlone (S n) (mkpool nx rs (mkhead n 1) 1 (repeat TIdle (S nt)))
  = Some (mkpool nx rs (mkhead (S n) 2) 2 (repeat TIdle (S nt))).
Proof.
  intros Hn Hl. apply Nat.ltb_lt in Hl. remember (S n) as m eqn:Em. clear Em. unfold releaseAlone. cbn [pstep threads repeat nth_error]. unfold setT.
  cbn [threads nexts resources hd_ ver lupd]. unfold pstep at 1. cbn [threads nth_error]. unfold setT.
  cbn [threads nexts resources hd_ ver lupd]. unfold pstep at 1. cbn [threads nth_error nexts].
  rewrite Hl. cbn [threads nexts resources hd_ ver lupd idx]. rewrite (lupd_same _ _ _ Hn).
  unfold pstep. cbn [threads nth_error hd_]. rewrite (proj2 (head_eqb_eq _ _) eq_refl). reflexivity.
Qed.

Lemma ready_pool n nt p : (Z.of_nat (S n) < 2 ^ 16 - 1)%Z ->
  p = mkpool (0 :: seq 0 (S n)) (false :: repeat true (S n)) (mkhead (S n) 2) 2 (repeat TIdle (S nt)) ->
  inUse (S n) (S nt) p.
Proof.
  intros Hn ->.
  exists (mkpool (0 :: seq 0 (S n)) (false :: repeat true (S n)) (mkhead (S n) 0) 0 (repeat TIdle (S nt))).
  exists ([RelEnd 0 (S n)] ++ [] ++ [] ++ [RelBegin 0 (S n)] ++ [Got 0 (S n)] ++ [] ++ [Read 0] ++ [GetBegin 0] ++ []).
  split; [apply init_val; auto|]. split.
  - pose proof (nth_seq n) as H. 
    assert (nth_error (false :: repeat true (S n)) (S n) = Some true) as Hr.
    { cbn [nth_error]. apply nth_error_repeat. lia. }
    assert (S n <? length (0 :: seq 0 (S n)) = true) as Hl.
    { apply Nat.ltb_lt. cbn [length]. rewrite seq_length. lia. }
    remember (0 :: seq 0 (S n)) as nx eqn:Enx. remember (false :: repeat true (S n)) as rs eqn:Ers.
    assert (forall v w, v < 100 -> v - w < 2 ^ 16) as Hw.
    { intros v w Hv. apply Nat.le_lt_trans with 100; [lia|]. change (2 ^ 16) with (Z.to_nat 65536). lia. }
    eapply (exec_cons window _ _ (mkpool nx rs (mkhead n 1) 1 (TRelNext (S n) (mkhead n 1) 1 :: repeat TIdle nt)) 0 Continue).
    2:{ exact I. } 2:{ unfold window. cbn [threads nth_error ver]. apply Hw. lia. }
    2:{ cbn [pstep threads nth_error hd_]. rewrite (proj2 (head_eqb_eq _ _) eq_refl). reflexivity. }
    eapply (exec_cons window _ _ (mkpool nx rs (mkhead n 1) 1 (TRelRead (S n) (mkhead n 1) 1 :: repeat TIdle nt)) 0 Continue).
    2:{ exact I. } 2:{ exact I. }
    2:{ cbn [pstep threads nth_error nexts hd_]. rewrite Hl. cbn [idx]. rewrite (lupd_same _ _ _ H). reflexivity. }
    eapply (exec_cons window _ _ (mkpool nx rs (mkhead n 1) 1 (TRel (S n) :: repeat TIdle nt)) 0 Continue).
    2:{ exact I. } 2:{ exact I. } 2:{ reflexivity. }
    eapply (exec_cons window _ _ (mkpool nx rs (mkhead n 1) 1 (TIdle :: repeat TIdle nt)) 0 (CallRelease (S n))).
    2:{ cbn [wellUsed app status]. now rewrite Nat.eqb_refl. } 2:{ exact I. } 2:{ reflexivity. }
    eapply (exec_cons window _ _ (mkpool nx rs (mkhead (S n) 0) 0 (TGetNext (mkhead (S n) 0) 0 n :: repeat TIdle nt)) 0 Continue).
    2:{ exact I. } 2:{ unfold window. cbn [threads nth_error ver]. apply Hw. lia. }
    2:{ cbn [pstep threads nth_error hd_]. rewrite (proj2 (head_eqb_eq _ _) eq_refl). reflexivity. }
    eapply (exec_cons window _ _ (mkpool nx rs (mkhead (S n) 0) 0 (TGetRead (mkhead (S n) 0) 0 :: repeat TIdle nt)) 0 Continue).
    2:{ exact I. } 2:{ exact I. }
    2:{ unfold pstep. change (nth_error (threads _) 0) with (Some (TGetRead (mkhead (S n) 0) 0)).
        cbv beta iota. cbn [resources nexts idx]. rewrite Hr, H. reflexivity. }
    eapply (exec_cons window _ _ (mkpool nx rs (mkhead (S n) 0) 0 (TGet :: repeat TIdle nt)) 0 Continue).
    2:{ exact I. } 2:{ exact I. } 2:{ reflexivity. }
    eapply (exec_cons window _ [] (mkpool nx rs (mkhead (S n) 0) 0 (TIdle :: repeat TIdle nt)) 0 CallGet).
    2:{ exact I. } 2:{ exact I. } 2:{ reflexivity. }
    apply exec_nil.
  - intros i. cbn [app status]. destruct (Nat.eqb i (S n)); reflexivity.
Qed.

Lemma inUse_available n nt p : (Z.of_nat n < 2 ^ 16 - 1)%Z -> inUse n nt p ->
  (forall t, t < nt -> nth_error (threads p) t = Some TIdle) -> allAvailable n nt p.
Proof.
  intros Hn (p0 & tr & Hf & He & Hs) Ht t Hlt.
  destruct (pool_conserves_items n nt p0 tr p Hn Hf He) as (_ & H & _).
  destruct (H t (Ht t Hlt)) as (L & Hd & Hi & Hg). exists L. split; [exact Hd|].
  assert (forall i, In i L <-> 1 <= i <= n) as Hi'.
  { intros i. rewrite Hi. split; [tauto|]. intros. split; auto. }
  split; [exact Hi'|].
  replace n with (length L); [exact Hg|].
  assert (incl L (seq 1 n)) as I1 by (intros x Hx; apply in_seq; apply Hi' in Hx; lia).
  assert (incl (seq 1 n) L) as I2 by (intros x Hx; apply in_seq in Hx; apply Hi'; lia).
  pose proof (NoDup_incl_length Hd I1) as Q1.
  pose proof (NoDup_incl_length (seq_NoDup n 1) I2) as Q2. rewrite !seq_length in *. lia.
Qed.

(* what a release closes *)
Lemma filter_tried b opens : forall todo i count,
  (forall j, i <= j < i + count -> S j < i + count -> opens j = None \/ b = false) ->
  count <= todo ->
  (count < todo -> 0 < count /\ opens (i + count - 1) <> None /\ b = true) ->
  filter (opened opens) (tried b opens i todo) = filter (opened opens) (seq i count).
Proof.
  induction todo as [|todo IH]; intros i count H Hle Hlast.
  - assert (count = 0) as -> by lia. reflexivity.
  - destruct count as [|count]; [destruct Hlast; lia|]. cbn [tried seq filter].
    assert (filter (opened opens) (match opens i with Some _ => if b then [] else tried b opens (S i) todo | None => tried b opens (S i) todo end)
      = filter (opened opens) (seq (S i) count)) as ->; [|reflexivity].
    destruct (opens i) eqn:Ei.
    + destruct b eqn:Eb.
      * destruct count as [|count]; [reflexivity|].
        destruct (H i ltac:(lia) ltac:(lia)); congruence.
      * apply IH; [intros; now right|lia|].
        intros Q. destruct (Hlast ltac:(lia)) as (_ & _ & D). discriminate.
    + apply IH; try lia.
      * intros j Hj Hj'. apply H; lia.
      * intros Q. destruct (Hlast ltac:(lia)) as (A & B & C). 
        destruct count as [|count]; [replace (i + 1 - 1) with i in B by lia; congruence|].
        replace (i + S (S count) - 1) with (S i + S count - 1) in B by lia. repeat split; auto; lia.
Qed.

Lemma step_resources t a p p' evs : pstep t a p = Some (p', evs) -> resources p' = resources p.
Proof.
  unfold pstep. intros Hs. destruct (nth_error (threads p) t) as [[]|]; try discriminate; destruct a; try discriminate;
  repeat match type of Hs with context [match ?x with _ => _ end] => destruct x; try discriminate end;
  injection Hs as <- _; reflexivity.
Qed.
Lemma get_resources p p' o : getAlone p = Some (p', o) -> resources p' = resources p.
Proof.
  unfold getAlone. intros H.
  destruct (pstep 0 CallGet p) as [(a1, e1)|] eqn:E1; [|discriminate].
  destruct (pstep 0 Continue a1) as [(a2, e2)|] eqn:E2; [|discriminate].
  destruct (pstep 0 Continue a2) as [(a3, e3)|] eqn:E3; [|discriminate].
  apply step_resources in E1, E2, E3.
  destruct (pstep 0 Continue a3) as [(a4, e4)|] eqn:E4; [apply step_resources in E4|];
  repeat match type of H with context [match ?x with _ => _ end] => destruct x; try discriminate end;
  injection H as <- _; congruence.
Qed.
Lemma release_resources i p p' : releaseAlone i p = Some p' -> resources p' = resources p.
Proof.
  unfold releaseAlone. intros H.
  destruct (pstep 0 (CallRelease i) p) as [(a1, e1)|] eqn:E1; [|discriminate].
  destruct (pstep 0 Continue a1) as [(a2, e2)|] eqn:E2; [|discriminate].
  destruct (pstep 0 Continue a2) as [(a3, e3)|] eqn:E3; [|discriminate].
  destruct (pstep 0 Continue a3) as [(a4, e4)|] eqn:E4; [|discriminate].
  apply step_resources in E1, E2, E3, E4. injection H as <-. congruence.
Qed.
Lemma setLength_kept e p count seek tell f e' : setLength e p count seek tell = Some (f, e') ->
  resources (pl f) = resources p /\ cnt f = count.
Proof.
  unfold setLength. intros H. destruct (getAlone p) as [(p', [i|])|] eqn:E; [| |discriminate].
  - destruct (releaseAlone i p') as [p''|] eqn:E2; [|discriminate]. injection H as <- <-. cbn [pl cnt].
    apply get_resources in E. apply release_resources in E2. split; congruence.
  - injection H as <- <-. cbn [pl cnt]. now apply get_resources in E.
Qed.

Lemma filter_false {A} (f : A -> bool) l : (forall x, f x = false) -> filter f l = [].
Proof. intros H. induction l as [|x l IH]; cbn; [auto|]. now rewrite H. Qed.
Lemma nth_false n : forall j, nth j (repeat false n) false = false.
Proof. intros j. destruct (nth_in_or_default j (repeat false n) false) as [Q|Q]; auto. eapply repeat_spec, Q. Qed.

(* what PoolInit makes of the handles, when the exception is not set *)
Lemma init_opened n e opens nt p count : (Z.of_nat n < 2 ^ 16 - 1)%Z -> okay e = true ->
  PoolInit n (createFileHandle e opens) nt = Some (p, count) ->
  PoolFree p count = filter (opened opens) (tried (match e with None => false | Some _ => true end) opens 1 n).
Proof.
  intros Hn He H. destruct (pool_frees_each_created_resource_once _ _ _ _ _ Hn H) as (A & B & C & D).
  rewrite D. rewrite (filter_tried _ opens n 1 count).
  - apply filter_ext. intros i. unfold createFileHandle, opened. now destruct (opens i).
  - intros j Hj Hj'. specialize (B j ltac:(lia)). unfold createFileHandle in B.
    destruct (opens j); auto. right. destruct e as [[]|]; cbn in *; congruence.
  - exact A.
  - intros Hlt. specialize (C Hlt). destruct count as [|count].
    + exfalso. unfold PoolInit in H. rewrite Z.mod_small in H by lia.
      replace (Z.to_nat (Z.of_nat (n + 1))) with (S n) in H by lia.
      destruct (poolInitLoop _ _ _ _ _ _ _ _) as [[[nx rs] h] c] eqn:E. injection H as <- ->.
      apply initLoop_gen in E; try reflexivity; try (rewrite repeat_length; lia).
      destruct E as (_ & _ & _ & _ & _ & Q & _). lia.
    + split; [lia|]. replace (1 + S count - 1) with (S count) by lia.
      unfold createFileHandle in C. destruct (opens (S count)); [|discriminate].
      split; [discriminate|]. destruct e as [[]|]; cbn in *; congruence.
Qed.
