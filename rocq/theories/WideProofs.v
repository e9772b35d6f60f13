(* Proofs about the pool with the wide word. *)
From Verif Require Import CacheRun PoolSpec PoolProofs.
From Verif Require Export WideModel WideSpec.

Lemma exchange_inj a b u v : (Z.of_nat (idx a) < 2 ^ 16)%Z -> (Z.of_nat (idx b) < 2 ^ 16)%Z -> (0 <= aba a < 2 ^ 16)%Z -> (0 <= aba b < 2 ^ 16)%Z ->
  exchange a u = exchange b v -> a = b /\ u = v.
Proof.
  destruct a as [a1 a2], b as [b1 b2]. unfold exchange. cbn [idx aba]. change (2 ^ 16)%Z with 65536%Z. change (2 ^ 32)%Z with 4294967296%Z. intros A B C D E.
  assert (u = v) by lia. subst v. assert (a2 = b2) by lia. subst b2. assert (a1 = b1) by lia. subst b1. now split.
Qed.
Definition savedVersion (x : tstate) : option nat :=
  match x with TGetRead _ v | TGetNext _ v _ | TRelRead _ _ v | TRelNext _ _ v => Some v | _ => None end.
(* a thread whose head is the newest has its other half *)
Definition SV (w : wide) : Prop :=
  forall t x v, nth_error (threads (narrow w)) t = Some x -> savedVersion x = Some v -> v = ver (narrow w) -> saved w t = high w.

Lemma saved_le n tr p L t x v : PI n tr p L -> nth_error (threads p) t = Some x -> savedVersion x = Some v -> v <= ver p.
Proof. intros HI E S. pose proof (pi_thr _ _ _ _ HI _ _ E) as K. destruct x; cbn in S; try discriminate S; injection S as ->; apply K. Qed.
Lemma head_idx n tr p L : PI n tr p L -> idx (hd_ p) <= n.
Proof. intros HI. eapply chain_bound; [|apply (pi_chain _ _ _ _ HI)]. intros i Hi. apply HI in Hi. lia. Qed.
Lemma vaba_range v : (0 <= vaba v < 2 ^ 16)%Z.
Proof. unfold vaba. apply Z.mod_pos_bound. reflexivity. Qed.

(* the exchange of the wide word succeeds when that of the two values does *)
Lemma exchange_same n tr w L t x o v : (Z.of_nat n < 2 ^ 16 - 1)%Z -> PI n tr (narrow w) L -> SV w -> nth_error (threads (narrow w)) t = Some x ->
  savedVersion x = Some v -> aba o = vaba v -> idx o <= n -> (v = ver (narrow w) -> o = hd_ (narrow w)) -> ver (narrow w) - v < 2 ^ 16 ->
  Z.eqb (exchange (hd_ (narrow w)) (high w)) (exchange o (saved w t)) = head_eqb (hd_ (narrow w)) o.
Proof.
  intros Hn HI HS E Sv Ha Hi Ho Hw. pose proof (head_idx _ _ _ _ HI) as Hh.
  destruct (head_eqb (hd_ (narrow w)) o) eqn:Eh.
  - apply head_eqb_eq in Eh. assert (v = ver (narrow w)) as Hv.
    { apply vaba_inj; [eapply saved_le; eassumption|exact Hw|]. rewrite <- Ha, <- (pi_aba _ _ _ _ HI). now rewrite Eh. }
    rewrite (HS _ _ _ E Sv Hv), Eh. apply Z.eqb_refl.
  - destruct (Z.eqb_spec (exchange (hd_ (narrow w)) (high w)) (exchange o (saved w t))) as [Q|]; [|reflexivity]. exfalso.
    apply exchange_inj in Q; [|lia|lia|rewrite (pi_aba _ _ _ _ HI); apply vaba_range|rewrite Ha; apply vaba_range].
    destruct Q as (Q & _). rewrite (proj2 (head_eqb_eq _ _) Q) in Eh. discriminate Eh.
Qed.

Lemma SV_keep w p' x' t : SV w -> threads p' = lupd (threads (narrow w)) t x' -> ver p' = ver (narrow w) ->
  (forall v, savedVersion x' = Some v -> v = ver (narrow w) -> saved w t = high w) -> SV (mkWide p' (high w) (saved w)).
Proof.
  intros HS Et Ev K u y v E S V. cbn [narrow saved high] in *. rewrite Et in E. rewrite Ev in V.
  destruct (Nat.eq_dec u t) as [->|N]; [|rewrite nth_lupd_ne in E by exact N; eapply HS; eassumption].
  destruct (Nat.lt_ge_cases t (length (threads (narrow w)))) as [Lt|Ge].
  - rewrite nth_lupd_eq in E by exact Lt. injection E as <-. now apply (K v).
  - exfalso. assert (X : nth_error (lupd (threads (narrow w)) t x') t = None).
    { apply nth_error_None. rewrite length_lupd. exact Ge. } congruence.
Qed.
Lemma SV_read w p' x' t : SV w -> threads p' = lupd (threads (narrow w)) t x' -> ver p' = ver (narrow w) ->
  SV (mkWide p' (high w) (fun u => if Nat.eqb u t then high w else saved w u)).
Proof.
  intros HS Et Ev u y v E S V. cbn [narrow saved high] in *. rewrite Et in E. rewrite Ev in V. destruct (Nat.eqb_spec u t) as [->|N]; [reflexivity|].
  rewrite nth_lupd_ne in E by exact N. eapply HS; eassumption.
Qed.
Lemma SV_swap n tr w L p' t g : PI n tr (narrow w) L -> threads p' = lupd (threads (narrow w)) t TIdle -> ver p' = S (ver (narrow w)) -> SV (mkWide p' g (saved w)).
Proof.
  intros HI Et Ev u y v E S V. cbn [narrow saved high] in *. rewrite Et in E. exfalso.
  destruct (Nat.eq_dec u t) as [->|N].
  - destruct (Nat.lt_ge_cases t (length (threads (narrow w)))) as [Lt|Ge]; [rewrite nth_lupd_eq in E by exact Lt; injection E as <-; discriminate S|].
    assert (X : nth_error (lupd (threads (narrow w)) t TIdle) t = None) by (apply nth_error_None; rewrite length_lupd; exact Ge). congruence.
  - rewrite nth_lupd_ne in E by exact N. pose proof (saved_le _ _ _ _ _ _ _ HI E S). lia.
Qed.

(* each step of the wide pool is one of the narrow pool *)
Lemma lockstep n tr w L t a g : (Z.of_nat n < 2 ^ 16 - 1)%Z -> PI n tr (narrow w) L -> SV w -> window (narrow w) t ->
  match pstep t a (narrow w) with
  | Some (p', evs) => exists w', wstep true t a g w = Some (w', evs) /\ narrow w' = p' /\ SV w'
  | None => wstep true t a g w = None
  end.
Proof.
  intros Hn HI HS Hw. unfold wstep. unfold window in Hw. destruct (nth_error (threads (narrow w)) t) as [x|] eqn:Et.
  2: { unfold pstep. rewrite Et. reflexivity. }
  pose proof (pi_thr _ _ _ _ HI _ _ Et) as K.
  destruct x as [| |o v|o v nx|i|i o v|i o v].
  - unfold pstep. rewrite Et. destruct a; cbn [option_map fst snd]; try reflexivity; eexists; (split; [reflexivity|]; split; [reflexivity|]);
      (eapply SV_keep; [exact HS|reflexivity|reflexivity|discriminate]).
  - unfold pstep. rewrite Et. destruct a; cbn [option_map fst snd]; try reflexivity. eexists. split; [reflexivity|]. split; [reflexivity|].
    eapply SV_read; [exact HS|reflexivity|reflexivity].
  - unfold pstep. rewrite Et. destruct a; cbn [option_map fst snd]; try reflexivity. destruct (nth_error (resources (narrow w)) (idx o)) as [[]|]; cbn [option_map]; [|eexists; split; [reflexivity|]; split; [reflexivity|]; eapply SV_keep; [exact HS|reflexivity|reflexivity|discriminate]|reflexivity].
    destruct (nth_error (nexts (narrow w)) (idx o)) as [nx|]; cbn [option_map fst snd]; [|reflexivity]. eexists. split; [reflexivity|]. split; [reflexivity|].
    eapply SV_keep; [exact HS|reflexivity|reflexivity|]. intros v' Sv. cbn in Sv. injection Sv as <-. exact (HS _ _ _ Et eq_refl).
  - unfold pstep. rewrite Et. destruct a; cbn [option_map fst snd]; try reflexivity. destruct K as (K1 & K2 & K3 & K4 & _).
    rewrite (exchange_same n tr w L t (TGetNext o v nx) o v Hn HI HS Et eq_refl K3) by (try lia; try exact Hw; intros Hv; apply (K2 Hv)).
    destruct (head_eqb (hd_ (narrow w)) o); eexists; (split; [reflexivity|]; split; [reflexivity|]).
    + eapply SV_swap; [exact HI|reflexivity|reflexivity].
    + eapply SV_keep; [exact HS|reflexivity|reflexivity|discriminate].
  - unfold pstep. rewrite Et. destruct a; cbn [option_map fst snd]; try reflexivity. eexists. split; [reflexivity|]. split; [reflexivity|].
    eapply SV_read; [exact HS|reflexivity|reflexivity].
  - unfold pstep. rewrite Et. destruct a; cbn [option_map fst snd]; try reflexivity. destruct (Nat.ltb i (length (nexts (narrow w)))); cbn [option_map fst snd]; [|reflexivity]. eexists. split; [reflexivity|]. split; [reflexivity|].
    eapply SV_keep; [exact HS|reflexivity|reflexivity|]. intros v' Sv. cbn in Sv. injection Sv as <-. exact (HS _ _ _ Et eq_refl).
  - unfold pstep. rewrite Et. destruct a; cbn [option_map fst snd]; try reflexivity. destruct K as (K1 & K2 & K3 & K4 & _).
    rewrite (exchange_same n tr w L t (TRelNext i o v) o v Hn HI HS Et eq_refl K3) by (try lia; try exact Hw; exact K2).
    destruct (head_eqb (hd_ (narrow w)) o); eexists; (split; [reflexivity|]; split; [reflexivity|]).
    + eapply SV_swap; [exact HI|reflexivity|reflexivity].
    + eapply SV_keep; [exact HS|reflexivity|reflexivity|discriminate].
Qed.
Lemma fresh_idle n nt p0 t x : (Z.of_nat n < 2 ^ 16 - 1)%Z -> fresh n nt p0 -> nth_error (threads p0) t = Some x -> x = TIdle.
Proof.
  intros Hn F E. unfold fresh, PoolInit in F. destruct (Z.to_nat _) as [|m]; [discriminate F|]. destruct (poolInitLoop _ _ _ _ _ _ _ _) as (((nx, rs), h), c).
  injection F as <- _. cbn [threads] in E. apply nth_error_In in E. now apply repeat_spec in E.
Qed.
Lemma wide_ok n nt w0 : (Z.of_nat n < 2 ^ 16 - 1)%Z -> wfresh n nt w0 -> forall tr w, wexec true window w0 tr w -> exec window (narrow w0) tr (narrow w) /\ SV w.
Proof.
  intros Hn (F & _) tr w X. induction X as [|tr w t a g w' evs X (IH & HS) Hu Hw M].
  - split; [constructor|]. intros t x v E S. rewrite (fresh_idle _ _ _ _ _ Hn F E) in S. discriminate S.
  - destruct (exec_PI _ _ _ Hn F _ _ IH) as (L & HI). pose proof (lockstep n tr w L t a g Hn HI HS Hw) as K.
    destruct (pstep t a (narrow w)) as [(p', evs')|] eqn:P; [|congruence]. destruct K as (w2 & M2 & N2 & S2).
    assert (Q : (w2, evs') = (w', evs)) by congruence. assert (w2 = w') as -> by congruence. assert (evs' = evs) as -> by congruence. subst p'.
    split; [|exact S2]. econstructor; eassumption.
Qed.

(* a thread that steps with garbage 0 follows the narrow pool, window or not *)
Definition small (i : nat) : Prop := (Z.of_nat i < 2 ^ 16)%Z.
Definition smallHead (h : head) : Prop := small (idx h) /\ (0 <= aba h < 2 ^ 16)%Z.
Definition smallThread (x : tstate) : Prop :=
  match x with
  | TIdle | TGet => True | TGetRead o _ => smallHead o | TGetNext o _ nx => smallHead o /\ small nx
  | TRel i => small i | TRelRead i o _ | TRelNext i o _ => small i /\ smallHead o
  end.
Record SM (tr : list event) (p : pool) : Prop := {
  sm_head : smallHead (hd_ p);
  sm_next : Forall small (nexts p);
  sm_thr : Forall smallThread (threads p);
  sm_got : forall t i, In (Got t i) tr -> small i }.
Lemma Forall_lupd {A} (P : A -> Prop) l i v : Forall P l -> P v -> Forall P (lupd l i v).
Proof. intros F V. revert i. induction F as [|a l Ha F IH]; intros [|i]; cbn [lupd]; constructor; auto. Qed.
Lemma inc_range z : (0 <= inc16 z < 2 ^ 16)%Z.
Proof. unfold inc16. apply Z.mod_pos_bound. reflexivity. Qed.
Lemma held_got tr i : status tr i = Held -> exists t, In (Got t i) tr.
Proof.
  induction tr as [|e tr IH]; cbn [status]; [discriminate|]. intros H.
  destruct e; try (destruct (IH H) as (t' & I); exists t'; now right); destruct (Nat.eqb_spec i i0) as [->|]; try discriminate H;
    try (destruct (IH H) as (t' & I); exists t'; now right). eexists. now left.
Qed.
Lemma SM_step tr t a p p' evs : SM tr p -> wellUsed tr a -> pstep t a p = Some (p', evs) -> SM (evs ++ tr) p'.
Proof.
  intros [A B C D] Hu H. unfold pstep in H. destruct (nth_error (threads p) t) as [x|] eqn:E; [|discriminate H].
  assert (X : smallThread x) by (apply (proj1 (Forall_forall _ _) C); eapply nth_error_In; exact E).
  assert (G : forall evs', (forall t' i, ~ In (Got t' i) evs') -> forall t' i, In (Got t' i) (evs' ++ tr) -> small i).
  { intros evs' N t' i I. apply in_app_or in I. destruct I as [I|I]; [destruct (N _ _ I)|exact (D _ _ I)]. }
  destruct x as [| |o v|o v nx|i|i o v|i o v]; destruct a; try discriminate H.
  all: repeat match type of H with context [match ?x with _ => _ end] => destruct x eqn:?; try discriminate H end.
  all: injection H as <- <-; unfold setT.
  all: constructor; cbn [hd_ nexts threads resources].
  all: try exact A; try exact B; try exact D.
  all: try (apply Forall_lupd; [first [exact C|exact B]|]; cbn [smallThread] in *; try exact I; try tauto).
  all: try solve [apply G; intros t' j [I|[]]; discriminate I].
  all: try solve [apply G; intros t' j []].
  - cbn in Hu. destruct (held_got _ _ Hu) as (t' & I). exact (D _ _ I).
  - split; [exact X|]. apply (proj1 (Forall_forall _ _) B). eapply nth_error_In. eassumption.
  - split; [apply X|apply inc_range].
  - intros t' j [I|I]; [injection I as _ <-; apply X|exact (D _ _ I)].
  - apply X.
  - split; [apply X|apply inc_range].
Qed.
Lemma exchange_eqb a b : smallHead a -> smallHead b -> Z.eqb (exchange a 0) (exchange b 0) = head_eqb a b.
Proof.
  intros (A1 & A2) (B1 & B2). destruct (head_eqb a b) eqn:E.
  - apply head_eqb_eq in E. subst b. apply Z.eqb_refl.
  - destruct (Z.eqb_spec (exchange a 0) (exchange b 0)) as [Q|]; [|reflexivity]. exfalso. apply exchange_inj in Q; try assumption.
    rewrite (proj2 (head_eqb_eq _ _) (proj1 Q)) in E. discriminate E.
Qed.
Definition zero (p : pool) : wide := mkWide p 0 (fun _ => 0%Z).
Definition Z0 (w : wide) : Prop := high w = 0%Z /\ forall t, saved w t = 0%Z.
Lemma zero_step tr w t a p' evs : SM tr (narrow w) -> Z0 w -> pstep t a (narrow w) = Some (p', evs) ->
  exists w', wstep true t a 0 w = Some (w', evs) /\ narrow w' = p' /\ Z0 w'.
Proof.
  intros HM (H0 & S0) P. unfold wstep. pose proof P as P'. unfold pstep in P'. destruct (nth_error (threads (narrow w)) t) as [x|] eqn:E; [|discriminate P'].
  assert (X : smallThread x) by (apply (proj1 (Forall_forall _ _) (sm_thr _ _ HM)); eapply nth_error_In; exact E).
  destruct x as [| |o v|o v nx|i|i o v|i o v]; destruct a; try discriminate P'.
  1-4, 6-7: rewrite P; cbn [option_map fst snd]; eexists; split; [reflexivity|]; split; [reflexivity|]; split; [exact H0|]; cbn [saved]; intros u;
    first [apply S0|destruct (Nat.eqb u t); [exact H0|apply S0]].
  - rewrite H0, S0, exchange_eqb by (first [exact (sm_head _ _ HM)|apply X]).
    destruct (head_eqb (hd_ (narrow w)) o); injection P' as <- <-; (eexists; split; [reflexivity|]; split; [reflexivity|]; split; [first [reflexivity|exact H0]|exact S0]).
  - rewrite H0, S0, exchange_eqb by (first [exact (sm_head _ _ HM)|apply X]).
    destruct (head_eqb (hd_ (narrow w)) o); injection P' as <- <-; (eexists; split; [reflexivity|]; split; [reflexivity|]; split; [first [reflexivity|exact H0]|exact S0]).
Qed.
Lemma fresh_small n nt p0 : (Z.of_nat n < 2 ^ 16 - 1)%Z -> fresh n nt p0 -> SM [] p0.
Proof.
  intros Hn F. unfold fresh in F. rewrite (init_val n nt Hn) in F. assert (p0 = mkpool (0 :: seq 0 n) (false :: repeat true n) (mkhead n 0) 0 (repeat TIdle nt)) as -> by congruence.
  constructor; cbn [hd_ nexts threads].
  - split; cbn [idx aba]; unfold small; lia.
  - constructor; [unfold small; lia|]. apply Forall_forall. intros i I. apply in_seq in I. unfold small. lia.
  - apply Forall_forall. intros x I. apply repeat_spec in I. now subst x.
  - intros t i [].
Qed.
Lemma zero_exec n nt p0 : (Z.of_nat n < 2 ^ 16 - 1)%Z -> fresh n nt p0 -> forall W tr p, exec W p0 tr p ->
  SM tr p /\ exists w, wexec true W (zero p0) tr w /\ narrow w = p /\ Z0 w.
Proof.
  intros Hn F W tr p X. induction X as [|tr p t a p' evs X (HM & w & Y & <- & HZ) Hu Hw P].
  - split; [eapply fresh_small; eassumption|]. exists (zero p0). split; [constructor|]. split; [reflexivity|]. split; reflexivity.
  - split; [eapply SM_step; eassumption|]. destruct (zero_step _ _ _ _ _ _ HM HZ P) as (w' & M & N & Z'). exists w'. split; [|split; assumption].
    econstructor; eassumption.
Qed.
