From Coq Require Import Permutation.
From Verif Require Import CacheModel CacheRun PoolModel PoolSpec.

Fixpoint chain (nx : list nat) (h : nat) (L : list nat) : Prop :=
  match L with
  | [] => h = 0
  | a :: L' => h = a /\ exists b, nth_error nx a = Some b /\ chain nx b L'
  end.

Lemma nth_lupd_eq {A} (l : list A) i v : i < length l -> nth_error (lupd l i v) i = Some v.
Proof. intros H. rewrite nth_lupd, Nat.eqb_refl. destruct (nth_error l i) eqn:E; auto. apply nth_error_None in E. lia. Qed.
Lemma nth_lupd_ne {A} (l : list A) i v j : j <> i -> nth_error (lupd l i v) j = nth_error l j.
Proof. intros H. rewrite nth_lupd. destruct (Nat.eqb_spec j i); congruence. Qed.

Lemma chain_frame nx i v L : forall h, ~ In i L -> chain nx h L -> chain (lupd nx i v) h L.
Proof.
  induction L as [|a L IH]; cbn; intros h Hn Hc; auto.
  destruct Hc as (-> & b & Hb & Hc). split; auto. exists b. rewrite nth_lupd_ne by tauto. split; auto.
Qed.
Lemma chain_bound nx L n : forall h, (forall i, In i L -> i <= n) -> chain nx h L -> h <= n.
Proof. destruct L as [|a L]; cbn; intros h Hi Hc; [lia|]. destruct Hc as (-> & _). auto. Qed.

Definition B16 : Z := (2 ^ 16)%Z.
Definition vaba (v : nat) : Z := (Z.of_nat v mod 2 ^ 16)%Z.

(* the reader saw an empty pool at some moment of its current call *)
Definition sawEmpty (n t : nat) (tr : list event) : Prop :=
  exists tr3 tr4, tr = tr3 ++ Read t :: tr4 /\ ~ In (GetBegin t) tr3 /\ In (GetBegin t) tr4 /\
    forall i, 1 <= i <= n -> status tr4 i <> Free.

Definition tok (n : nat) (tr : list event) (p : pool) (t : nat) (x : tstate) : Prop :=
  match x with
  | TIdle => True
  | TGet => In (GetBegin t) tr
  | TGetRead o v => v <= ver p /\ (v = ver p -> o = hd_ p) /\ aba o = vaba v /\ idx o <= n /\
      (idx o = 0 -> sawEmpty n t tr) /\ In (GetBegin t) tr
  | TGetNext o v nx => v <= ver p /\ (v = ver p -> o = hd_ p /\ nth_error (nexts p) (idx o) = Some nx) /\
      aba o = vaba v /\ 1 <= idx o <= n /\ nx <= n /\ In (GetBegin t) tr
  | TRel i => 1 <= i <= n /\ status tr i = Releasing t
  | TRelRead i o v => v <= ver p /\ (v = ver p -> o = hd_ p) /\ aba o = vaba v /\ idx o <= n /\
      1 <= i <= n /\ status tr i = Releasing t
  | TRelNext i o v => v <= ver p /\ (v = ver p -> o = hd_ p) /\ aba o = vaba v /\ idx o <= n /\
      1 <= i <= n /\ status tr i = Releasing t /\ nth_error (nexts p) i = Some (idx o)
  end.

Record PI (n : nat) (tr : list event) (p : pool) (L : list nat) : Prop := {
  pi_len : length (nexts p) = S n;
  pi_next : forall i b, nth_error (nexts p) i = Some b -> b <= n;
  pi_res : resources p = false :: repeat true n;
  pi_aba : aba (hd_ p) = vaba (ver p);
  pi_chain : chain (nexts p) (idx (hd_ p)) L;
  pi_nd : NoDup L;
  pi_free : forall i, In i L <-> 1 <= i <= n /\ status tr i = Free;
  pi_held : forall i, status tr i <> Free -> 1 <= i <= n;
  pi_rel : forall i t, status tr i = Releasing t -> 
     exists x, nth_error (threads p) t = Some x /\ match x with TRel j | TRelRead j _ _ | TRelNext j _ _ => j = i | _ => False end;
  pi_thr : forall t x, nth_error (threads p) t = Some x -> tok n tr p t x }.

Lemma vaba_inj v w : v <= w -> w - v < 2 ^ 16 -> vaba v = vaba w -> v = w.
Proof.
  unfold vaba. change (2 ^ 16) with (Z.to_nat 65536). intros H1 H2 H3.
  change (2 ^ 16)%Z with 65536%Z in H3.
  pose proof (Z.mod_pos_bound (Z.of_nat v) 65536 ltac:(lia)). 
  pose proof (Z.div_mod (Z.of_nat v) 65536 ltac:(lia)). pose proof (Z.div_mod (Z.of_nat w) 65536 ltac:(lia)).
  assert (Z.of_nat w - Z.of_nat v < 65536)%Z by lia.
  assert (Z.of_nat w / 65536 = Z.of_nat v / 65536)%Z by lia. lia.
Qed.
Lemma vaba_S v : inc16 (vaba v) = vaba (S v).
Proof. unfold inc16, vaba. rewrite Nat2Z.inj_succ. unfold Z.succ. now rewrite Zplus_mod_idemp_l. Qed.
Lemma head_eqb_eq a b : head_eqb a b = true <-> a = b.
Proof.
  destruct a as [a1 a2], b as [b1 b2]. unfold head_eqb. cbn. rewrite andb_true_iff, Nat.eqb_eq, Z.eqb_eq.
  split; [intros (-> & ->); auto|intros E; injection E; auto].
Qed.
Lemma res_nth n i : nth_error (false :: repeat true n) i =
  if Nat.eqb i 0 then Some false else if Nat.leb i n then Some true else None.
Proof.
  destruct i as [|i]; cbn; auto. revert i. induction n as [|n IH]; intros [|i]; cbn; auto.
Qed.

Lemma sawEmpty_cons n t tr e : e <> GetBegin t -> sawEmpty n t tr -> sawEmpty n t (e :: tr).
Proof.
  intros He (tr3 & tr4 & -> & H1 & H2). exists (e :: tr3), tr4. split; auto. split; auto.
  intros [H|H]; auto.
Qed.

(* effect on other threads *)
Lemma tok_other n tr p p' evs t x :
  (forall e, In e evs -> e <> GetBegin t) ->
  ver p <= ver p' ->
  (ver p' = ver p -> hd_ p' = hd_ p /\ (forall o v nx, x = TGetNext o v nx -> v = ver p -> nth_error (nexts p') (idx o) = nth_error (nexts p) (idx o))) ->
  (forall i, status tr i = Releasing t -> status (evs ++ tr) i = Releasing t /\ nth_error (nexts p') i = nth_error (nexts p) i) ->
  length evs <= 1 ->
  tok n tr p t x -> tok n (evs ++ tr) p' t x.
Proof.
  intros He Hv Hh Hr Hl Hx.
  assert (In (GetBegin t) tr -> In (GetBegin t) (evs ++ tr)) as Hg by (intros; apply in_app_iff; auto).
  destruct x as [| |o v|o v nx|i|i o v|i o v]; cbn [tok] in *; auto.
  - destruct Hx as (A & B & C & D & E & F). repeat split; auto; try lia.
    + intros Hvv. assert (ver p' = ver p) as Hpp by lia. rewrite (proj1 (Hh Hpp)). apply B. lia.
    + intros Hi. specialize (E Hi). destruct evs as [|e [|? ?]]; cbn in *; auto; [|lia].
      apply sawEmpty_cons; auto.
  - destruct Hx as (A & B & C & D & E & F). repeat split; auto; try lia.
    + assert (ver p' = ver p) as Hpp by lia. rewrite (proj1 (Hh Hpp)). apply B. lia.
    + assert (ver p' = ver p) as Hpp by lia. rewrite (proj2 (Hh Hpp) o v nx eq_refl) by lia. apply B. lia.
  - destruct Hx as (A & B). split; auto. now apply Hr.
  - destruct Hx as (A & B & C & D & E & F). repeat split; auto; try lia.
    + intros Hvv. assert (ver p' = ver p) as Hpp by lia. rewrite (proj1 (Hh Hpp)). apply B. lia.
    + now apply Hr.
  - destruct Hx as (A & B & C & D & E & F & G). repeat split; auto; try lia.
    + intros Hvv. assert (ver p' = ver p) as Hpp by lia. rewrite (proj1 (Hh Hpp)). apply B. lia.
    + now apply Hr.
    + destruct (Hr i F) as (_ & ->). exact G.
Qed.

Lemma step_inv n tr p L t a p' evs :
  PI n tr p L -> wellUsed tr a -> window p t -> pstep t a p = Some (p', evs) ->
  exists L', PI n (evs ++ tr) p' L'.
Proof.
  intros HI Hw Hwin Hs. unfold pstep in Hs. unfold window in Hwin.
  destruct (nth_error (threads p) t) as [x|] eqn:Et; [|discriminate].
  assert (t < length (threads p)) as Htl by (apply nth_error_Some; congruence).
  pose proof (pi_thr _ _ _ _ HI _ _ Et) as Hx.
  assert (forall t' i, status tr i = Releasing t' -> t' = t -> exists j, (match x with TRel j | TRelRead j _ _ | TRelNext j _ _ => j = i | _ => False end) /\ j = i) as Hrelx.
  { intros t' i Hi ->. destruct (pi_rel _ _ _ _ HI _ _ Hi) as (y & Hy & Hm). exists i. split; auto.
    rewrite Et in Hy. injection Hy as <-. exact Hm. }
  (* steps that change only the state of thread t *)
  assert (forall y evs0, (forall t' i, (evs0 = [RelBegin t' i] -> t' = t /\ status tr i = Held /\ y = TRel i)) ->
     (evs0 = [] \/ (exists t', evs0 = [GetBegin t'] /\ t' = t) \/ evs0 = [Read t] \/ evs0 = [Exhausted t] \/ exists i, evs0 = [RelBegin t i]) ->
     tok n (evs0 ++ tr) p t y ->
     (match x with
      | TRel j | TRelRead j _ _ | TRelNext j _ _ => match y with TRel j' | TRelRead j' _ _ | TRelNext j' _ _ => j' = j | _ => False end
      | _ => True end) ->
     PI n (evs0 ++ tr) (setT t y p) L) as Hsame.
  { intros y evs0 Hb Hev Hy Hxy.
    assert (forall i, status (evs0 ++ tr) i = status tr i \/ (evs0 = [RelBegin t i] /\ status (evs0 ++ tr) i = Releasing t /\ status tr i = Held)) as Hst.
    { intros i. destruct Hev as [->|[(t' & -> & ->)|[->|[->|(j & ->)]]]]; cbn; auto.
      destruct (Nat.eqb_spec i j) as [->|]; auto. right. destruct (Hb t j eq_refl) as (_ & Hh & _). auto. }
    constructor; cbn [setT nexts resources hd_ ver threads]; try apply HI.
    - intros i. rewrite (pi_free _ _ _ _ HI). destruct (Hst i) as [->|(_ & -> & E)]; [tauto|].
      rewrite E. split; intros (_ & Q); discriminate.
    - intros i. destruct (Hst i) as [->|(_ & -> & E)]; [apply HI|]. intros _. apply (pi_held _ _ _ _ HI). congruence.
    - intros i t' Hi. destruct (Nat.eq_dec t' t) as [->|Nt].
      + rewrite nth_lupd_eq by auto. exists y. split; auto.
        destruct (Hst i) as [E|(E & _ & _)].
        * rewrite E in Hi. destruct (Hrelx _ _ Hi eq_refl) as (j & Hj & _).
          destruct x; try contradiction; subst; destruct y; auto.
        * destruct (Hb t i E) as (_ & _ & ->). reflexivity.
      + rewrite nth_lupd_ne by auto. destruct (Hst i) as [E|(_ & E & _)]; [|congruence].
        rewrite E in Hi. now apply HI.
    - intros t' x'. destruct (Nat.eq_dec t' t) as [->|Nt].
      + rewrite nth_lupd_eq by auto. intros E. injection E as <-. exact Hy.
      + rewrite nth_lupd_ne by auto. intros Hx'.
        apply (tok_other n tr p (setT t y p) evs0 t' x'); cbn; auto.
        * intros e Hin. destruct Hev as [->|[(t2 & -> & ->)|[->|[->|(j & ->)]]]]; cbn in Hin; try tauto;
          destruct Hin as [<-|[]]; congruence.
        * intros i Hi. split; auto. destruct (Hst i) as [E|(_ & _ & E)]; congruence.
        * destruct Hev as [->|[(t2 & -> & _)|[->|[->|(j & ->)]]]]; cbn; lia.
        * now apply HI. }
  destruct x as [| |o v|o v nx|i|i o v|i o v]; cbn [tok] in Hx.
  - (* idle *)
    destruct a as [|i|]; [| |discriminate]; injection Hs as <- <-.
    + exists L. apply (Hsame TGet [GetBegin t]); try discriminate; cbn; auto. right. left. eauto.
    + cbn [wellUsed] in Hw. exists L. apply (Hsame (TRel i) [RelBegin t i]); cbn; auto.
      * intros t' j E. injection E as <- <-. auto.
      * right. right. right. right. eauto.
      * rewrite Nat.eqb_refl. split; auto. apply (pi_held _ _ _ _ HI). congruence.
  - (* read the head *)
    destruct a; try discriminate. injection Hs as <- <-. exists L.
    apply (Hsame (TGetRead (hd_ p) (ver p)) [Read t]); try discriminate; cbn; auto.
    split; [lia|]. split; [auto|]. split; [apply HI|]. split.
    { eapply chain_bound; [|apply (pi_chain _ _ _ _ HI)]. intros i Hi. apply HI in Hi. lia. }
    split; [|auto].
    intros H0. exists [], tr. cbn. split; auto. split; auto. split; auto. intros i Hi Hf.
    assert (In i L) as Hin by (apply HI; auto). pose proof (pi_chain _ _ _ _ HI) as Hc.
    destruct L as [|b L]; [destruct Hin|]. destruct Hc as (Hc & _). rewrite H0 in Hc. subst b.
    assert (In 0 (0 :: L)) as Q by now left. apply (pi_free _ _ _ _ HI) in Q. lia.
  - (* test the item, read its next *)
    destruct a; try discriminate. destruct Hx as (A & B & C & D & E & F).
    rewrite (pi_res _ _ _ _ HI), res_nth in Hs.
    destruct (Nat.eqb_spec (idx o) 0) as [E0|E0].
    + injection Hs as <- <-. exists L. apply (Hsame TIdle [Exhausted t]); try discriminate; cbn; auto.
    + rewrite (proj2 (Nat.leb_le _ _) D) in Hs.
      destruct (nth_error (nexts p) (idx o)) as [nx|] eqn:En; [|discriminate].
      injection Hs as <- <-. exists L. apply (Hsame (TGetNext o v nx) []); try discriminate; cbn; auto.
      repeat split; auto; try lia. eapply (pi_next _ _ _ _ HI), En.
  - (* exchange of a get *)
    destruct a; try discriminate. destruct Hx as (A & B & C & D & E & F).
    destruct (head_eqb (hd_ p) o) eqn:Eh.
    + apply head_eqb_eq in Eh. injection Hs as <- <-.
      assert (v = ver p) as Hv.
      { apply vaba_inj; auto. rewrite <- C, <- (pi_aba _ _ _ _ HI). now rewrite Eh. }
      destruct (B Hv) as (_ & Hn). pose proof (pi_chain _ _ _ _ HI) as Hc. rewrite Eh in Hc.
      destruct L as [|a L]; cbn [chain] in Hc; [lia|]. destruct Hc as (<- & b & Hb & Hc).
      rewrite Hn in Hb. injection Hb as <-.
      pose proof (pi_nd _ _ _ _ HI) as Hnd. apply NoDup_cons_iff in Hnd. destruct Hnd as (Hni & Hnd').
      assert (status tr (idx o) = Free) as Hfo by (apply HI; now left).
      exists L. constructor; cbn [nexts resources hd_ ver threads idx aba app]; try apply HI; auto.
      * rewrite C, Hv. apply vaba_S.
      * intros i. cbn [status]. destruct (Nat.eqb_spec i (idx o)) as [->|Ni].
        { split; [contradiction|intros (_ & Q); discriminate]. }
        { rewrite <- (pi_free _ _ _ _ HI). cbn. split; [auto|intros [Q|Q]; [congruence|auto]]. }
      * intros i. cbn [status]. destruct (Nat.eqb_spec i (idx o)) as [->|Ni]; [auto|apply HI].
      * intros i t' Hi. cbn [status] in Hi. destruct (Nat.eqb_spec i (idx o)) as [->|Ni]; [discriminate|].
        destruct (Nat.eq_dec t' t) as [->|Nt].
        { destruct (Hrelx _ _ Hi eq_refl) as (j & Hj & _). contradiction. }
        { rewrite nth_lupd_ne by auto. now apply HI. }
      * intros t' x'. destruct (Nat.eq_dec t' t) as [->|Nt].
        { rewrite nth_lupd_eq by auto. intros Q. injection Q as <-. exact I. }
        rewrite nth_lupd_ne by auto. intros Hx'.
        apply (tok_other n tr p _ [Got t (idx o)] t' x'); cbn; auto; try lia.
        { intros e [<-|[]]. discriminate. }
        { intros i Hi. split; auto. destruct (Nat.eqb_spec i (idx o)); congruence. }
        { now apply HI. }
    + injection Hs as <- <-. exists L. apply (Hsame TGet []); try discriminate; cbn; auto.
  - (* release: read the head *)
    destruct a; try discriminate. destruct Hx as (A & B). injection Hs as <- <-. exists L.
    apply (Hsame (TRelRead i (hd_ p) (ver p)) []); try discriminate; cbn; auto.
    split; [lia|]. split; [auto|]. split; [apply HI|]. split; [|auto].
    eapply chain_bound; [|apply (pi_chain _ _ _ _ HI)]. intros j Hj. apply HI in Hj. lia.
  - (* release: write next *)
    destruct a; try discriminate. destruct Hx as (A & B & C & D & E & F).
    rewrite (pi_len _ _ _ _ HI) in Hs. destruct (Nat.ltb_spec i (S n)); [|lia]. injection Hs as <- <-.
    assert (~ In i L) as Hni by (rewrite (pi_free _ _ _ _ HI); intros (_ & Q); congruence).
    exists L. constructor; cbn [nexts resources hd_ ver threads app]; try apply HI.
    * rewrite length_lupd. apply HI.
    * intros j b. rewrite nth_lupd. destruct (Nat.eqb_spec j i) as [->|].
      { destruct (nth_error (nexts p) i); [|discriminate]. intros Q. injection Q as <-. exact D. }
      { apply HI. }
    * apply chain_frame; auto. apply HI.
    * intros j t' Hj. destruct (Nat.eq_dec t' t) as [->|Nt].
      { rewrite nth_lupd_eq by auto. exists (TRelNext i o v). split; auto.
        destruct (Hrelx _ _ Hj eq_refl) as (k & Hk & _). exact Hk. }
      { rewrite nth_lupd_ne by auto. now apply HI. }
    * intros t' x'. destruct (Nat.eq_dec t' t) as [->|Nt].
      { rewrite nth_lupd_eq by auto. intros Q. injection Q as <-. cbn. repeat split; auto; try lia.
        apply nth_lupd_eq. rewrite (pi_len _ _ _ _ HI). lia. }
      rewrite nth_lupd_ne by auto. intros Hx'.
      apply (tok_other n tr p _ [] t' x'); cbn; auto.
      { intros _. split; auto. intros o' v' nx' -> Hv'. rewrite nth_lupd_ne; auto.
        intros Eoi. pose proof (pi_thr _ _ _ _ HI _ _ Hx') as Hk. cbn in Hk. destruct Hk as (_ & K & _ & K1 & _).
        destruct (K Hv') as (Eo' & _). rewrite Eo' in K1. pose proof (pi_chain _ _ _ _ HI) as Hc.
        destruct L as [|b L]; cbn in Hc; [lia|]. destruct Hc as (Hc & _). apply Hni. left. rewrite <- Eoi, Eo'. auto. }
      { intros j Hj. split; auto. rewrite nth_lupd_ne; auto. intros ->. congruence. }
      { now apply HI. }
  - (* release: exchange *)
    destruct a; try discriminate. destruct Hx as (A & B & C & D & E & F & G).
    destruct (head_eqb (hd_ p) o) eqn:Eh.
    + apply head_eqb_eq in Eh. injection Hs as <- <-.
      assert (~ In i L) as Hni by (rewrite (pi_free _ _ _ _ HI); intros (_ & Q); congruence).
      exists (i :: L). constructor; cbn [nexts resources hd_ ver threads idx aba app]; try apply HI; auto.
      * rewrite C.
        assert (v = ver p) as ->; [|apply vaba_S].
        apply vaba_inj; auto. rewrite <- C, <- (pi_aba _ _ _ _ HI). now rewrite Eh.
      * cbn [chain]. split; auto. exists (idx o). split; auto. rewrite <- Eh. apply HI.
      * constructor; auto. apply HI.
      * intros j. cbn [status In]. destruct (Nat.eqb_spec j i) as [->|Nj]; [intuition|].
        rewrite (pi_free _ _ _ _ HI). intuition congruence.
      * intros j. cbn [status]. destruct (Nat.eqb_spec j i) as [->|Nj]; [auto|apply HI].
      * intros j t' Hj. cbn [status] in Hj. destruct (Nat.eqb_spec j i) as [->|Nj]; [discriminate|].
        destruct (Nat.eq_dec t' t) as [->|Nt].
        { destruct (Hrelx _ _ Hj eq_refl) as (k & Hk & _). congruence. }
        { rewrite nth_lupd_ne by auto. now apply HI. }
      * intros t' x'. destruct (Nat.eq_dec t' t) as [->|Nt].
        { rewrite nth_lupd_eq by auto. intros Q. injection Q as <-. exact I. }
        rewrite nth_lupd_ne by auto. intros Hx'.
        apply (tok_other n tr p _ [RelEnd t i] t' x'); cbn; auto; try lia.
        { intros e [<-|[]]. discriminate. }
        { intros j Hj. split; auto. destruct (Nat.eqb_spec j i); congruence. }
        { now apply HI. }
    + injection Hs as <- <-. exists L. apply (Hsame (TRel i) []); try discriminate; cbn; auto.
Qed.

(* initialisation *)
Lemma lupd_app {A} (a : list A) x b v : lupd (a ++ x :: b) (length a) v = a ++ v :: b.
Proof. induction a as [|y a IH]; cbn; [auto|now rewrite IH]. Qed.
Lemma initLoop_ok li todo : forall i,
  1 <= i ->
  poolInitLoop li i todo (fun _ => (true, true)) (0 :: seq 0 (pred i) ++ repeat 0 todo)
     (false :: repeat true (pred i) ++ repeat false todo) (pred i) (pred i) =
  (0 :: seq 0 (pred i + todo), false :: repeat true (pred i + todo), pred i + todo, pred i + todo).
Proof.
  induction todo as [|todo IH]; intros i Hi; cbn [poolInitLoop].
  - rewrite !Nat.add_0_r. cbn. now rewrite !app_nil_r.
  - destruct i as [|i]; [lia|]. cbn [pred]. cbn [repeat lupd].
    assert (lupd (seq 0 i ++ 0 :: repeat 0 todo) i i = seq 0 (S i) ++ repeat 0 todo) as ->.
    { rewrite <- (seq_length i 0) at 2. rewrite lupd_app. rewrite seq_S. cbn. now rewrite <- app_assoc. }
    assert (lupd (repeat true i ++ false :: repeat false todo) i true = repeat true (S i) ++ repeat false todo) as ->.
    { rewrite <- (repeat_length true i) at 2. rewrite lupd_app.
      change (true :: repeat false todo) with ([true] ++ repeat false todo). rewrite app_assoc. f_equal.
      symmetry. exact (repeat_cons i true). }
    specialize (IH (S (S i)) ltac:(lia)). cbn [pred] in IH. rewrite IH.
    replace (S i + todo) with (i + S todo) by lia. reflexivity.
Qed.
Lemma init_val n nthreads : (Z.of_nat n < 2 ^ 16 - 1)%Z ->
  PoolInit n (fun _ => (true, true)) nthreads =
  Some (mkpool (0 :: seq 0 n) (false :: repeat true n) (mkhead n 0) 0 (repeat TIdle nthreads), n).
Proof.
  intros Hn. unfold PoolInit. rewrite Z.mod_small by lia.
  replace (Z.to_nat (Z.of_nat (n + 1))) with (S n) by lia.
  pose proof (initLoop_ok (S n) n 1 (le_n _)) as H. cbn in H. cbn [repeat]. rewrite H. reflexivity.
Qed.
Lemma chain_init n : forall m, m <= n -> chain (0 :: seq 0 n) m (rev (seq 1 m)).
Proof.
  induction m as [|m IH]; intros Hm; [reflexivity|].
  rewrite seq_S, rev_app_distr. cbn [rev app chain plus].
  split; auto. exists m. split; [|apply IH; lia].
  cbn. assert (m < n) as Hl by lia. rewrite (nth_error_nth' _ 0) by (rewrite seq_length; lia).
  rewrite seq_nth by lia. reflexivity.
Qed.
Lemma init_PI n nt p0 : (Z.of_nat n < 2 ^ 16 - 1)%Z -> fresh n nt p0 -> PI n [] p0 (rev (seq 1 n)).
Proof.
  intros Hn Hf. unfold fresh in Hf. rewrite init_val in Hf by auto. injection Hf as <-.
  constructor; cbn [nexts resources hd_ ver threads idx aba]; auto.
  - cbn. now rewrite seq_length.
  - intros i b Hb. apply nth_error_In in Hb. destruct Hb as [<-|Hb]; [lia|]. apply in_seq in Hb. lia.
  - apply chain_init. lia.
  - apply NoDup_rev, seq_NoDup.
  - intros i. rewrite <- in_rev, in_seq. cbn. intuition lia.
  - cbn. congruence.
  - cbn. congruence.
  - intros t x Hx. apply nth_error_In, repeat_spec in Hx. subst. exact I.
Qed.

Lemma exec_PI n nt p0 : (Z.of_nat n < 2 ^ 16 - 1)%Z -> fresh n nt p0 ->
  forall tr p, exec window p0 tr p -> exists L, PI n tr p L.
Proof.
  intros Hn Hf tr p He. induction He as [|tr p t a p' evs He IH Hw Hwin Hs].
  - eexists. eapply init_PI; eauto.
  - destruct IH as (L & HI). eapply step_inv; eauto.
Qed.

(* events come from steps *)
Lemma exec_event W p0 tr p : exec W p0 tr p -> forall tr1 e tr2, tr = tr1 ++ e :: tr2 ->
  exists t a p1 p2, exec W p0 tr2 p1 /\ wellUsed tr2 a /\ W p1 t /\ pstep t a p1 = Some (p2, [e]) /\ exec W p0 (e :: tr2) p2.
Proof.
  induction 1 as [|tr p t a p' evs He IH Hw Hwin Hs]; intros tr1 e tr2 E.
  - destruct tr1; discriminate.
  - assert (evs = [] \/ exists e1, evs = [e1]) as [->|(e1 & ->)].
    { unfold pstep in Hs. destruct (nth_error _ _) as [[]|]; try discriminate; destruct a; try discriminate;
      repeat match type of Hs with context [match ?x with _ => _ end] => destruct x; try discriminate end;
      injection Hs as _ <-; eauto. }
    + apply (IH _ _ _ E).
    + cbn in E. destruct tr1 as [|e2 tr1]; cbn in E; injection E as -> ->.
      * exists t, a, p, p'. repeat split; auto. apply (exec_cons W p0 tr2 p t a p' [e]); auto.
      * apply (IH _ _ _ eq_refl).
Qed.

(* a thread running alone takes the free items one after the other *)
Lemma chain_unique nx : forall L L1 h, chain nx h L -> chain nx h L1 -> ~ In 0 L -> ~ In 0 L1 -> L1 = L.
Proof.
  induction L as [|a L IH]; intros [|b M] h D1 D2 N1 N2; cbn in *; auto.
  - destruct D2 as (-> & _). subst. tauto.
  - destruct D1 as (-> & _). subst. tauto.
  - destruct D1 as (-> & b1 & E1 & D1), D2 as (-> & b2 & E2 & D2). assert (b2 = b1) by congruence. subst.
    f_equal. eapply IH; eauto.
Qed.
Lemma PI_no0 n tr p L : PI n tr p L -> ~ In 0 L.
Proof. intros HI H. apply (pi_free _ _ _ _ HI) in H. lia. Qed.
Lemma step_same n tr p L t a p' evs :
  PI n tr p L -> wellUsed tr a -> window p t -> pstep t a p = Some (p', evs) ->
  nexts p' = nexts p -> hd_ p' = hd_ p -> PI n (evs ++ tr) p' L.
Proof.
  intros HI Hw Hwin Hs Hn Hh. destruct (step_inv _ _ _ _ _ _ _ _ HI Hw Hwin Hs) as (L1 & Q).
  replace L with L1; [exact Q|]. pose proof (pi_chain _ _ _ _ Q) as C1. rewrite Hn, Hh in C1.
  eapply chain_unique; eauto using PI_no0. apply HI.
Qed.
Lemma solo_one n tr p L t : PI n tr p L -> nth_error (threads p) t = Some TIdle ->
  match L with
  | [] => exists p', soloGet t p = Some (p', [Exhausted t])
  | a :: L' => exists p' tr', soloGet t p = Some (p', [Got t a]) /\ PI n tr' p' L' /\
     nth_error (threads p') t = Some TIdle
  end.
Proof.
  intros HI Ht. assert (t < length (threads p)) as Htl by (apply nth_error_Some; congruence).
  unfold soloGet.
  set (p1 := setT t TGet p).
  assert (nth_error (threads p1) t = Some TGet) as H1 by (apply nth_lupd_eq; auto).
  assert (pstep t CallGet p = Some (p1, [GetBegin t])) as Hs1 by (unfold pstep; now rewrite Ht).
  assert (PI n ([GetBegin t] ++ tr) p1 L) as HI1.
  { apply (step_same n tr p L t CallGet); auto; [exact I|unfold window; now rewrite Ht]. }
  rewrite Hs1.
  set (p2 := setT t (TGetRead (hd_ p1) (ver p1)) p1).
  assert (nth_error (threads p2) t = Some (TGetRead (hd_ p1) (ver p1))) as H2.
  { apply nth_lupd_eq. cbn. rewrite length_lupd. exact Htl. }
  assert (pstep t Continue p1 = Some (p2, [Read t])) as Hs2 by (unfold pstep; now rewrite H1).
  assert (PI n ([Read t] ++ [GetBegin t] ++ tr) p2 L) as HI2.
  { apply (step_same n _ p1 L t Continue); auto; [exact I|unfold window; now rewrite H1]. }
  rewrite Hs2.
  pose proof (pi_chain _ _ _ _ HI1) as Hc.
  destruct L as [|a L].
  - cbn [chain] in Hc. unfold pstep at 1. rewrite H2, (pi_res _ _ _ _ HI2), res_nth, Hc. cbn [Nat.eqb]. eauto.
  - cbn [chain] in Hc. destruct Hc as (Ha & b & Hb & Hc).
    assert (1 <= a <= n) as Han by (apply (pi_free _ _ _ _ HI); now left).
    set (p3 := setT t (TGetNext (hd_ p1) (ver p1) b) p2).
    assert (nth_error (threads p3) t = Some (TGetNext (hd_ p1) (ver p1) b)) as H3.
    { apply nth_lupd_eq. cbn. rewrite !length_lupd. exact Htl. }
    assert (pstep t Continue p2 = Some (p3, [])) as Hs3.
    { unfold pstep. rewrite H2, (pi_res _ _ _ _ HI2), res_nth, Ha.
      destruct (Nat.eqb_spec a 0); [lia|]. destruct (Nat.leb_spec a n); [|lia].
      change (nexts p2) with (nexts p1). now rewrite Hb. }
    assert (PI n ([] ++ [Read t] ++ [GetBegin t] ++ tr) p3 (a :: L)) as HI3.
    { apply (step_same n _ p2 _ t Continue); auto; [exact I|unfold window; now rewrite H2]. }
    rewrite Hs3.
    set (p4 := mkpool (nexts p3) (resources p3) (mkhead b (inc16 (aba (hd_ p1)))) (S (ver p3)) (lupd (threads p3) t TIdle)).
    assert (pstep t Continue p3 = Some (p4, [Got t a])) as Hs4.
    { unfold pstep. rewrite H3. change (hd_ p3) with (hd_ p1). rewrite (proj2 (head_eqb_eq _ _) eq_refl).
      now rewrite Ha. }
    rewrite Hs4.
    destruct (step_inv n _ p3 _ t Continue p4 [Got t a] HI3 I) as (L4 & HI4).
    { unfold window. rewrite H3. change (ver p3) with (ver p1). rewrite Nat.sub_diag. apply Nat.neq_0_lt_0, Nat.pow_nonzero. lia. }
    { exact Hs4. }
    exists p4. eexists. split; [reflexivity|]. split.
    + replace L with L4; [exact HI4|].
      pose proof (pi_chain _ _ _ _ HI4) as C1. cbn in C1.
      eapply chain_unique; eauto using PI_no0.
      intros Z0. apply (PI_no0 _ _ _ _ HI). now right.
    + cbn. apply nth_lupd_eq. rewrite !length_lupd. exact Htl.
Qed.

Lemma solo_all n t : forall L tr p, PI n tr p L -> nth_error (threads p) t = Some TIdle ->
  soloGets t (length L + 1) p = Some (map (Got t) L ++ [Exhausted t]).
Proof.
  induction L as [|a L IH]; intros tr p HI Ht; cbn [length plus soloGets map app].
  - pose proof (solo_one _ _ _ _ _ HI Ht) as H. cbn in H. destruct H as (p' & E). rewrite E. reflexivity.
  - pose proof (solo_one _ _ _ _ _ HI Ht) as H. cbn in H. destruct H as (p' & tr' & E & HI' & Ht').
    rewrite E. rewrite (IH _ _ HI' Ht'). reflexivity.
Qed.

Lemma status_rel_thread n tr p L i t : PI n tr p L -> nth_error (threads p) t = Some TIdle ->
  status tr i <> Releasing t.
Proof. intros HI Ht H. destruct (pi_rel _ _ _ _ HI _ _ H) as (x & Hx & Hm). rewrite Ht in Hx. injection Hx as <-. exact Hm. Qed.

Lemma step_progress n tr p L t x : PI n tr p L -> nth_error (threads p) t = Some x -> x <> TIdle ->
  exists p' evs, pstep t Continue p = Some (p', evs).
Proof.
  intros HI Ht Hx. pose proof (pi_thr _ _ _ _ HI _ _ Ht) as Hk. unfold pstep. rewrite Ht.
  destruct x as [| |o v|o v nx|i|i o v|i o v]; cbn [tok] in Hk; try congruence; eauto.
  - rewrite (pi_res _ _ _ _ HI), res_nth. destruct (Nat.eqb_spec (idx o) 0); [eauto|].
    rewrite (proj2 (Nat.leb_le _ _)) by tauto.
    destruct (nth_error (nexts p) (idx o)) eqn:En; eauto. apply nth_error_None in En.
    rewrite (pi_len _ _ _ _ HI) in En. lia.
  - destruct (head_eqb _ _); eauto.
  - rewrite (pi_len _ _ _ _ HI). destruct (Nat.ltb_spec i (S n)); eauto. lia.
  - destruct (head_eqb _ _); eauto.
Qed.

(* PoolInit with failing creations *)
Lemma initLoop_gen li creates todo : forall i nx rs h count nx' rs' h' count',
  poolInitLoop li i todo creates nx rs h count = (nx', rs', h', count') ->
  i = S count -> h = count -> length nx = i + todo -> length rs = i + todo ->
  count <= count' <= count + todo /\ h' = count' /\ length rs' = length rs /\
  (forall j, i <= j < count' -> snd (creates j) = true) /\
  (count' < count + todo -> snd (creates count') = false) /\
  (0 < todo -> count < count') /\
  (forall j, nth j rs' false = if (i <=? j) && (j <=? count') then fst (creates j) else nth j rs false).
Proof.
  induction todo as [|todo IH]; intros i nx rs h count nx' rs' h' count' H Hi Hh Hl Hr; cbn [poolInitLoop] in H.
  - injection H as <- <- <- <-. repeat split; auto; try lia.
    intros j. destruct (Nat.leb_spec i j), (Nat.leb_spec j count); cbn; auto; lia.
  - destruct (creates i) as [r ok] eqn:Ec. 
    assert (forall j, nth j (lupd rs i r) false = if Nat.eqb j i then r else nth j rs false) as Hn.
    { intros j. pose proof (nth_lupd rs i r j) as Q.
      destruct (Nat.eqb_spec j i) as [Ej|Nj].
      - rewrite Ej in *. apply nth_error_nth. rewrite Q. destruct (nth_error rs i) eqn:E; auto. apply nth_error_None in E. lia.
      - destruct (nth_error rs j) eqn:E.
        + rewrite (nth_error_nth _ _ _ E). now apply nth_error_nth.
        + apply nth_error_None in E. rewrite !nth_overflow; auto. rewrite length_lupd. lia. }
    destruct ok.
    + apply IH in H; try (rewrite length_lupd); try lia.
      destruct H as (A & B & C & D & E & F & G). rewrite length_lupd in C. repeat split; auto; try lia.
      * intros j Hj. destruct (Nat.eq_dec j i) as [->|]; [now rewrite Ec|apply D; lia].
      * intros. apply E. lia.
      * intros j. rewrite G, Hn.
        destruct (Nat.leb_spec (S i) j), (Nat.leb_spec i j), (Nat.leb_spec j count'), (Nat.eqb_spec j i); cbn; auto; try lia.
        all: subst j; now rewrite Ec.
    + injection H as <- <- <- <-. rewrite length_lupd. repeat split; auto; try lia.
      * intros _. replace (S count) with i by lia. now rewrite Ec.
      * intros j. rewrite Hn.
        destruct (Nat.leb_spec i j), (Nat.leb_spec j (S count)), (Nat.eqb_spec j i); cbn; auto; try lia.
        all: subst j; now rewrite Ec.
Qed.

(* running a schedule *)
Definition wellUsedb (tr : list event) (a : action) : bool :=
  match a with CallRelease i => match status tr i with Held => true | _ => false end | _ => true end.
Fixpoint runSched (sch : list (nat * action)) (tr : list event) (p : pool) : option (list event * pool) :=
  match sch with
  | [] => Some (tr, p)
  | (t, a) :: sch' =>
    if wellUsedb tr a then
      match pstep t a p with
      | Some (p', evs) => runSched sch' (evs ++ tr) p'
      | None => None
      end
    else None
  end.
Lemma runSched_exec (W : pool -> nat -> Prop) p0 sch : (forall p t, W p t) -> forall tr p tr' p', exec W p0 tr p ->
  runSched sch tr p = Some (tr', p') -> exec W p0 tr' p'.
Proof.
  intros HW. induction sch as [|(t, a) sch IH]; intros tr p tr' p' He H; cbn in H.
  - now injection H as <- <-.
  - destruct (wellUsedb tr a) eqn:Ew; [|discriminate]. destruct (pstep t a p) as [(p1, evs)|] eqn:Es; [|discriminate].
    eapply IH; [|exact H]. eapply exec_cons; eauto.
    unfold wellUsedb in Ew. destruct a; cbn; auto. destruct (status tr i); congruence.
Qed.
(* the version count grows by at most one per step, so short schedules are
   inside the window *)
Lemma ver_step t a p p' evs : pstep t a p = Some (p', evs) -> ver p' <= S (ver p).
Proof.
  unfold pstep. intros Hs. destruct (nth_error _ _) as [[]|]; try discriminate; destruct a; try discriminate;
  repeat match type of Hs with context [match ?x with _ => _ end] => destruct x; try discriminate end;
  injection Hs as <- _; cbn; lia.
Qed.
Lemma runSched_window p0 sch : forall tr p tr' p', exec window p0 tr p -> (Z.of_nat (ver p + length sch) < 65536)%Z ->
  runSched sch tr p = Some (tr', p') -> exec window p0 tr' p'.
Proof.
  induction sch as [|(t, a) sch IH]; intros tr p tr' p' He Hv H; cbn in H.
  - now injection H as <- <-.
  - destruct (wellUsedb tr a) eqn:Ew; [|discriminate]. destruct (pstep t a p) as [(p1, evs)|] eqn:Es; [|discriminate].
    cbn [length] in Hv. pose proof (ver_step _ _ _ _ _ Es).
    eapply IH; [| |exact H]; [|lia]. eapply exec_cons; eauto.
    + unfold wellUsedb in Ew. destruct a; cbn; auto. destruct (status tr i); congruence.
    + unfold window. change (2 ^ 16) with (Z.to_nat 65536). destruct (nth_error _ _) as [[]|]; auto; lia.
Qed.
