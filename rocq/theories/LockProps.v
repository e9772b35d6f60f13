From Coq Require Import List Arith ZArith Lia Bool.
Import ListNotations.
From Verif Require Import TreeModel TreeSpec CacheModel CacheShard CacheSpec CacheRun CacheProps LockModel LockSpec LockProofs LockRun.

Section P.
  Context {D : Type}.
  Variable hash : Z -> Z.
  Variable fuel : nat.
  Variables (capacity conc : Z) (slots : nat) (c0 : cache D).
  Hypothesis HS : setup capacity conc slots hash fuel c0.
  Notation LI := (LI hash fuel c0).

  (* a shard of the cache and one under way, slot by slot *)
  Lemma li_shard tr m c j : LI tr m c -> j < length (shards c) -> exists s a, nth_error (shards (shared m)) j = Some s /\ nth_error (shards c) j = Some a /\
    (s = a \/ exists t o p r f e c', nth_error (threads m) t = Some (Inside o j p) /\ mid a f s /\ path (mid a f) p s r f /\ endOf o j r = Some e /\
      exec hash fuel c0 (e :: ended tr) c' /\ nth_error (shards c') j = Some f /\ goodEvent hash (Z.to_nat conc) slots (ended tr) o e).
  Proof using HS.
    intros L Lj. destruct (nth_error (shards c) j) as [a|] eqn:Ea; [|apply nth_error_None in Ea; lia].
    destruct (nth_error (shards (shared m)) j) as [s|] eqn:Es; [|apply nth_error_None in Es; rewrite (l_len _ _ _ _ _ _ L) in Es; lia].
    exists s, a. split; auto. split; auto. pose proof (l_sh _ _ _ _ _ _ L _ _ _ Es Ea) as H. destruct (nth_error (owner m) j) as [[t|]|] eqn:Eo; [|left; exact H|contradiction].
    right. destruct H as (o & p & r & f & A & B & C). destruct (pending_run _ _ _ _ _ _ HS _ _ _ _ _ _ _ _ L A eq_refl Ea) as (r1 & f1 & e & c' & E1 & E2 & E3 & E4 & G).
    rewrite B in E1. injection E1 as <- <-. exists t, o, p, r, f, e, c'. split; auto. split; [eapply path_Q; eauto|]. split; auto. split; auto.
    split; [econstructor; [apply L|exact (pending_used _ _ _ _ _ _ _ _ _ _ L A eq_refl)|exact E2]|]. split; auto. rewrite E4. eapply nth_lupd_eq'; eauto.
  Qed.
  Lemma exec_active tr c j a i : exec hash fuel c0 tr c -> nth_error (shards c) j = Some a -> active a i = Z.of_nat (held tr (j, i)).
  Proof using HS.
    intros He Ea. destruct (reach _ _ _ _ _ _ HS _ _ He) as (as_ & HC). rewrite (si_act _ _ _ (ci_si _ _ _ _ _ _ HC _ _ Ea) i).
    rewrite (ci_h _ _ _ _ _ _ HC); auto. rewrite <- (ci_len _ _ _ _ _ _ HC). apply nth_error_Some. congruence.
  Qed.
  Lemma exec_data tr c j a i k d : exec hash fuel c0 tr c -> nth_error (shards c) j = Some a -> occupant tr (j, i) = Some (k, d) -> data a i = d.
  Proof using HS.
    intros He Ea Ho. destruct (reach _ _ _ _ _ _ HS _ _ He) as (as_ & HC). eapply (si_data _ _ _ (ci_si _ _ _ _ _ _ HC _ _ Ea) i (hash k)).
    rewrite (ci_o _ _ _ _ _ _ HC); [now rewrite Ho|]. rewrite <- (ci_len _ _ _ _ _ _ HC). apply nth_error_Some. congruence.
  Qed.

  (* the assert after the unlock *)
  Lemma assert_holds tr m c t j i : LI tr m c -> nth_error (threads m) t = Some (Assert j i) -> exists s, nth_error (shards (shared m)) j = Some s /\ (0 < active s i)%Z.
  Proof using HS.
    intros L Ht. destruct (li_shard _ _ _ _ L (l_as _ _ _ _ _ _ L _ _ _ Ht)) as (s & a & Es & Ea & H). exists s. split; auto.
    pose proof (l_tied _ _ _ _ _ _ L (j, i)) as T. pose proof (sum_ge (tied (j, i)) _ _ _ Ht) as G. unfold sum in T. cbn [tied] in G. rewrite slot_eqb_refl in G.
    pose proof (exec_active _ _ _ _ i (l_ex _ _ _ _ _ _ L) Ea) as Aa.
    destruct H as [->|(u & o & p & r & f & e & c' & Hu & M & _ & _ & Ex & Ef & Ge)]; [lia|].
    destruct (M i) as (_ & [E|E]); [rewrite E, Aa; lia|]. rewrite E, (exec_active _ _ _ _ i Ex Ef), held_cons.
    destruct e as [k s1 d1|k s1 ok d1|k|s1]; try (destruct (slot_eqb (j, i) s1); lia); [lia|]. destruct o as [k0 ok0 d0|s0].
    { destruct Ge as (j0 & _ & _ & [(i0 & d' & _ & _ & X)|[(_ & i0 & _ & X & _)|(_ & X & _)]]); discriminate. }
    cbn in Ge. injection Ge as ->. destruct (slot_eqb (j, i) s0) eqn:Eq; [|lia].
    assert (t <> u) as Ne by congruence. pose proof (sum_two (tied (j, i)) _ _ _ _ _ Ne Ht Hu) as S2. cbn [tied] in S2. rewrite slot_eqb_refl, Eq in S2. lia.
  Qed.
  Lemma can_go tr m c t : LI tr m c -> busy m t -> ~ blocked m t -> exists m' evs, lstep hash fuel t Go m = Some (m', evs).
  Proof using HS.
    intros L (x & Ht & Hx) Nb. unfold lstep. rewrite Ht. destruct x as [|o j|o j p|j i]; [contradiction| | |].
    - destruct (l_op _ _ _ _ _ _ L _ _ _ _ Ht eq_refl) as (_ & Lj & _). destruct (nth_error (owner m) j) as [[u|]|] eqn:Eo.
      + exfalso. apply Nb. exists o, j, u. auto.
      + eauto.
      + apply nth_error_None in Eo. rewrite (l_own _ _ _ _ _ _ L) in Eo. lia.
    - destruct (l_op _ _ _ _ _ _ L _ _ _ _ Ht eq_refl) as (_ & Lj & _). destruct (li_shard _ _ _ _ L Lj) as (s & a & Es & Ea & H).
      pose proof (l_sh _ _ _ _ _ _ L _ _ _ Es Ea) as Hs. rewrite (l_in _ _ _ _ _ _ L _ _ _ _ Ht) in Hs. destruct Hs as (o1 & p1 & r & f & A & B & C). rewrite Ht in A. injection A as <- <-.
      destruct p as [r0|g|hit k|hit v p]; inversion C; subst; eauto.
      + destruct (pending_run _ _ _ _ _ _ HS _ _ _ _ _ _ _ _ L Ht eq_refl Ea) as (r1 & f1 & e & c' & E1 & _ & E3 & _). rewrite B in E1. injection E1 as <- <-. rewrite E3. destruct (nodeOf r); eauto.
      + rewrite Es. match goal with H : g s = Some _ |- _ => rewrite H end. eauto.
    - destruct (assert_holds _ _ _ _ _ _ L Ht) as (s & Es & Ha). rewrite Es. apply Z.ltb_lt in Ha. rewrite Ha. eauto.
  Qed.
  (* somebody can always go on *)
  Lemma no_deadlock tr m c : LI tr m c -> (exists t, busy m t) -> exists t m' evs, lstep hash fuel t Go m = Some (m', evs).
  Proof using HS.
    intros L (t & Hb). pose proof Hb as (x & Ht & Hx).
    assert (blocked m t \/ ~ blocked m t) as [(o & j & w & Hw & Ow)|Nb].
    { destruct x as [|o j|o j p|j i]; try (right; intros (o' & j' & w & E & _); congruence). destruct (nth_error (owner m) j) as [[w|]|] eqn:Eo.
      - left. exists o, j, w. auto.
      - right. intros (o' & j' & w & E & E'). rewrite Ht in E. injection E as -> ->. congruence.
      - right. intros (o' & j' & w & E & E'). rewrite Ht in E. injection E as -> ->. congruence. }
    - destruct (l_op _ _ _ _ _ _ L _ _ _ _ Hw eq_refl) as (_ & Lj & _). destruct (li_shard _ _ _ _ L Lj) as (s & a & Es & Ea & _).
      pose proof (l_sh _ _ _ _ _ _ L _ _ _ Es Ea) as H. rewrite Ow in H. destruct H as (o1 & p1 & r & f & A & _ & _).
      exists w. apply (can_go _ _ _ _ L); [exists (Inside o1 j p1); split; [exact A|discriminate]|]. intros (o2 & j2 & w2 & E & _). congruence.
    - exists t. eapply can_go; eauto.
  Qed.
  (* what a holder reads *)
  Lemma data_kept tr m c j i k d : LI tr m c -> occupant (ended tr) (j, i) = Some (k, d) -> 0 < held (ended tr) (j, i) ->
    exists s, nth_error (shards (shared m)) j = Some s /\ data s i = d.
  Proof using HS.
    intros L Ho Hh. destruct (reach _ _ _ _ _ _ HS _ _ (l_ex _ _ _ _ _ _ L)) as (as_ & HC).
    destruct (Nat.lt_ge_cases j (length (shards c))) as [Lj|G]; [|rewrite (ci_len _ _ _ _ _ _ HC) in G; destruct (ci_out _ _ _ _ _ _ HC j i G); lia].
    destruct (li_shard _ _ _ _ L Lj) as (s & a & Es & Ea & H). exists s. split; auto. pose proof (exec_data _ _ _ _ _ _ _ (l_ex _ _ _ _ _ _ L) Ea Ho) as Da.
    destruct H as [->|(u & o & p & r & f & e & c' & Hu & M & _ & _ & Ex & Ef & Ge)]; auto.
    destruct (M i) as ([E|E] & _); [congruence|]. rewrite E. apply (exec_data _ _ _ _ _ k d Ex Ef). destruct e as [k1 s1 d1|k1 s1 ok1 d1|k1|s1]; auto. cbn [occupant].
    destruct (slot_eqb_spec (j, i) s1) as [Eq|]; auto. exfalso. destruct o as [k0 ok0 d0|s0]; [|discriminate].
    destruct Ge as (j0 & _ & _ & [(i0 & d' & _ & _ & X)|[(_ & i0 & _ & X & Hz)|(_ & X & _)]]); try discriminate. injection X as _ X _ _. subst s1. rewrite <- Eq in Hz. destruct Hz as [(_ & Z & _)|(_ & Z & _)]; lia.
  Qed.
  Lemma inside_one tr m c t u j : LI tr m c -> inside m t j -> inside m u j -> t = u.
  Proof using. intros L (o & p & H) (o' & p' & H'). pose proof (l_in _ _ _ _ _ _ L _ _ _ _ H). pose proof (l_in _ _ _ _ _ _ L _ _ _ _ H'). congruence. Qed.

  (* the events of each thread *)
  Definition statusOf (x : tstate D) : status D := match x with Idle => Out | Want o _ | Inside o _ _ => Called o | Assert _ _ => Done end.
  Lemma good_for tr (o : cop D) e : goodEvent hash (Z.to_nat conc) slots tr o e -> eventFor o e.
  Proof using.
    destruct o as [k ok d|s]; cbn [goodEvent].
    - intros (j & _ & _ & [(i & d' & _ & _ & ->)|[(_ & i & _ & -> & _)|(_ & -> & _)]]); cbn; auto.
    - intros ->. reflexivity.
  Qed.
  Lemma proper_all n tr m : lexec hash fuel c0 n tr m -> forall t x, nth_error (threads m) t = Some x -> proper (ofThread t tr) (statusOf x).
  Proof using HS.
    induction 1 as [|tr m t a m' evs He IH Hu Hs]; intros u x Hx.
    - cbn in Hx. apply nth_error_In, repeat_spec in Hx. subst. constructor.
    - destruct (lexec_LI _ _ _ _ _ _ HS _ _ _ He) as (c & L).
      assert (forall y, nth_error (threads m') u = Some x -> threads m' = lupd (threads m) t y -> u <> t -> nth_error (threads m) u = Some x) as Other.
      { intros y E1 E2 Ne. rewrite E2, nth_lupd_ne' in E1 by auto. exact E1. }
      unfold lstep in Hs. destruct (nth_error (threads m) t) as [z|] eqn:Et; [|discriminate]. pose proof (IH _ _ Et) as P.
      assert (forall y, threads m' = lupd (threads m) t y -> (forall e, In e evs -> threadOf e = t) -> proper (evs ++ ofThread t tr) (statusOf y) -> proper (ofThread u (evs ++ tr)) (statusOf x)) as Fin.
      { intros y E1 E2 E3. assert (ofThread u (evs ++ tr) = ofThread u evs ++ ofThread u tr) as -> by apply filter_app. destruct (Nat.eq_dec u t) as [->|Ne].
        - rewrite E1, (nth_lupd_eq' _ _ _ _ Et) in Hx. injection Hx as <-. assert (ofThread t evs = evs) as ->; [|exact E3].
          clear - E2. induction evs as [|e evs IH]; [reflexivity|]. cbn. rewrite (E2 e (or_introl eq_refl)), Nat.eqb_refl. f_equal. apply IH. intros e' H. apply E2. right. exact H.
        - assert (ofThread u evs = []) as ->; [|apply IH; eapply Other; eauto].
          clear - E2 Ne. induction evs as [|e evs IH]; [reflexivity|]. cbn. rewrite (E2 e (or_introl eq_refl)). destruct (Nat.eqb_spec t u); [congruence|]. apply IH. intros e' H. apply E2. right. exact H. }
      destruct a as [o|].
      + destruct z; try discriminate. destruct (shardOf hash o (shared m)) as [j|]; [|discriminate]. injection Hs as <- <-.
        apply (Fin (Want o j)); [reflexivity|intros e [<-|[]]; reflexivity|]. cbn. constructor. exact P.
      + destruct z as [|o j|o j p|j i]; try discriminate.
        * destruct (nth_error (owner m) j) as [[w|]|]; try discriminate. injection Hs as <- <-. apply (Fin (Inside o j (callProg hash fuel o))); [reflexivity|intros e []|exact P].
        * destruct p as [r|g|hit k|hit v p].
          { destruct (endOf o j r) as [e|] eqn:Ee; [|discriminate]. destruct (l_op _ _ _ _ _ _ L _ _ _ _ Et eq_refl) as (_ & Lj & _). destruct (li_shard _ _ _ _ L Lj) as (s & a & Es & Ea & _).
            pose proof (l_sh _ _ _ _ _ _ L _ _ _ Es Ea) as Hs'. rewrite (l_in _ _ _ _ _ _ L _ _ _ _ Et) in Hs'. destruct Hs' as (o1 & p1 & r1 & f & A & B & C). rewrite Et in A. injection A as <- <-. inversion C; subst.
            destruct (pending_run _ _ _ _ _ _ HS _ _ _ _ _ _ _ _ L Et eq_refl Ea) as (r2 & f2 & e2 & c' & E1 & _ & E3 & _ & G). rewrite B in E1. injection E1 as <- <-. rewrite Ee in E3. injection E3 as <-. apply good_for in G.
            destruct (nodeOf r1) as [i|] eqn:En; injection Hs as <- <-.
            - apply (Fin (Assert j i)); [reflexivity|intros e' [<-|[]]; reflexivity|]. cbn. econstructor; [exact P|exact G].
            - apply (Fin Idle); [reflexivity|intros e' [<-|[<-|[]]]; reflexivity|]. cbn. constructor. econstructor; [exact P|exact G]. }
          { destruct (nth_error (shards (shared m)) j) as [s|]; [|discriminate]. destruct (g s) as [(p, s')|]; [|discriminate]. injection Hs as <- <-. apply (Fin (Inside o j p)); [reflexivity|intros e []|exact P]. }
          { injection Hs as <- <-. eapply Fin; [reflexivity|intros e []|exact P]. }
          { injection Hs as <- <-. apply (Fin (Inside o j p)); [reflexivity|intros e []|exact P]. }
        * destruct (nth_error (shards (shared m)) j) as [s|]; [|discriminate]. destruct (Z.ltb 0 (active s i)); [|discriminate]. injection Hs as <- <-.
          apply (Fin Idle); [reflexivity|intros e [<-|[]]; reflexivity|]. cbn. constructor. exact P.
  Qed.

  (* steps of a program *)
  Inductive within : nat -> prog D -> Prop :=
  | w_unlock n r : within (S n) (Unlock r)
  | w_access n f : (forall s p s', f s = Some (p, s') -> within n p) -> within (S n) (Access f)
  | w_load n hit k : (forall z, within n (k z)) -> within (S n) (LoadCounter hit k)
  | w_store n hit v k : within n k -> within (S n) (StoreCounter hit v k).
  Lemma within_mono n p : within n p -> forall k, n <= k -> within k p.
  Proof using.
    induction 1 as [n r|n f H IH|n hit k H IH|n hit v k H IH]; intros [|k'] Hk; try lia; constructor; intros; first [eapply IH; eauto; lia|apply IH; lia].
  Qed.
  Ltac wa := apply w_access; let s := fresh in let p := fresh in let s' := fresh in let H := fresh in intros s p s' H.
  Lemma within_count n hit k : within n k -> within (S (S n)) (@count D hit k).
  Proof using. intros H. constructor. intros z. constructor. exact H. Qed.
  Lemma within_done ok i : within 4 (@loadDone D ok i).
  Proof using. apply within_count. apply w_access. intros s p s' H. injection H as <- <-. constructor. Qed.
  Lemma within_hitDone i : within 4 (@hitDone D i).
  Proof using. apply within_count. apply w_access. intros s p s' H. injection H as <- <-. constructor. Qed.
  Lemma within_fill hk ok d i : within 8 (fillProg fuel hk ok d i).
  Proof using.
    apply w_access. intros s p s' H. injection H as <- <-. apply w_access. intros s1 p s' H. injection H as <- <-. destruct ok; [|apply (within_mono _ _ (within_done false i)); lia].
    apply w_access. intros s2 p s' H. destruct (onTree _ s2) as [(x, s3)|]; [|discriminate]. injection H as <- <-.
    apply w_access. intros s4 p s' H. destruct (onTree _ s4) as [(x', s5)|]; [|discriminate]. injection H as <- <-. apply within_done.
  Qed.
  Lemma within_remove hk ok d i : within 9 (removeProg fuel hk ok d i).
  Proof using. apply w_access. intros s p s' H. destruct (onTree _ s) as [(x, s3)|]; [|discriminate]. injection H as <- <-. apply within_fill. Qed.
  Lemma within_call o : within 13 (callProg hash fuel o).
  Proof using.
    destruct o as [k ok d|(j, i)]; cbn [callProg].
    - apply w_access. intros s p s' H. destruct (TreeFind fuel (hash k) (tree s)) as [([q|], h)|]; [| |discriminate]; injection H as <- <-.
      + apply w_access. intros s1 p s' H. destruct (Z.ltb _ _); [|discriminate]. injection H as <- <-. destruct (Z.eqb _ _).
        * apply w_access. intros s2 p s' H. injection H as <- <-. apply (within_mono _ _ (within_hitDone _)). lia.
        * apply (within_mono _ _ (within_hitDone _)). lia.
      + apply w_access. intros s1 p s' H. destruct (Nat.ltb _ _); [injection H as <- <-; apply (within_mono _ _ (within_remove _ _ _ _)); lia|].
        destruct (last s1) as [i|]; [|injection H as <- <-; apply within_count; constructor]. destruct (Z.eqb _ _); [|discriminate]. injection H as <- <-.
        apply w_access. intros s2 p s' H. injection H as <- <-. apply w_access. intros s3 p s' H. destruct (onTree _ s3) as [(x, s4)|]; [|discriminate]. injection H as <- <-. apply within_remove.
    - apply w_access. intros s p s' H. destruct (Z.eqb _ _); [discriminate|]. injection H as <- <-. destruct (Z.eqb _ _); [|constructor].
      apply w_access. intros s1 p s' H. destruct (cacheAddToHead i s1); [|discriminate]. injection H as <- <-. constructor.
  Qed.
  (* steps a thread has left, at most *)
  Definition left_ (n : nat) (x : tstate D) : Prop :=
    match x with Idle => True | Want _ _ => 15 <= n | Inside _ _ p => exists k, n = S k /\ within k p | Assert _ _ => 1 <= n end.
  Lemma step_left t m m' evs x n : nth_error (threads m) t = Some x -> lstep hash fuel t Go m = Some (m', evs) -> left_ n x ->
    exists y n', n = S n' /\ threads m' = lupd (threads m) t y /\ left_ n' y.
  Proof using.
    intros Ht Hs Hl. unfold lstep in Hs. rewrite Ht in Hs. destruct x as [|o j|o j p|j i]; try discriminate; cbn [left_] in Hl.
    - destruct (nth_error (owner m) j) as [[w|]|]; try discriminate. injection Hs as <- <-. exists (Inside o j (callProg hash fuel o)), (pred n). split; [lia|]. split; [reflexivity|].
      exists (pred (pred n)). split; [lia|]. apply (within_mono _ _ (within_call o)). lia.
    - destruct Hl as (k & -> & W). destruct p as [r|g|hit f|hit v p].
      + destruct (endOf o j r) as [e|]; [|discriminate]. exists (match nodeOf r with Some i => Assert j i | None => Idle end), k. split; auto. inversion W; subst.
        destruct (nodeOf r); injection Hs as <- <-; (split; [reflexivity|]); cbn; [lia|auto].
      + inversion W as [|k' g' W'| |]; subst. destruct (nth_error (shards (shared m)) j) as [s|]; [|discriminate]. destruct (g s) as [(p, s')|] eqn:Eg; [|discriminate]. injection Hs as <- <-.
        exists (Inside o j p), (S k'). split; [lia|]. split; [reflexivity|]. exists k'. split; auto. eapply W'; eauto.
      + inversion W as [| |k' h' g' W'|]; subst. injection Hs as <- <-. eexists _, (S k'). split; [lia|]. split; [reflexivity|]. exists k'. split; auto.
      + inversion W as [| | |k' h' v' g' W']; subst. injection Hs as <- <-. exists (Inside o j p), (S k'). split; [lia|]. split; [reflexivity|]. exists k'. split; auto.
    - destruct (nth_error (shards (shared m)) j) as [s|]; [|discriminate]. destruct (Z.ltb 0 (active s i)); [|discriminate]. injection Hs as <- <-. exists Idle, (pred n). split; [lia|]. split; [reflexivity|]. exact Logic.I.
  Qed.
  Lemma left_some n0 tr m : lexec hash fuel c0 n0 tr m -> forall t x, nth_error (threads m) t = Some x -> exists n, n <= 15 * working x /\ left_ n x.
  Proof using.
    induction 1 as [|tr m t a m' evs He IH Hu Hs]; intros u x Hx.
    - cbn in Hx. apply nth_error_In, repeat_spec in Hx. subst. exists 0. split; [cbn; lia|exact Logic.I].
    - destruct a as [o|].
      + unfold lstep in Hs. destruct (nth_error (threads m) t) as [z|] eqn:Et; [|discriminate]. destruct z; try discriminate. destruct (shardOf hash o (shared m)) as [j|]; [|discriminate]. injection Hs as <- <-.
        cbn in Hx. destruct (Nat.eq_dec u t) as [->|Ne]; [rewrite (nth_lupd_eq' _ _ _ _ Et) in Hx; injection Hx as <-; exists 15; cbn; lia|]. rewrite nth_lupd_ne' in Hx by auto. eauto.
      + destruct (nth_error (threads m) t) as [z|] eqn:Et; [|unfold lstep in Hs; rewrite Et in Hs; discriminate]. destruct (IH _ _ Et) as (n & Hn & Hl).
        destruct (step_left _ _ _ _ _ _ Et Hs Hl) as (y & n' & -> & Em & Hl'). rewrite Em in Hx. destruct (Nat.eq_dec u t) as [->|Ne]; [|rewrite nth_lupd_ne' in Hx by auto; eauto].
        rewrite (nth_lupd_eq' _ _ _ _ Et) in Hx. injection Hx as <-. destruct y as [|o j|o j p|j i]; cbn [working]; [exists 0; split; [lia|exact Logic.I]|exists n'; split; auto..]; destruct z; cbn in Hn; lia.
  Qed.
  Lemma goes_left k : forall m m', goes hash fuel k m m' -> forall ns : list nat, Forall2 (fun x n => left_ n x) (threads m) ns -> k <= list_sum ns.
  Proof using.
    induction k as [|k IH]; intros m m' H ns F; inversion H; subst; [lia|].
    match goal with Hs : lstep _ _ t Go m = Some _, Hg : goes _ _ k m1 _ |- _ => rename Hs into Es; rename Hg into Eg end.
    destruct (nth_error (threads m) t) as [x|] eqn:Et; [|unfold lstep in Es; rewrite Et in Es; discriminate].
    assert (exists n, nth_error ns t = Some n /\ left_ n x) as (n & En & Hl).
    { clear - F Et. revert t Et. induction F as [|y n l ns Hy F IH]; intros [|t] Et; cbn in *; try discriminate; [injection Et as ->; eauto|eauto]. }
    destruct (step_left _ _ _ _ _ _ Et Es Hl) as (y & n' & -> & Em & Hl').
    assert (Forall2 (fun x n => left_ n x) (threads m1) (lupd ns t n')) as F'.
    { rewrite Em. clear - F Hl'. revert t. induction F as [|z n l ns Hz F IH]; intros [|t]; cbn; constructor; auto. }
    specialize (IH _ _ Eg _ F'). assert (list_sum (lupd ns t n') + S n' = list_sum ns + n') as E.
    { pose proof (sum_lupd (fun z => z) ns t (S n') n' En) as E. rewrite !map_id in E. exact E. }
    lia.
  Qed.
  Lemma goes_bound n0 tr m k m' : lexec hash fuel c0 n0 tr m -> goes hash fuel k m m' -> k <= 15 * sum working (threads m).
  Proof using.
    intros He Hg. pose proof (left_some _ _ _ He) as Hl.
    assert (exists ns, Forall2 (fun x n => left_ n x) (threads m) ns /\ list_sum ns <= 15 * sum working (threads m)) as (ns & F & E).
    { unfold sum. clear - Hl. induction (threads m) as [|x l IH]; [exists []; split; [constructor|cbn; lia]|].
      destruct IH as (ns & F & E); [intros t y Hy; exact (Hl (S t) y Hy)|]. destruct (Hl 0 x eq_refl) as (n & Hn & Hx). exists (n :: ns). split; [constructor; auto|].
      cbn [map]. unfold list_sum in *. cbn [fold_right]. lia. }
    pose proof (goes_left _ _ _ Hg _ F). lia.
  Qed.
  Lemma free_shards tr m c j : LI tr m c -> nth_error (owner m) j = Some None -> nth_error (shards (shared m)) j = nth_error (shards c) j.
  Proof using.
    intros L Ho. assert (j < length (shards c)) as Lj by (rewrite <- (l_own _ _ _ _ _ _ L); apply nth_error_Some; congruence).
    destruct (nth_error (shards c) j) as [a|] eqn:Ea; [|apply nth_error_None in Ea; lia].
    destruct (nth_error (shards (shared m)) j) as [s|] eqn:Es; [|apply nth_error_None in Es; rewrite (l_len _ _ _ _ _ _ L) in Es; lia].
    pose proof (l_sh _ _ _ _ _ _ L _ _ _ Es Ea) as H. rewrite Ho in H. congruence.
  Qed.
End P.
