(* Consequences of CacheRun used by PropertiesCache. *)
From Coq Require Import List Arith ZArith Lia Bool Permutation.
Import ListNotations.
From Verif Require Import TreeModel TreeSpec CacheModel CacheList CacheShard CacheSpec CacheRun.

Lemma lastLoad_in {D} (tr : trace D) k s d : lastLoad tr k = Some (s, d) -> In (Load k s true d) tr.
Proof.
  induction tr as [|e tr IH]; cbn; [discriminate|].
  destruct e as [k' s' d'|k' s' [|] d'|k'|s']; auto.
  destruct (Z.eqb_spec k k') as [->|]; auto. intros E. injection E as -> ->. auto.
Qed.

Section P.
  Context {D : Type}.
  Variables (capacity conc : Z) (slots : nat) (hash : Z -> Z) (fuel : nat) (c0 : cache D).
  Hypothesis HS : setup capacity conc slots hash fuel c0.
  Notation nc := (Z.to_nat conc).

  Lemma setup_inj : forall k k', hash k = hash k' -> k = k'. Proof using HS. apply HS. Qed.
  Lemma setup_fuel : bound slots <= fuel. Proof using HS. apply HS. Qed.
  Lemma setup_conc : 0 < nc.
  Proof using HS.
    destruct HS as (_ & Hc & _ & E & _). unfold createShardCapacity in E.
    destruct (Z.eqb_spec conc 0); [discriminate|]. lia.
  Qed.
  Lemma setup_CI : exists as_, CI hash nc slots [] c0 as_ /\ as_ = (fun _ => ainit).
  Proof using HS.
    destruct HS as (_ & Hc & _ & E & (h & d0 & Hm & Hcr) & _). unfold cacheCreate in Hcr. rewrite E in Hcr.
    destruct (Z.ltb _ _); [discriminate|]. rewrite Nat2Z.id in Hcr.
    destruct (initShards h nc slots d0) as [l|] eqn:El; [|discriminate]. injection Hcr as <-.
    exists (fun _ => ainit). split; [|reflexivity]. exact (init_CI hash nc slots h d0 l Hm El).
  Qed.
  Lemma conc_nat : Z.of_nat nc = conc.
  Proof using HS. destruct HS as (_ & Hc & _). lia. Qed.

  Lemma reach tr c : exec hash fuel c0 tr c -> exists as_, CI hash nc slots tr c as_.
  Proof using HS.
    destruct setup_CI as (as_ & H0 & ->).
    apply (exec_CI hash fuel nc slots setup_inj setup_conc setup_fuel c0 H0).
  Qed.
  Lemma next tr c o : exec hash fuel c0 tr c -> wellUsed hash tr o ->
    exists e c', runCop hash fuel o c = Some (e, c') /\ goodEvent hash nc slots tr o e.
  Proof using HS.
    destruct setup_CI as (as_ & H0 & ->).
    apply (exec_good hash fuel nc slots setup_inj setup_conc setup_fuel c0 H0).
  Qed.
  Lemma next_ev tr c o e c' : exec hash fuel c0 tr c -> wellUsed hash tr o ->
    runCop hash fuel o c = Some (e, c') -> goodEvent hash nc slots tr o e.
  Proof using HS.
    intros He Hw Hr. destruct (next _ _ _ He Hw) as (e1 & c1 & E & G). congruence.
  Qed.
  Lemma event_ok e tr c : exec hash fuel c0 (e :: tr) c -> exists o c1, exec hash fuel c0 tr c1 /\
    goodEvent hash nc slots tr o e /\ wellUsed hash tr o.
  Proof using HS.
    intros He. inversion He as [|tr' c' o e' c'' He' Hw Hr]; subst. exists o, c'.
    split; auto. split; auto. eapply next_ev; eauto.
  Qed.
  Lemma exec_tail tr1 tr2 c : exec hash fuel c0 (tr1 ++ tr2) c -> exists c', exec hash fuel c0 tr2 c'.
  Proof using.
    revert c. induction tr1 as [|e tr1 IH]; intros c He; [eauto|].
    inversion He; subst. eauto.
  Qed.
  Lemma occ_inj_tr tr c s s' k d d' : exec hash fuel c0 tr c ->
    occupant tr s = Some (k, d) -> occupant tr s' = Some (k, d') -> s = s' /\ d = d'.
  Proof using HS.
    intros He H1 H2. destruct (reach _ _ He) as (as_ & HC).
    apply (ci_last _ _ _ _ _ _ HC) in H1. apply (ci_last _ _ _ _ _ _ HC) in H2. split; congruence.
  Qed.

  (* C06 over a stretch of history during which the slot stays held *)
  Lemma in_use tr0 k s d : 
    forall tr1 e c, (e = Hit k s d \/ e = Load k s true d) ->
    exec hash fuel c0 (tr1 ++ e :: tr0) c ->
    (forall tr2 tr3, tr1 = tr2 ++ tr3 -> 0 < held (tr3 ++ e :: tr0) s) ->
    occupant (tr1 ++ e :: tr0) s = Some (k, d) /\
    (forall k' ok d', ~ In (Load k' s ok d') tr1) /\
    (forall s' d', In (Hit k s' d') tr1 -> s' = s /\ d' = d) /\
    (forall s' ok d', ~ In (Load k s' ok d') tr1) /\ ~ In (Refused k) tr1.
  Proof using HS.
    induction tr1 as [|x tr1 IH]; intros e c Hev He Hh; cbn [app] in *.
    - split; [|cbn; tauto].
      destruct Hev as [-> | ->]; cbn [occupant].
      + destruct (event_ok _ _ _ He) as (o & c1 & _ & G & _). destruct o as [k1 ok1 d1|s1]; cbn [goodEvent] in G; [|discriminate].
        destruct G as (j & _ & _ & [(i & d' & _ & G1 & G2)|[(_ & i & _ & G & _)|(_ & G & _)]]); try discriminate.
        injection G2 as -> -> ->. exact G1.
      + now rewrite slot_eqb_refl.
    - inversion He as [|tr' c' o e' c'' He' Hw Hr]; subst.
      destruct (IH e c' Hev He') as (I1 & I2 & I3 & I4 & I5).
      { intros tr2 tr3 E. apply (Hh (x :: tr2) tr3). now rewrite E. }
      pose proof (Hh [x] tr1 eq_refl) as Hpos.
      pose proof (next_ev _ _ _ _ _ He' Hw Hr) as G.
      destruct o as [k1 ok1 d1|s1]; cbn [goodEvent] in G.
      + destruct G as (j & _ & _ & [(i & d' & _ & G1 & ->)|[(Gn & i & _ & -> & G)|(Gn & -> & _)]]); cbn [occupant].
        * split; [exact I1|]. split; [intros k' ok d2 [Hx|Hx]; [discriminate|eapply I2, Hx]|].
          split; [|split; [intros s' ok d2 [Hx|Hx]; [discriminate|eapply I4, Hx]|intros [Hx|Hx]; [discriminate|auto]]].
          intros s' d2 [Hx|Hx]; [|eauto]. injection Hx as -> <- <-.
          eapply occ_inj_tr; eauto.
        * assert (held (tr1 ++ e :: tr0) (j, i) = 0) as H0 by (destruct G as [(_ & G & _)|(_ & G & _)]; auto).
          assert (s <> (j, i)) as Ns by (intros ->; lia).
          rewrite slot_eqb_ne by auto.
          assert (k1 <> k) as Nk by (intros ->; apply Gn; red; eauto).
          split; [exact I1|]. split; [intros k' ok d2 [Hx|Hx]; [congruence|eapply I2, Hx]|].
          split; [intros s' d2 [Hx|Hx]; [discriminate|eauto]|].
          split; [intros s' ok d2 [Hx|Hx]; [congruence|eapply I4, Hx]|intros [Hx|Hx]; [discriminate|auto]].
        * split; [exact I1|]. split; [intros k' ok d2 [Hx|Hx]; [discriminate|eapply I2, Hx]|].
          split; [intros s' d2 [Hx|Hx]; [discriminate|eauto]|].
          split; [intros s' ok d2 [Hx|Hx]; [discriminate|eapply I4, Hx]|intros [Hx|Hx]; auto].
          injection Hx as ->. apply Gn. red. eauto.
      + subst x. cbn [occupant].
        split; [exact I1|]. split; [intros k' ok d2 [Hx|Hx]; [discriminate|eapply I2, Hx]|].
        split; [intros s' d2 [Hx|Hx]; [discriminate|eauto]|].
        split; [intros s' ok d2 [Hx|Hx]; [discriminate|eapply I4, Hx]|intros [Hx|Hx]; [discriminate|auto]].
  Qed.

  (* sum of the holds over distinct slots is at most the number of entries held *)
  Definition sumHeld (tr : trace D) (l : list slot) : nat := list_sum (map (held tr) l).
  Lemma sumHeld_upd tr l s f : NoDup l -> (forall s', s' <> s -> f s' = held tr s') ->
    list_sum (map f l) + (if existsb (slot_eqb s) l then held tr s else 0) =
    sumHeld tr l + (if existsb (slot_eqb s) l then f s else 0).
  Proof using.
    intros Hn Hf. unfold sumHeld, list_sum. induction l as [|a l IH]; cbn; auto.
    inversion Hn; subst. specialize (IH H2). destruct (slot_eqb_spec s a) as [->|N]; cbn.
    - assert (existsb (slot_eqb a) l = false) as E.
      { destruct (existsb (slot_eqb a) l) eqn:E; auto. apply existsb_exists in E. destruct E as (x & Hx & Ex).
        destruct (slot_eqb_spec a x); [subst; contradiction|discriminate]. }
      rewrite E in IH. lia.
    - rewrite Hf by auto. lia.
  Qed.
  Lemma holds_sum tr c : exec hash fuel c0 tr c -> forall l, NoDup l -> sumHeld tr l <= holds tr.
  Proof using HS.
    intros He. induction He as [|tr c o e c' He IH Hw Hr]; intros l Hn.
    - unfold sumHeld. cbn. induction l; cbn; auto. inversion Hn; auto.
    - pose proof IH as IHall. specialize (IH l Hn).
      assert (forall s, (forall s', s' <> s -> held (e :: tr) s' = held tr s') ->
        sumHeld (e :: tr) l + (if existsb (slot_eqb s) l then held tr s else 0) =
        sumHeld tr l + (if existsb (slot_eqb s) l then held (e :: tr) s else 0)) as Hu.
      { intros s Hs. apply sumHeld_upd; auto. }
      pose proof (next_ev _ _ _ _ _ He Hw Hr) as G. destruct o as [k ok d|s]; cbn [goodEvent wellUsed] in *.
      + destruct G as (j & _ & _ & [(i & d' & _ & _ & ->)|[(_ & i & _ & -> & _)|(_ & -> & _)]]); cbn [holds].
        * specialize (Hu (j, i)). cbn [held] in Hu. rewrite slot_eqb_refl in Hu.
          destruct (existsb _ l); rewrite ?Nat.add_0_r in Hu; [|rewrite Hu; [lia|]]. 
          { assert (sumHeld (Hit k (j, i) d' :: tr) l + held tr (j, i) = sumHeld tr l + S (held tr (j, i))).
            { apply Hu. intros s' Ns. now rewrite slot_eqb_ne. } lia. }
          { intros s' Ns. now rewrite slot_eqb_ne. }
        * specialize (Hu (j, i)). cbn [held] in Hu. rewrite slot_eqb_refl in Hu.
          destruct (existsb _ l); rewrite ?Nat.add_0_r in Hu; [|rewrite Hu; [lia|]].
          { assert (sumHeld (Load k (j, i) ok d :: tr) l + held tr (j, i) = sumHeld tr l + S (held tr (j, i))).
            { apply Hu. intros s' Ns. now rewrite slot_eqb_ne. } lia. }
          { intros s' Ns. now rewrite slot_eqb_ne. }
        * exact IH.
      + subst e. cbn [holds].
        (* the slot is held, so it is counted in some larger list *)
        specialize (Hu s). cbn [held] in Hu. rewrite slot_eqb_refl in Hu.
        assert (forall s', s' <> s -> (if slot_eqb s' s then pred (held tr s') else held tr s') = held tr s') as Hs
          by (intros s' Ns; now rewrite slot_eqb_ne).
        specialize (Hu Hs).
        destruct (existsb (slot_eqb s) l) eqn:Ex; [lia|].
        (* s not in l: extend *)
        assert (~ In s l) as Hni.
        { intros Hi. assert (existsb (slot_eqb s) l = true); [|congruence].
          apply existsb_exists. exists s. split; auto. apply slot_eqb_refl. }
        assert (sumHeld tr (s :: l) <= holds tr) as Hex.
        { apply IHall. constructor; auto. }
        unfold sumHeld, list_sum in *. cbn [map fold_right] in Hex. lia.
  Qed.
End P.

(* running a list of calls, oldest first, checking they are well used *)
Section Run.
  Context {D : Type}.
  Variables (hash : Z -> Z) (fuel : nat).
  Definition wellUsedb (tr : trace D) (o : cop D) : bool :=
    match o with
    | Get k _ _ => negb (Z.eqb (toInt32 (hash k)) (- 2 ^ 31)) && Z.ltb (Z.of_nat (length tr)) INT_MAX
    | Release s => Nat.ltb 0 (held tr s)
    end.
  Fixpoint runList (os : list (cop D)) (tr : trace D) (c : cache D) : option (trace D * cache D) :=
    match os with
    | [] => Some (tr, c)
    | o :: os' =>
      if wellUsedb tr o then
        match runCop hash fuel o c with Some (e, c') => runList os' (e :: tr) c' | None => None end
      else None
    end.
  Lemma held_length (tr : trace D) s : held tr s <= length tr.
  Proof. induction tr as [|e tr IH]; cbn; auto. destruct e; cbn; try destruct (slot_eqb s s0); lia. Qed.
  Lemma runList_exec c0 os : forall tr c tr' c', exec hash fuel c0 tr c ->
    runList os tr c = Some (tr', c') -> exec hash fuel c0 tr' c'.
  Proof.
    induction os as [|o os IH]; cbn; intros tr c tr' c' He Hr; [congruence|].
    destruct (wellUsedb tr o) eqn:Ew; [|discriminate].
    destruct (runCop hash fuel o c) as [(e, c1)|] eqn:Er; [|discriminate].
    eapply IH; [|exact Hr]. econstructor; eauto.
    destruct o as [k ok d|s]; cbn in *.
    - apply andb_prop in Ew. destruct Ew as (E1 & E2). split.
      + apply negb_true_iff, Z.eqb_neq in E1. exact E1.
      + intros s. pose proof (held_length tr s). lia.
    - now apply Nat.ltb_lt.
  Qed.
End Run.

Lemma shardCapacity_val cap conc : (0 <= cap < 2 ^ 32)%Z -> (0 < conc < 2 ^ 16)%Z ->
  let n := (cap mod conc + cap / conc)%Z in
  (0 <= n < 2 ^ 32 /\ cacheShardCapacity cap conc = n /\ cap <= n * conc)%Z.
Proof.
  intros Hc Hk n. pose proof (Z.mod_pos_bound cap conc ltac:(lia)) as Hm.
  pose proof (Z.div_mod cap conc ltac:(lia)) as Hd.
  assert (0 <= cap / conc)%Z as Hq by (apply Z.div_pos; lia).
  assert (n <= cap)%Z as Hle by (unfold n; nia).
  split; [|split].
  - unfold n in *. lia.
  - unfold cacheShardCapacity. apply Z.mod_small. unfold n in *. lia.
  - unfold n. nia.
Qed.

Lemma create_ok cap conc : (0 <= cap < 2 ^ 32)%Z -> (0 < conc < 2 ^ 16)%Z -> (conc <= cap / conc)%Z ->
  ((cap mod conc + cap / conc) * conc < 2 ^ 31)%Z ->
  createShardCapacity cap conc = Some (cap mod conc + cap / conc)%Z /\
  createNodes cap conc = ((cap mod conc + cap / conc) * conc)%Z.
Proof.
  intros Hc Hk Hq Hs. pose proof (shardCapacity_val cap conc Hc Hk) as HV. cbv zeta in HV. destruct HV as (H1 & H2 & H3).
  unfold createShardCapacity, createNodes. rewrite H2. split; auto.
  destruct (Z.eqb_spec conc 0) as [?|Hn0]; [lia|]. destruct (Z.ltb_spec (cap / conc) conc); [lia|]. cbn [orb].
  set (n := (cap mod conc + cap / conc)%Z) in *. f_equal.
  assert (toInt32 (n * conc) = n * conc)%Z as ->.
  { unfold toInt32. rewrite Z.mod_small by nia. destruct (Z.ltb_spec (n * conc) (2 ^ 31)); lia. }
  rewrite Z.quot_mul by lia. apply Z.mod_small. lia.
Qed.

Lemma sum_pos {A} (f : A -> nat) l : (forall x, In x l -> 0 < f x) -> length l <= list_sum (map f l).
Proof.
  intros H. unfold list_sum. induction l as [|a l IH]; cbn; auto.
  assert (0 < f a) by (apply H; now left). assert (length l <= fold_right Nat.add 0 (map f l)) by (apply IH; intros; apply H; now right). lia.
Qed.
