(* Histories of calls on the whole cache. *)
From Coq Require Import List Arith ZArith Lia Bool Permutation Sorting.Sorted.
Import ListNotations.
From Verif Require Import TreeModel TreeSpec CacheModel CacheList CacheShard CacheSpec.

Lemma slot_eqb_spec a b : reflect (a = b) (slot_eqb a b).
Proof.
  destruct a as [a1 a2], b as [b1 b2]. unfold slot_eqb. cbn.
  destruct (Nat.eqb_spec a1 b1), (Nat.eqb_spec a2 b2); cbn; constructor; congruence.
Qed.
Lemma slot_eqb_refl a : slot_eqb a a = true.
Proof. destruct (slot_eqb_spec a a); congruence. Qed.
Lemma slot_eqb_ne a b : a <> b -> slot_eqb a b = false.
Proof. destruct (slot_eqb_spec a b); congruence. Qed.

Lemma nth_lupd {A} (l : list A) i v j : nth_error (lupd l i v) j =
  if Nat.eqb j i then match nth_error l i with Some _ => Some v | None => None end else nth_error l j.
Proof.
  revert i j. induction l as [|a l IH]; intros [|i] [|j]; cbn; auto.
  destruct (Nat.eqb_spec j i); subst; auto; now destruct i.
Qed.
Lemma length_lupd {A} (l : list A) i v : length (lupd l i v) = length l.
Proof. revert i. induction l as [|a l IH]; intros [|i]; cbn; auto. Qed.

Lemma shardIndex_range conc h z : (0 < conc)%Z -> shardIndex conc h = Some z -> (0 <= z < conc)%Z.
Proof.
  intros Hc. unfold shardIndex. destruct (Z.eqb _ _); [discriminate|]. intros E. injection E as <-.
  apply Z.mod_pos_bound. auto.
Qed.
Lemma shardIndex_some conc h : toInt32 h <> (- 2 ^ 31)%Z -> exists z, shardIndex conc h = Some z.
Proof. intros H. unfold shardIndex. destruct (Z.eqb_spec (toInt32 h) (- 2 ^ 31)); [congruence|eauto]. Qed.

Section C.
  Context {D : Type}.
  Variable hash : Z -> Z.
  Variable fuel : nat.
  Variable conc cap : nat.
  Hypothesis Hinj : forall k k', hash k = hash k' -> k = k'.
  Hypothesis Hconc : 0 < conc.
  Hypothesis Hfuel : bound cap <= fuel.

  Definition hk (e : option (Z * D)) := option_map (fun e => (hash (fst e), snd e)) e.

  Record CI (tr : trace D) (c : cache D) (as_ : nat -> ash) : Prop := {
    ci_len : length (shards c) = conc;
    ci_si : forall j s, nth_error (shards c) j = Some s -> SI cap s (as_ j);
    ci_h : forall j i, j < conc -> ah (as_ j) i = held tr (j, i);
    ci_o : forall j i, j < conc -> ao (as_ j) i = hk (occupant tr (j, i));
    ci_u : forall j i, j < conc -> (i < au (as_ j) <-> everLoaded tr (j, i) = true);
    ci_s : forall j, j < conc -> StronglySorted (fun x y => sinceRelease tr (j, x) < sinceRelease tr (j, y)) (ai (as_ j));
    ci_out : forall j i, conc <= j -> held tr (j, i) = 0 /\ occupant tr (j, i) = None;
    ci_sh : forall j i k d, occupant tr (j, i) = Some (k, d) -> shardIndex (Z.of_nat conc) (hash k) = Some (Z.of_nat j);
    ci_hits : hits c = (Z.of_nat (countEv isHit tr) mod 2 ^ 64)%Z;
    ci_miss : misses c = (Z.of_nat (countEv (fun e => isLoad e || isRefused e) tr) mod 2 ^ 64)%Z;
    ci_last : forall s k d, occupant tr s = Some (k, d) -> lastLoad tr k = Some (s, d) }.

  (* what each call does, read off the history *)
  Definition goodEvent (tr : trace D) (o : cop D) (e : event D) : Prop :=
    match o with
    | Release s => e = Rel s
    | Get k ok d => exists j, shardIndex (Z.of_nat conc) (hash k) = Some (Z.of_nat j) /\ j < conc /\
      ((exists i d', i < cap /\ occupant tr (j, i) = Some (k, d') /\ e = Hit k (j, i) d') \/
       (~ cached tr k /\ exists i, i < cap /\ e = Load k (j, i) ok d /\
          ((everLoaded tr (j, i) = false /\ held tr (j, i) = 0 /\ forall i', i' < i -> everLoaded tr (j, i') = true) \/
           ((forall i', i' < cap -> everLoaded tr (j, i') = true) /\ held tr (j, i) = 0 /\
            forall i', i' < cap -> i' <> i -> held tr (j, i') = 0 ->
              sinceRelease tr (j, i') < sinceRelease tr (j, i)))) \/
       (~ cached tr k /\ e = Refused k /\ forall i, i < cap -> 0 < held tr (j, i)))
    end.

  Lemma mod_succ a m : (0 < m)%Z -> ((a mod m + 1) mod m = (a + 1) mod m)%Z.
  Proof. intros H. now rewrite Zplus_mod_idemp_l. Qed.
  Lemma countEv_cons f (e : event D) tr : countEv f (e :: tr) = if f e then S (countEv f tr) else countEv f tr.
  Proof. unfold countEv. cbn. now destruct (f e). Qed.

  Lemma ssort_impl {A} (R R' : A -> A -> Prop) (l : list A) :
    (forall x y, In x l -> In y l -> R x y -> R' x y) -> StronglySorted R l -> StronglySorted R' l.
  Proof.
    intros Hi Hs. induction Hs as [|a l Hs IH Hf]; constructor.
    - apply IH. intros x y Hx Hy. apply Hi; now right.
    - rewrite Forall_forall in *. intros x Hx. apply Hi; [now left|now right|auto].
  Qed.
  Lemma ssort_remove (R : nat -> nat -> Prop) i l : StronglySorted R l -> StronglySorted R (List.remove Nat.eq_dec i l).
  Proof.
    intros Hs. induction Hs as [|a l Hs IH Hf]; cbn [List.remove]; [constructor|].
    destruct (Nat.eq_dec i a); auto. constructor; auto. rewrite Forall_forall in *.
    intros x Hx. apply in_remove in Hx. apply Hf, Hx.
  Qed.
  Lemma ssort_init {A} (R : A -> A -> Prop) l x : StronglySorted R (l ++ [x]) ->
    StronglySorted R l /\ forall y, In y l -> R y x.
  Proof.
    induction l as [|a l IH]; cbn; intros Hs; [split; [constructor|tauto]|].
    inversion Hs; subst. destruct (IH H1) as (I1 & I2). rewrite Forall_forall in H2. split.
    - constructor; auto. apply Forall_forall. intros y Hy. apply H2, in_app_iff. auto.
    - intros y [->|Hy]; auto. apply H2, in_app_iff. right; now left.
  Qed.

  Lemma occ_key tr c as_ j k : CI tr c as_ -> shardIndex (Z.of_nat conc) (hash k) = Some (Z.of_nat j) -> j < conc ->
    (forall i d, ao (as_ j) i <> Some (hash k, d)) -> ~ cached tr k.
  Proof.
    intros HC Hj Hjc Hno ((j', i) & d & Ho). pose proof (ci_sh _ _ _ HC _ _ _ _ Ho) as Hs.
    rewrite Hs in Hj. injection Hj as Hj. assert (j' = j) by lia. subst j'.
    apply (Hno i d). rewrite (ci_o _ _ _ HC) by auto. rewrite Ho. reflexivity.
  Qed.
  Lemma ao_dec a h : { i & {d | (@ao D a) i = Some (h, d) /\ i < au a} } + { forall i d, (forall i e, ao a i = Some e -> i < au a) -> ao a i <> Some (h, d) }.
  Proof.
    assert (forall n, { i & {d | ao a i = Some (h, d) /\ i < n} } + {forall i d, i < n -> ao a i <> Some (h, d)}) as H.
    { induction n as [|n IH]; [right; intros; lia|].
      destruct IH as [(i & d & H1 & H2)|H]; [left; exists i, d; split; auto|].
      destruct (ao a n) as [(h', d)|] eqn:E.
      - destruct (Z.eq_dec h' h) as [->|N]; [left; exists n, d; split; auto|].
        right. intros i d' Hi. destruct (Nat.eq_dec i n) as [->|]; [congruence|apply H; lia].
      - right. intros i d' Hi. destruct (Nat.eq_dec i n) as [->|]; [congruence|apply H; lia]. }
    destruct (H (au a)) as [Hl|Hr]; [left; auto|right].
    intros i d Hb E. eapply Hr; [|exact E]. eapply Hb, E.
  Qed.

  Lemma step_good tr c as_ o : CI tr c as_ -> wellUsed hash tr o ->
    exists e c' as', runCop hash fuel o c = Some (e, c') /\ CI (e :: tr) c' as' /\ goodEvent tr o e.
  Proof.
    intros HC Hw. destruct o as [k ok d|(j, i)]; cbn [runCop wellUsed] in *.
    - destruct Hw as (Hk & Hmax). destruct (shardIndex_some (Z.of_nat conc) (hash k) Hk) as (z & Ez).
      pose proof (shardIndex_range (Z.of_nat conc) _ _ ltac:(lia) Ez) as Hz.
      unfold cacheGet. rewrite (ci_len _ _ _ HC), Ez.
      set (j := Z.to_nat z). assert (z = Z.of_nat j) as Ejz by (unfold j; lia). clearbody j. subst z.
      assert (j < conc) as Hjc by lia.
      destruct (nth_error (shards c) j) as [s|] eqn:Es; [|apply nth_error_None in Es; rewrite (ci_len _ _ _ HC) in Es; lia].
      pose proof (ci_si _ _ _ HC _ _ Es) as HS.
      destruct (ao_dec (as_ j) (hash k)) as [(i & d' & Ho & Hi)|Hno].
      + (* hit *)
        destruct (get_hit cap fuel s (as_ j) i (hash k) d' ok d HS Hfuel Ho) as (s' & E1 & HS').
        { rewrite (ci_h _ _ _ HC) by auto. apply Hmax. }
        rewrite E1. cbn [eventOf]. rewrite (ci_o _ _ _ HC) in Ho by auto.
        destruct (occupant tr (j, i)) as [(k', d1)|] eqn:Eo; [|discriminate]. cbn in Ho. injection Ho as Hh ->.
        apply Hinj in Hh. subst k'.
        eexists _, _, (fupd as_ j (ahit i (as_ j))). split; [reflexivity|]. split.
        * constructor; cbn [shards hits misses].
          { now rewrite length_lupd, (ci_len _ _ _ HC). }
          { intros j' s1. rewrite nth_lupd. unfold fupd. destruct (Nat.eqb_spec j' j) as [->|].
            - rewrite Es. intros E. injection E as <-. exact HS'.
            - apply HC. }
          { intros j' i' Hj'. cbn [held]. unfold fupd. destruct (Nat.eqb_spec j' j) as [->|Nj].
            - cbn [ahit ah]. unfold fupd. destruct (Nat.eqb_spec i' i) as [->|Ni].
              + rewrite slot_eqb_refl. now rewrite (ci_h _ _ _ HC) by auto.
              + rewrite slot_eqb_ne by congruence. now apply HC.
            - rewrite slot_eqb_ne by congruence. now apply HC. }
          { intros j' i' Hj'. cbn [occupant]. unfold fupd. destruct (Nat.eqb_spec j' j) as [->|Nj]; now apply HC. }
          { intros j' i' Hj'. cbn [everLoaded]. unfold fupd. destruct (Nat.eqb_spec j' j) as [->|Nj]; now apply HC. }
          { intros j' Hj'. cbn [sinceRelease].
            assert (StronglySorted (fun x y => S (sinceRelease tr (j', x)) < S (sinceRelease tr (j', y))) (ai (as_ j'))) as Hs.
            { eapply ssort_impl; [|apply (ci_s _ _ _ HC _ Hj')]. cbn. intros; lia. }
            unfold fupd. destruct (Nat.eqb_spec j' j) as [->|Nj]; auto. cbn [ahit ai]. now apply ssort_remove. }
          { intros j' i' Hj'. cbn [held occupant]. rewrite slot_eqb_ne by (intros E; injection E; lia). now apply HC. }
          { intros j' i' k' d''. cbn [occupant]. apply HC. }
          { rewrite (ci_hits _ _ _ HC), countEv_cons. cbn [isHit]. rewrite mod_succ by lia. f_equal. lia. }
          { rewrite (ci_miss _ _ _ HC), countEv_cons. reflexivity. }
          { intros s0 k0 d0. cbn [occupant lastLoad]. apply HC. }
        * exists j. split; auto. split; auto. left. exists i, d'. split; [|auto].
          pose proof (si_le _ _ _ HS). lia.
      + (* miss *)
        assert (forall i d, ao (as_ j) i <> Some (hash k, d)) as Hno' by (intros; apply Hno; apply HS).
        clear Hno. pose proof (occ_key _ _ _ _ _ HC Ez Hjc Hno') as Hnc.
        assert (forall i L u, i < cap -> i < u -> (forall i', i' <> i -> (i' < u <-> everLoaded tr (j, i') = true)) ->
          held tr (j, i) = 0 -> StronglySorted (fun x y => sinceRelease tr (j, x) < sinceRelease tr (j, y)) L ->
          forall s', SI cap s' (aload i (if ok then Some (hash k, d) else None) L u (as_ j)) ->
          CI (Load k (j, i) ok d :: tr)
             (mkcache (lupd (shards c) j s') (hits c) ((misses c + 1) mod 2 ^ 64)%Z)
             (fupd as_ j (aload i (if ok then Some (hash k, d) else None) L u (as_ j)))) as Hload.
        { intros i L u Hi Hiu Hu Hh HsL s' HS'. constructor; cbn [shards hits misses].
          { now rewrite length_lupd, (ci_len _ _ _ HC). }
          { intros j' s1. rewrite nth_lupd. unfold fupd. destruct (Nat.eqb_spec j' j) as [->|].
            - rewrite Es. intros E. injection E as <-. exact HS'.
            - apply HC. }
          { intros j' i' Hj'. cbn [held]. unfold fupd. destruct (Nat.eqb_spec j' j) as [->|Nj].
            - cbn [aload ah]. unfold fupd. destruct (Nat.eqb_spec i' i) as [->|Ni].
              + rewrite slot_eqb_refl. now rewrite Hh.
              + rewrite slot_eqb_ne by congruence. now apply HC.
            - rewrite slot_eqb_ne by congruence. now apply HC. }
          { intros j' i' Hj'. cbn [occupant]. unfold fupd. destruct (Nat.eqb_spec j' j) as [->|Nj].
            - cbn [aload ao]. unfold fupd. destruct (Nat.eqb_spec i' i) as [->|Ni].
              + rewrite slot_eqb_refl. now destruct ok.
              + rewrite slot_eqb_ne by congruence. now apply HC.
            - rewrite slot_eqb_ne by congruence. now apply HC. }
          { intros j' i' Hj'. cbn [everLoaded]. unfold fupd. destruct (Nat.eqb_spec j' j) as [->|Nj].
            - cbn [aload au]. destruct (slot_eqb_spec (j, i') (j, i)) as [E|E].
              + injection E as ->. cbn. intuition.
              + cbn. apply Hu. congruence.
            - rewrite slot_eqb_ne by congruence. now apply HC. }
          { intros j' Hj'. cbn [sinceRelease].
            unfold fupd. destruct (Nat.eqb_spec j' j) as [->|Nj].
            - cbn [aload ai]. eapply ssort_impl; [|exact HsL]. cbn. intros; lia.
            - eapply ssort_impl; [|apply (ci_s _ _ _ HC _ Hj')]. cbn. intros; lia. }
          { intros j' i' Hj'. cbn [held occupant]. rewrite slot_eqb_ne by (intros E; injection E; lia). now apply HC. }
          { intros j' i' k' d''. cbn [occupant]. destruct (slot_eqb_spec (j', i') (j, i)) as [E|E]; [|apply HC].
            injection E as -> ->. destruct ok; [|discriminate]. intros E. injection E as <- <-. exact Ez. }
          { rewrite (ci_hits _ _ _ HC), countEv_cons. reflexivity. }
          { rewrite (ci_miss _ _ _ HC), countEv_cons. cbn [isLoad isRefused orb]. rewrite mod_succ by lia. f_equal. lia. }
          { intros s0 k0 d0. cbn [occupant lastLoad]. destruct (slot_eqb_spec s0 (j, i)) as [->|E].
            - destruct ok; [|discriminate]. intros E. injection E as <- <-. now rewrite Z.eqb_refl.
            - intros Ho. destruct ok; [|now apply HC]. destruct (Z.eqb_spec k0 k) as [->|]; [|now apply HC].
              exfalso. apply Hnc. red. eauto. } }
        destruct (Nat.lt_ge_cases (au (as_ j)) cap) as [Hlt|Hge].
        * destruct (get_new cap fuel s (as_ j) (hash k) ok d HS Hfuel Hno' Hlt) as (s' & E1 & HS').
          rewrite E1. exists (Load k (j, au (as_ j)) ok d).
          eexists _, (fupd as_ j _). split; [destruct ok; reflexivity|].
          assert (held tr (j, au (as_ j)) = 0) as Hh0 by (rewrite <- (ci_h _ _ _ HC) by auto; now apply HS).
          split.
          { assert ((if match outOf ok (au (as_ j)) d with OHit _ _ => true | _ => false end then (hits c + 1) mod 2 ^ 64 else hits c)%Z = hits c) as -> by (now destruct ok).
            assert ((if match outOf ok (au (as_ j)) d with OHit _ _ => true | _ => false end then misses c else (misses c + 1) mod 2 ^ 64)%Z = ((misses c + 1) mod 2 ^ 64)%Z) as -> by (now destruct ok).
            eapply (Hload (au (as_ j)) (ai (as_ j)) (S (au (as_ j)))); [auto|auto| |auto|now apply HC|exact HS'].
            intros i' Ni. rewrite <- (ci_u _ _ _ HC) by auto. lia. }
          { exists j. split; auto. split; auto. right. left. split; auto. exists (au (as_ j)).
            split; auto. split; auto. left. split; [|split; auto].
            - destruct (everLoaded tr (j, au (as_ j))) eqn:E; auto. apply (ci_u _ _ _ HC) in E; auto. lia.
            - intros i' Hi'. apply (ci_u _ _ _ HC); auto. }
        * assert (au (as_ j) = cap) as Hau by (pose proof (si_le _ _ _ HS); lia).
          destruct (list_last_case (ai (as_ j))) as [HL|(L & i & HL)].
          { rewrite (get_null cap fuel s (as_ j) (hash k) ok d HS Hfuel Hno' Hau HL). cbn [eventOf].
            eexists _, _, as_. split; [reflexivity|]. split.
            - assert (forall j', nth_error (lupd (shards c) j s) j' = nth_error (shards c) j') as Hl.
              { intros j'. rewrite nth_lupd. destruct (Nat.eqb_spec j' j) as [->|]; auto. now rewrite Es. }
              constructor; cbn [shards hits misses]; try (intros; cbn [held occupant everLoaded] in *; now eapply HC).
              + now rewrite length_lupd, (ci_len _ _ _ HC).
              + intros j' s1. rewrite Hl. apply HC.
              + intros j' Hj'. cbn [sinceRelease]. eapply ssort_impl; [|apply (ci_s _ _ _ HC _ Hj')]. cbn. intros; lia.
              + intros j' i' k' d'. cbn [occupant]. apply HC.
              + rewrite (ci_miss _ _ _ HC), countEv_cons. cbn [isLoad isRefused orb]. rewrite mod_succ by lia. f_equal. lia.
            - exists j. split; auto. split; auto. right. right. split; auto. split; auto.
              intros i Hi. rewrite <- (ci_h _ _ _ HC) by auto.
              destruct (ah (as_ j) i) eqn:E; [|lia].
              assert (In i (ai (as_ j))) as Hin by (apply (si_idle _ _ _ HS); split; [lia|auto]).
              rewrite HL in Hin. destruct Hin. }
          { destruct (get_evict cap fuel s (as_ j) (hash k) ok d L i HS Hfuel Hno' Hau HL) as (s' & E1 & HS').
            rewrite E1. exists (Load k (j, i) ok d).
            eexists _, (fupd as_ j _). split; [destruct ok; reflexivity|].
            assert (In i (ai (as_ j))) as Hin by (rewrite HL; apply in_app_iff; right; now left).
            apply (si_idle _ _ _ HS) in Hin. destruct Hin as (Hi & Hi0).
            rewrite (ci_h _ _ _ HC) in Hi0 by auto.
            pose proof (ci_s _ _ _ HC j Hjc) as Hs. rewrite HL in Hs. apply ssort_init in Hs. destruct Hs as (Hs1 & Hs2).
            split.
            - assert ((if match outOf ok i d with OHit _ _ => true | _ => false end then (hits c + 1) mod 2 ^ 64 else hits c)%Z = hits c) as -> by (now destruct ok).
              assert ((if match outOf ok i d with OHit _ _ => true | _ => false end then misses c else (misses c + 1) mod 2 ^ 64)%Z = ((misses c + 1) mod 2 ^ 64)%Z) as -> by (now destruct ok).
              eapply (Hload i L cap); [lia|lia| |auto|auto|exact HS'].
              intros i' Ni. rewrite <- (ci_u _ _ _ HC) by auto. lia.
            - exists j. split; auto. split; auto. right. left. split; auto. exists i.
              split; [lia|]. split; auto. right. split; [|split; auto].
              + intros i' Hi'. apply (ci_u _ _ _ HC); auto. lia.
              + intros i' Hi' Ni Hh. apply Hs2. rewrite <- (ci_h _ _ _ HC) in Hh by auto.
                assert (In i' (ai (as_ j))) as Hin by (apply (si_idle _ _ _ HS); split; [lia|auto]).
                rewrite HL, in_app_iff in Hin. cbn in Hin. destruct Hin as [|[|[]]]; [auto|congruence]. }
    - (* release *)
      assert (j < conc) as Hjc.
      { destruct (Nat.lt_ge_cases j conc) as [|Hc]; auto. apply (ci_out _ _ _ HC j i) in Hc. lia. }
      unfold cacheRelease.
      destruct (nth_error (shards c) j) as [s|] eqn:Es; [|apply nth_error_None in Es; rewrite (ci_len _ _ _ HC) in Es; lia].
      pose proof (ci_si _ _ _ HC _ _ Es) as HS.
      destruct (release_ok cap s (as_ j) i HS) as (s' & E1 & HS'); [now rewrite (ci_h _ _ _ HC)|].
      rewrite E1. eexists _, _, (fupd as_ j (arel i (as_ j))). split; [reflexivity|]. split; [|reflexivity].
      constructor; cbn [shards hits misses].
      { now rewrite length_lupd, (ci_len _ _ _ HC). }
      { intros j' s1. rewrite nth_lupd. unfold fupd. destruct (Nat.eqb_spec j' j) as [->|].
        - rewrite Es. intros E. injection E as <-. exact HS'.
        - apply HC. }
      { intros j' i' Hj'. cbn [held]. unfold fupd. destruct (Nat.eqb_spec j' j) as [->|Nj].
        - cbn [arel ah]. unfold fupd. destruct (Nat.eqb_spec i' i) as [->|Ni].
          + rewrite slot_eqb_refl. now rewrite (ci_h _ _ _ HC) by auto.
          + rewrite slot_eqb_ne by congruence. now apply HC.
        - rewrite slot_eqb_ne by congruence. now apply HC. }
      { intros j' i' Hj'. cbn [occupant]. unfold fupd. destruct (Nat.eqb_spec j' j) as [->|Nj]; now apply HC. }
      { intros j' i' Hj'. cbn [everLoaded]. unfold fupd. destruct (Nat.eqb_spec j' j) as [->|Nj]; now apply HC. }
      { intros j' Hj'. cbn [sinceRelease]. pose proof (ci_s _ _ _ HC j' Hj') as Hs. unfold fupd.
        destruct (Nat.eqb_spec j' j) as [->|Nj].
        - assert (forall L, ~ In i L -> StronglySorted (fun x y => sinceRelease tr (j, x) < sinceRelease tr (j, y)) L ->
            StronglySorted (fun x y => (if slot_eqb (j, x) (j, i) then 0 else S (sinceRelease tr (j, x))) <
             (if slot_eqb (j, y) (j, i) then 0 else S (sinceRelease tr (j, y)))) L) as Hf.
          { intros L HnL. apply ssort_impl. cbn. intros x y Hx Hy Hxy.
            rewrite !slot_eqb_ne; [lia| |]; intros E; injection E as E; subst; auto. }
          assert (~ In i (ai (as_ j))) as Hni by (rewrite (si_idle _ _ _ HS), (ci_h _ _ _ HC) by auto; lia).
          cbn [arel ai]. destruct (Nat.eqb (ah (as_ j) i) 1); [|now apply Hf].
          constructor; [now apply Hf|]. apply Forall_forall. intros x Hx. rewrite slot_eqb_refl.
          rewrite slot_eqb_ne; [lia|]. intros E; injection E as E; subst; auto.
        - eapply ssort_impl; [|exact Hs]. cbn. intros x y _ _ Hxy.
          rewrite !slot_eqb_ne; [lia| |]; congruence. }
      { intros j' i' Hj'. cbn [held occupant]. rewrite slot_eqb_ne by (intros E; injection E; lia). now apply HC. }
      { intros j' i' k' d''. cbn [occupant]. apply HC. }
      { rewrite (ci_hits _ _ _ HC), countEv_cons. reflexivity. }
      { rewrite (ci_miss _ _ _ HC), countEv_cons. reflexivity. }
      { intros s0 k0 d0. cbn [occupant lastLoad]. apply HC. }
  Qed.

  Lemma initShards_ok h (d0 : D) : shardMemory cap h -> forall n, exists l,
    initShards h n cap d0 = Some l /\ length l = n /\ forall s, In s l -> SI cap s ainit.
  Proof using.
    intros Hm. destruct (shard_init h cap d0 Hm) as (s & E & HS).
    induction n as [|n (l & IH1 & IH2 & IH3)]; cbn [initShards].
    - exists []. cbn. split; auto. split; auto. tauto.
    - rewrite E, IH1. exists (s :: l). cbn. split; auto. split; auto. intros s' [<-|Hs]; auto.
  Qed.

  Lemma init_CI (h : heap) (d0 : D) l : shardMemory cap h -> initShards h conc cap d0 = Some l ->
    CI [] (mkcache l 0 0) (fun _ => ainit).
  Proof using.
    clear Hinj Hfuel Hconc. intros Hm E. destruct (initShards_ok h d0 Hm conc) as (l' & E1 & E2 & E3).
    assert (l' = l) by congruence. subst l'.
    constructor; cbn; auto; try discriminate.
    - intros j s Hs. apply E3. eapply nth_error_In, Hs.
    - intros. split; [lia|discriminate].
    - intros. constructor.
  Qed.

  (* everything reached from a cache in its initial state *)
  Lemma exec_CI c0 : CI [] c0 (fun _ => ainit) -> forall tr c, exec hash fuel c0 tr c ->
    exists as_, CI tr c as_.
  Proof.
    intros H0 tr c He. induction He as [|tr c o e c' He IH Hw Hr]; [eauto|].
    destruct IH as (as_ & HC). destruct (step_good _ _ _ _ HC Hw) as (e1 & c1 & as' & E1 & HC' & _).
    assert (e1 = e /\ c1 = c') as (-> & ->) by (split; congruence). eauto.
  Qed.
  Lemma exec_good c0 : CI [] c0 (fun _ => ainit) -> forall tr c o, exec hash fuel c0 tr c -> wellUsed hash tr o ->
    exists e c', runCop hash fuel o c = Some (e, c') /\ goodEvent tr o e.
  Proof.
    intros H0 tr c o He Hw. destruct (exec_CI c0 H0 _ _ He) as (as_ & HC).
    destruct (step_good _ _ _ _ HC Hw) as (e1 & c1 & as' & E1 & _ & G). eauto.
  Qed.
  Lemma exec_event c0 : CI [] c0 (fun _ => ainit) -> forall e tr c, exec hash fuel c0 (e :: tr) c ->
    exists o, goodEvent tr o e /\ wellUsed hash tr o.
  Proof.
    intros H0 e tr c He. inversion He as [|tr' c' o e' c'' He' Hw Hr]; subst.
    destruct (exec_good c0 H0 _ _ _ He' Hw) as (e1 & c1 & E1 & G).
    assert (e1 = e) by congruence. subst. eauto.
  Qed.
End C.
