(* C05 - C11: the cache (cache.c).  Histories are those of CacheSpec.exec:
   every sequence of well used gets and releases on a created cache. *)
From Coq Require Import List Arith ZArith Lia Bool.
Import ListNotations.
From Verif Require Import TreeModel TreeSpec CacheModel CacheShard CacheSpec CacheRun CacheProps.

(* ---- a concrete history: 2 shards of 2 slots; keys 0, 2 and 4 belong to
   shard 0, key 1 to shard 1 *)
Definition exHeap : heap := fun _ => Some (mk 0 0 0 true 7).
Definition exOps : list (cop Z) :=
  [Get 0 true 100; Get 2 true 102; Get 0 true 999; Get 4 true 104; Get 1 false 55;
   Release (0, 1)%nat; Get 4 true 104; Release (0, 0)%nat; Release (0, 0)%nat; Get 2 true 102]%Z.
Definition exTrace : trace Z :=
  [Load 2 (0, 0)%nat true 102; Rel (0, 0)%nat; Rel (0, 0)%nat; Load 4 (0, 1)%nat true 104; Rel (0, 1)%nat;
   Load 1 (1, 0)%nat false 55; Refused 4; Hit 0 (0, 0)%nat 100; Load 2 (0, 1)%nat true 102; Load 0 (0, 0)%nat true 100]%Z.
Example cache_example : exists c0 c : cache Z,
  setup 4 2 2 (fun k => k) 10 c0 /\ exec (fun k => k) 10 c0 exTrace c.
Proof.
  destruct (cacheCreate exHeap 4 2 0%Z) as [[c0|]|] eqn:Ec; [|vm_compute in Ec; discriminate..].
  exists c0.
  destruct (runList (fun k => k) 10 exOps [] c0) as [(tr, c)|] eqn:Er.
  - exists c. split.
    + split; [lia|]. split; [lia|]. split; [auto|]. split; [reflexivity|].
      split; [|vm_compute; lia].
      exists exHeap, 0%Z. split; [|exact Ec]. intros p _. discriminate.
    + assert (tr = exTrace) as <-.
      { vm_compute in Ec. injection Ec as <-. vm_compute in Er. injection Er as <- _. reflexivity. }
      eapply runList_exec; [constructor|exact Er].
  - exfalso. vm_compute in Ec. injection Ec as <-. vm_compute in Er. discriminate.
Qed.

(* C05.  A get always completes.  The entry it returns holds what the loader
   produced for this key: now, or at the last time the key was loaded.  So if
   the loader always gives [loader k] for key k, every successful get of k
   returns [loader k]. *)
Theorem cache_get_returns_loaded_data :
  forall (D : Type) capacity conc slots hash fuel (c0 : cache D) tr c k ok d,
  setup capacity conc slots hash fuel c0 -> exec hash fuel c0 tr c ->
  wellUsed hash tr (Get k ok d) ->
  exists e c', runCop hash fuel (Get k ok d) c = Some (e, c') /\
  ((exists s, e = Load k s ok d) \/
   (exists s d', e = Hit k s d' /\ lastLoad tr k = Some (s, d') /\ occupant tr s = Some (k, d') /\
      forall loader : Z -> D,
        (forall k1 s1 d1, In (Load k1 s1 true d1) tr -> d1 = loader k1) -> d' = loader k) \/
   e = Refused k).
Proof.
  intros D capacity conc slots hash fuel c0 tr c k ok d HS He Hw.
  destruct (next _ _ _ _ _ _ HS _ _ _ He Hw) as (e & c' & Er & G). exists e, c'. split; auto.
  destruct G as (j & _ & _ & [(i & d' & _ & G1 & G2)|[(_ & i & _ & G & _)|(_ & G & _)]]); [|eauto|auto].
  right. left. destruct (reach _ _ _ _ _ _ HS _ _ He) as (as_ & HC).
  pose proof (ci_last _ _ _ _ _ _ HC _ _ _ G1) as HL. exists (j, i), d'. repeat split; auto.
  intros loader Hl. eapply Hl, lastLoad_in, HL.
Qed.
Print Assumptions cache_get_returns_loaded_data.

(* C06.  From a get that returned slot s for key k, for as long as the slot
   stays held, no load goes into the slot, every get of k returns the same
   slot and data (never a load, never a refusal), and the slot still stores
   k's data. *)
Theorem cache_entry_in_use_is_stable :
  forall (D : Type) capacity conc slots hash fuel (c0 : cache D) tr1 tr0 e k s d c,
  setup capacity conc slots hash fuel c0 ->
  e = Hit k s d \/ e = Load k s true d ->
  exec hash fuel c0 (tr1 ++ e :: tr0) c ->
  (forall tr2 tr3, tr1 = tr2 ++ tr3 -> 0 < held (tr3 ++ e :: tr0) s) ->
  occupant (tr1 ++ e :: tr0) s = Some (k, d) /\
  (forall k' ok d', ~ In (Load k' s ok d') tr1) /\
  (forall s' d', In (Hit k s' d') tr1 -> s' = s /\ d' = d) /\
  (forall s' ok d', ~ In (Load k s' ok d') tr1) /\ ~ In (Refused k) tr1.
Proof. intros. eapply in_use; eauto. Qed.
Print Assumptions cache_entry_in_use_is_stable.

(* C06, the data stored: while held, the node's own memory is unchanged by any
   call, so the pointer the caller was given keeps showing the same data. *)
Theorem cache_entry_data_unchanged_while_stored :
  forall (D : Type) capacity conc slots hash fuel (c0 : cache D) tr c j i k d,
  setup capacity conc slots hash fuel c0 -> exec hash fuel c0 tr c ->
  occupant tr (j, i) = Some (k, d) ->
  exists s, nth_error (shards c) j = Some s /\ data s i = d.
Proof.
  intros D capacity conc slots hash fuel c0 tr c j i k d HS He Ho.
  destruct (reach _ _ _ _ _ _ HS _ _ He) as (as_ & HC).
  destruct (Nat.lt_ge_cases j (Z.to_nat conc)) as [Hj|Hj].
  - destruct (nth_error (shards c) j) as [s|] eqn:Es.
    + exists s. split; auto. eapply (si_data _ _ _ (ci_si _ _ _ _ _ _ HC _ _ Es) i (hash k)).
      rewrite (ci_o _ _ _ _ _ _ HC) by auto. now rewrite Ho.
    + apply nth_error_None in Es. rewrite (ci_len _ _ _ _ _ _ HC) in Es. lia.
  - apply (ci_out _ _ _ _ _ _ HC j i) in Hj. destruct Hj. congruence.
Qed.
Print Assumptions cache_entry_data_unchanged_while_stored.

(* C07.  A load goes into a slot of the key's shard: the first never used
   slot if there is one, otherwise the idle slot released longest ago.  Every
   other stored key stays stored: the next get of it is a hit. *)
Theorem cache_evicts_least_recently_used :
  forall (D : Type) capacity conc slots hash fuel (c0 : cache D) tr c k j i ok d,
  setup capacity conc slots hash fuel c0 ->
  exec hash fuel c0 (Load k (j, i) ok d :: tr) c ->
  keyShard conc hash k j /\ i < slots /\ held tr (j, i) = 0 /\
  ((everLoaded tr (j, i) = false /\ (forall i', i' < i -> everLoaded tr (j, i') = true)) \/
   ((forall i', i' < slots -> everLoaded tr (j, i') = true) /\
    (forall i', i' < slots -> i' <> i -> held tr (j, i') = 0 ->
       sinceRelease tr (j, i') < sinceRelease tr (j, i)))) /\
  (forall k' s' d' ok1 d1,
     occupant tr s' = Some (k', d') -> s' <> (j, i) ->
     wellUsed hash (Load k (j, i) ok d :: tr) (Get k' ok1 d1) ->
     exists c', runCop hash fuel (Get k' ok1 d1) c = Some (Hit k' s' d', c')).
Proof.
  intros D capacity conc slots hash fuel c0 tr c k j i ok d HS He.
  destruct (event_ok _ _ _ _ _ _ HS _ _ _ He) as (o & c1 & He1 & G & Hw).
  destruct o as [k1 ok1 d1|s1]; cbn [goodEvent] in G; [|discriminate].
  destruct G as (j1 & Hj & Hj1 & [(i1 & d' & _ & _ & G)|[(Gn & i1 & Hi1 & G & G')|(_ & G & _)]]); try discriminate.
  injection G as -> -> -> -> ->. rewrite (conc_nat _ _ _ _ _ _ HS) in Hj.
  split; [exact Hj|]. split; [auto|]. split; [tauto|]. split; [tauto|].
  intros k' s' d' ok2 d2 Ho Ns Hw2.
  destruct (next _ _ _ _ _ _ HS _ _ _ He Hw2) as (e & c' & Er & G).
  assert (occupant (Load k1 (j1, i1) ok1 d1 :: tr) s' = Some (k', d')) as Ho'.
  { cbn [occupant]. now rewrite slot_eqb_ne. }
  destruct G as (j2 & _ & _ & [(i2 & d'' & _ & G1 & ->)|[(Gc & _)|(Gc & _)]]).
  - destruct (occ_inj_tr _ _ _ _ _ _ HS _ _ _ _ _ _ _ He G1 Ho') as (<- & <-). eauto.
  - exfalso. apply Gc. red. eauto.
  - exfalso. apply Gc. red. eauto.
Qed.
Print Assumptions cache_evicts_least_recently_used.

(* C08.  A get is refused (NULL without calling the loader) exactly when the
   key is not stored and every slot of its shard is held; a get of a stored
   key is always a hit. *)
Theorem cache_refuses_iff_shard_fully_held :
  forall (D : Type) capacity conc slots hash fuel (c0 : cache D) tr c k ok d,
  setup capacity conc slots hash fuel c0 -> exec hash fuel c0 tr c ->
  wellUsed hash tr (Get k ok d) ->
  exists e c' j, runCop hash fuel (Get k ok d) c = Some (e, c') /\ keyShard conc hash k j /\
  (e = Refused k <-> ~ cached tr k /\ forall i, i < slots -> 0 < held tr (j, i)) /\
  ((exists s d', e = Hit k s d') <-> cached tr k).
Proof.
  intros D capacity conc slots hash fuel c0 tr c k ok d HS He Hw.
  destruct (next _ _ _ _ _ _ HS _ _ _ He Hw) as (e & c' & Er & G). exists e, c'.
  destruct G as (j & Hj & _ & G). exists j. rewrite (conc_nat _ _ _ _ _ _ HS) in Hj.
  split; auto. split; [exact Hj|].
  destruct G as [(i & d' & _ & G1 & ->)|[(Gn & i & Hi & -> & G)|(Gn & -> & G)]].
  - split; split; [discriminate|intros (Hc & _); exfalso; apply Hc; red; eauto| |].
    + intros _. red. eauto.
    + eauto.
  - split; split; [discriminate| | |tauto].
    + intros (_ & Hh). specialize (Hh i Hi). exfalso. destruct G as [(_ & G & _)|(_ & G & _)]; lia.
    + intros (s & d' & E). discriminate.
  - split; split; auto; [|tauto]. intros (s & d' & E). discriminate.
Qed.
Print Assumptions cache_refuses_iff_shard_fully_held.

(* C09.  Creation is refused exactly for concurrency 0 or capacity below
   concurrency squared.  When the total number of slots fits the int32_t it is
   stored in, a created cache has at least [conc] slots per shard, at least
   [capacity] slots in total, and refuses no get while fewer than [conc]
   entries are held. *)
Theorem cache_serves_configured_concurrency :
  forall (D : Type) capacity conc (h : heap) (d0 : D),
  (0 <= capacity < 2 ^ 32)%Z -> (0 <= conc < 2 ^ 16)%Z ->
  (cacheCreate h capacity conc d0 = Some None <-> (conc = 0 \/ capacity < conc * conc)%Z) /\
  (((capacity mod conc + capacity / conc) * conc < 2 ^ 31)%Z ->
   (conc <> 0 /\ conc * conc <= capacity)%Z ->
   exists slots, (conc <= Z.of_nat slots)%Z /\ (capacity <= Z.of_nat slots * conc)%Z /\
   (shardMemory slots h -> exists c0, cacheCreate h capacity conc d0 = Some (Some c0) /\
    length (shards c0) = Z.to_nat conc /\ (forall s, In s (shards c0) -> CacheModel.capacity s = slots) /\
    forall hash fuel, (forall k k', hash k = hash k' -> k = k') -> bound slots <= fuel ->
    setup capacity conc slots hash fuel c0 /\
    forall tr c k ok d, exec hash fuel c0 tr c -> wellUsed hash tr (Get k ok d) ->
      (Z.of_nat (holds tr) < conc)%Z ->
      exists e c', runCop hash fuel (Get k ok d) c = Some (e, c') /\ e <> Refused k)).
Proof.
  intros D capacity conc h d0 Hcap Hconc.
  assert (conc <> 0 -> (capacity / conc < conc <-> capacity < conc * conc))%Z as Hq.
  { intros Hn. split; intros H.
    - apply Z.nle_gt. intros Hc. apply (Z.div_le_mono _ _ conc) in Hc; [|lia]. rewrite Z.div_mul in Hc by lia. lia.
    - apply Z.div_lt_upper_bound; lia. }
  split.
  - unfold cacheCreate, createShardCapacity.
    destruct (Z.eqb_spec conc 0) as [->|Hn]; cbn [orb].
    { split; auto. }
    destruct (Z.ltb_spec (capacity / conc) conc) as [Hl|Hl].
    { split; auto. intros _. right. apply Hq; auto. }
    split; [|intros [E|E]; [lia|apply Hq in E; lia]].
    destruct (Z.ltb _ _); [discriminate|]. destruct (initShards _ _ _ _); discriminate.
  - intros Hs (Hn & Hsq).
    assert (conc <= capacity / conc)%Z as Hd.
    { destruct (Z.lt_ge_cases (capacity / conc) conc) as [Hl|]; [|lia]. apply Hq in Hl; lia. }
    pose proof (shardCapacity_val capacity conc Hcap ltac:(lia)) as HV. cbv zeta in HV. destruct HV as (V1 & V2 & V3).
    destruct (create_ok capacity conc Hcap ltac:(lia) Hd Hs) as (K1 & K2).
    pose proof (Z.mod_pos_bound capacity conc ltac:(lia)) as Hm.
    set (n := (capacity mod conc + capacity / conc)%Z) in *.
    exists (Z.to_nat n). rewrite Z2Nat.id by lia. split; [lia|]. split; [lia|].
    intros Hmem.
    destruct (initShards_ok (Z.to_nat n) h d0 Hmem (Z.to_nat conc)) as (l & L1 & L2 & L3).
    assert (cacheCreate h capacity conc d0 = Some (Some (mkcache l 0 0))) as Hcr.
    { unfold cacheCreate. rewrite K1, K2. destruct (Z.ltb_spec (n * conc) (n * conc)); [lia|]. now rewrite L1. }
    eexists. split; [exact Hcr|]. cbn [shards]. split; [auto|]. split.
    { intros s Hin. apply L3 in Hin. apply Hin. }
    intros hash fuel Hinj Hf.
    assert (setup capacity conc (Z.to_nat n) hash fuel (mkcache l 0 0)) as HS.
    { unfold setup. rewrite Z2Nat.id by lia.
      do 4 (split; [auto; lia|]). split; [|exact Hf]. exists h, d0. auto. }
    split; [exact HS|].
    intros tr c k ok d He Hw Hh.
    destruct (next _ _ _ _ _ _ HS _ _ _ He Hw) as (e & c' & Er & G). exists e, c'. split; auto.
    destruct G as (j & Hj & _ & [(i & d' & _ & G1 & ->)|[(Gn & i & Hi & -> & G)|(Gn & -> & G)]]); try discriminate.
    exfalso.
    assert (NoDup (map (fun i => (j, i)) (seq 0 (Z.to_nat n)))) as Hnd.
    { apply FinFun.Injective_map_NoDup; [|apply seq_NoDup]. intros x y E. congruence. }
    pose proof (holds_sum _ _ _ _ _ _ HS _ _ He _ Hnd) as Hle.
    assert (Z.to_nat n <= sumHeld tr (map (fun i => (j, i)) (seq 0 (Z.to_nat n)))).
    { unfold sumHeld. rewrite <- (seq_length (Z.to_nat n) 0) at 1. rewrite <- (map_length (fun i => (j, i))).
      apply sum_pos. intros x Hx. apply in_map_iff in Hx. destruct Hx as (i & <- & Hx). apply in_seq in Hx.
      apply G. lia. }
    lia.
Qed.
Print Assumptions cache_serves_configured_concurrency.
Example cache_serves_example : (0 <= 100 < 2 ^ 32)%Z /\ (0 <= 7 < 2 ^ 16)%Z /\
  ((100 mod 7 + 100 / 7) * 7 < 2 ^ 31)%Z /\ (7 <> 0 /\ 7 * 7 <= 100)%Z.
Proof. cbn. lia. Qed.

(* C09 fails without the int32_t condition: with capacity 2^32-1 and
   concurrency 4 each shard gets 2 slots (8 in total); with capacity 2^31 and
   concurrency 2 the shards' nodes lie outside the allocation. *)
Theorem cache_large_capacity_refuted :
  (exists slots, createShardCapacity (2 ^ 32 - 1) 4 = Some slots /\ slots < 4 /\ slots * 4 < 2 ^ 32 - 1)%Z /\
  (forall D h (d0 : D), cacheCreate h (2 ^ 31) 2 d0 = None).
Proof.
  split.
  - exists 2%Z. split; [vm_compute; reflexivity|lia].
  - intros D h d0. reflexivity.
Qed.
Print Assumptions cache_large_capacity_refuted.

(* C10.  Shard selection stays inside the shard array for every 64 bit hash
   whose low 32 bits are not those of INT_MIN, and depends on the hash only. *)
Theorem cache_shard_in_range :
  forall conc hash, (0 < conc < 2 ^ 16)%Z -> (- 2 ^ 63 <= hash < 2 ^ 63)%Z ->
  (hash mod 2 ^ 32 <> 2 ^ 31)%Z ->
  exists j, shardIndex conc hash = Some j /\ (0 <= j < conc)%Z /\
    shardIndexWrapping conc hash = j.
Proof.
  intros conc hash Hc Hh Hn.
  pose proof (Z.mod_pos_bound hash (2 ^ 32) ltac:(lia)) as Hm.
  assert (- 2 ^ 31 < toInt32 hash < 2 ^ 31)%Z as Hr.
  { unfold toInt32. destruct (Z.ltb_spec (hash mod 2 ^ 32) (2 ^ 31)); lia. }
  unfold shardIndex, shardIndexWrapping. destruct (Z.eqb_spec (toInt32 hash) (- 2 ^ 31)); [lia|].
  eexists. split; [reflexivity|]. split; [apply Z.mod_pos_bound; lia|].
  assert (toInt32 (Z.abs (toInt32 hash)) = Z.abs (toInt32 hash)) as ->.
  { unfold toInt32 at 1. rewrite Z.mod_small by lia. destruct (Z.ltb_spec (Z.abs (toInt32 hash)) (2 ^ 31)); lia. }
  apply Z.rem_mod_nonneg; lia.
Qed.
Print Assumptions cache_shard_in_range.
Example cache_shard_example : (0 < 5 < 2 ^ 16)%Z /\ (- 2 ^ 63 <= -7 < 2 ^ 63)%Z /\
  (-7 mod 2 ^ 32 <> 2 ^ 31)%Z /\ shardIndex 5 (-7) = Some 2%Z.
Proof. repeat split; try lia; vm_compute; congruence. Qed.

(* C10 fails for the remaining hashes: abs(INT_MIN) is undefined, and where it
   wraps the index is negative. *)
Theorem cache_shard_int_min_refuted :
  exists conc key, (0 < conc < 2 ^ 16)%Z /\ (- 2 ^ 31 <= key < 2 ^ 31)%Z /\
  shardIndex conc (cacheHash32 key) = None /\
  (shardIndexWrapping conc (cacheHash32 key) < 0)%Z.
Proof. exists 3%Z, (- 2 ^ 31)%Z. vm_compute. repeat split; congruence. Qed.
Print Assumptions cache_shard_int_min_refuted.

(* C11.  When the counters are updated one call at a time: hits counts the
   gets served without the loader, misses counts every other get (loads and
   refusals), modulo 2^64, and the two cover all gets. *)
Theorem cache_statistics_partial :
  forall (D : Type) capacity conc slots hash fuel (c0 : cache D) tr c,
  setup capacity conc slots hash fuel c0 -> exec hash fuel c0 tr c ->
  hits c = (Z.of_nat (countEv isHit tr) mod 2 ^ 64)%Z /\
  misses c = (Z.of_nat (countEv isLoad tr + countEv isRefused tr) mod 2 ^ 64)%Z /\
  countEv isHit tr + (countEv isLoad tr + countEv isRefused tr) = countEv isGet tr.
Proof.
  intros D capacity conc slots hash fuel c0 tr c HS He.
  destruct (reach _ _ _ _ _ _ HS _ _ He) as (as_ & HC).
  assert (forall l : trace D, countEv (fun e => isLoad e || isRefused e) l = countEv isLoad l + countEv isRefused l /\
    countEv isHit l + (countEv isLoad l + countEv isRefused l) = countEv isGet l) as H.
  { unfold countEv. induction l as [|[] l IH]; cbn in *; auto; lia. }
  destruct (H tr) as (H1 & H2). split; [apply HC|]. split; [|exact H2].
  rewrite (ci_miss _ _ _ _ _ _ HC). now rewrite H1.
Qed.
Print Assumptions cache_statistics_partial.

(* The counters are shared by shards with different locks: two hits in two
   shards at the same time can be counted once. *)
Theorem cache_statistics_race_refuted :
  exists l, Permutation.Permutation l [IncLoad 0; IncStore 0; IncLoad 1; IncStore 1] /\
    runInc l (fun _ => 0%Z) 0%Z <> 2%Z.
Proof.
  exists [IncLoad 0; IncLoad 1; IncStore 0; IncStore 1]. split; [|vm_compute; congruence].
  constructor. apply Permutation.perm_swap.
Qed.
Print Assumptions cache_statistics_race_refuted.
