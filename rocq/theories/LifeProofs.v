(* Proofs about LifeModel *)
From Coq Require Import Permutation.
From Verif Require Import ItemModel ItemProofs LifeModel LifeSpec.
Local Open Scope Z_scope.

(* ---- blocks owned on top of a heap m0 ---- *)
Definition hasBlock (ps : list (nat * Z)) (p : nat) : bool := existsb (fun a => Nat.eqb p (fst a)) ps.
Definition gone (ps l : list (nat * Z)) := filter (fun b => negb (hasBlock ps (fst b))) l.
Record owns (m0 : list (nat * Z)) (m : mem) (ps : list (nat * Z)) : Prop := mkOwns {
  o_nodup : NoDup (map fst ps);
  o_older : older m;
  o_live : forall p n, In (p, n) ps -> sizeOf (live m) p = Some n;
  o_gone : gone ps (live m) = m0 }.

Lemma hasBlock_in ps p : hasBlock ps p = true <-> In p (map fst ps).
Proof.
  unfold hasBlock. rewrite existsb_exists. split.
  - intros ((q, n) & Hi & E). apply Nat.eqb_eq in E. cbn in E. subst. now apply (in_map fst) in Hi.
  - intros Hi. apply in_map_iff in Hi as ((q, n) & <- & Hi). exists (q, n). split; auto. apply Nat.eqb_refl.
Qed.
Lemma sizeOf_in l p n : sizeOf l p = Some n -> In (p, n) l.
Proof.
  induction l as [|(q, k) l IH]; cbn; [discriminate|]. destruct (Nat.eqb_spec p q) as [->|]; [|auto].
  intros E. injection E as ->. auto.
Qed.
Lemma sizeOf_drop l p q : p <> q -> sizeOf (drop l p) q = sizeOf l q.
Proof.
  intros N. induction l as [|(x, k) l IH]; [reflexivity|]. cbn [drop filter fst sizeOf].
  destruct (Nat.eqb_spec p x) as [->|]; cbn [negb].
  - destruct (Nat.eqb_spec q x); [congruence|]. exact IH.
  - cbn [sizeOf]. destruct (Nat.eqb_spec q x); auto.
Qed.
Lemma owns_perm m0 m ps ps' : Permutation ps ps' -> owns m0 m ps -> owns m0 m ps'.
Proof.
  intros P [H1 H2 H3 H4]. constructor; auto.
  - eapply Permutation_NoDup; [|exact H1]. now apply Permutation_map.
  - intros p n Hi. apply H3. eapply Permutation_in; [|exact Hi]. now apply Permutation_sym.
  - rewrite <- H4. unfold gone. apply filter_ext. intros (p, n). cbn. f_equal.
    apply eq_true_iff_eq. rewrite !hasBlock_in. split; intros Hi; (eapply Permutation_in; [|exact Hi]); apply Permutation_map; [now apply Permutation_sym|exact P].
Qed.
Lemma owns_start m : older m -> owns (live m) m [].
Proof.
  intros H. constructor; auto; [constructor|intros ? ? []|].
  unfold gone, hasBlock. cbn [existsb negb]. induction (live m) as [|b l IH]; cbn; [auto|now rewrite IH].
Qed.
Lemma owns_end m0 m : owns m0 m [] -> live m = m0.
Proof.
  intros [_ _ _ H]. rewrite <- H. clear H. unfold gone, hasBlock. cbn [existsb negb]. induction (live m) as [|b l IH]; cbn; [auto|f_equal; exact IH].
Qed.
Lemma owns_alloc m0 m ps n m' p : owns m0 m ps -> alloc m n = (m', p) -> owns m0 m' ((p, n) :: ps).
Proof.
  intros [H1 H2 H3 H4] E. unfold alloc in E. injection E as <- <-.
  assert (~ In (fresh m) (map fst ps)) as Hf.
  { intros Hi. apply in_map_iff in Hi as ((q, k) & E & Hi). cbn in E. subst q. apply H3, sizeOf_in, H2 in Hi. lia. }
  constructor.
  - cbn. now constructor.
  - intros q k. cbn. intros [E|Hi]; [injection E as <- <-; lia|]. apply H2 in Hi. lia.
  - intros q k [E|Hi]; cbn [live sizeOf].
    + injection E as <- <-. now rewrite Nat.eqb_refl.
    + destruct (Nat.eqb_spec q (fresh m)) as [->|]; [|auto]. exfalso. apply Hf. now apply (in_map fst) in Hi.
  - unfold gone. cbn [live filter fst hasBlock existsb]. rewrite Nat.eqb_refl. cbn [orb negb].
    rewrite <- H4. unfold gone. apply filter_ext_in. intros (q, k) Hi. cbn. apply H2 in Hi.
    destruct (Nat.eqb_spec q (fresh m)); [lia|reflexivity].
Qed.
Lemma owns_free m0 m p n ps : owns m0 m ((p, n) :: ps) -> exists m', free m p = Some m' /\ owns m0 m' ps.
Proof.
  intros [H1 H2 H3 H4]. unfold free. rewrite (H3 p n) by now left. eexists. split; [reflexivity|].
  cbn in H1. inversion H1 as [|? ? Hn Hd]; subst. constructor; auto; cbn [live fresh].
  - intros q k Hi. unfold drop in Hi. apply filter_In in Hi as (Hi & _). now apply H2 in Hi.
  - intros q k Hi. rewrite sizeOf_drop; [apply H3; now right|]. intros ->. apply Hn. now apply (in_map fst) in Hi.
  - clear - m. unfold gone, drop. induction (live m) as [|(q, k) l IH]; [reflexivity|].
    cbn [filter fst hasBlock existsb]. rewrite (Nat.eqb_sym p q).
    destruct (Nat.eqb_spec q p) as [->|]; cbn [negb orb].
    + apply IH.
    + cbn [filter fst]. unfold hasBlock in *. destruct (existsb (fun a => Nat.eqb q (fst a)) ps); cbn [negb]; [apply IH|]. f_equal. apply IH.
Qed.
Lemma owns_write m0 m p n ps k : owns m0 m ps -> In (p, n) ps -> k <= n -> write m p k = Some m.
Proof. intros [_ _ H _] Hi Hk. unfold write. rewrite (H _ _ Hi). destruct (Z.leb_spec k n); [reflexivity|lia]. Qed.

Definition csBlocks (cs : nat * nat) : list (nat * Z) := [(snd cs, sizeofState); (fst cs, sizeofCollection)].

Lemma freeCollection_owns m0 m cs ps : owns m0 m (csBlocks cs ++ ps) -> exists m', freeCollection m cs = Some m' /\ owns m0 m' ps.
Proof.
  intros H. unfold freeCollection. cbn [csBlocks app] in H. destruct (owns_free _ _ _ _ _ H) as (m1 & -> & H1).
  destruct (owns_free _ _ _ _ _ H1) as (m2 & -> & H2). eauto.
Qed.
Lemma createCollection_owns m0 m ps a b : owns m0 m ps ->
  exists m' r, createCollection m a b = Some (m', r) /\
    match r with Some cs => owns m0 m' (csBlocks cs ++ ps) | None => owns m0 m' ps end /\
    (a = true -> b = true -> r <> None).
Proof.
  intros H. unfold createCollection. destruct a; [|exists m, None; split; [reflexivity|split; [exact H|discriminate]]].
  destruct (alloc m sizeofCollection) as [m1 c] eqn:E1. pose proof (owns_alloc _ _ _ _ _ _ H E1) as H1.
  destruct b.
  - destruct (alloc m1 sizeofState) as [m2 s] eqn:E2. pose proof (owns_alloc _ _ _ _ _ _ H1 E2) as H2.
    exists m2, (Some (c, s)). split; [reflexivity|]. split; [exact H2|]. discriminate.
  - destruct (owns_free _ _ _ _ _ H1) as (m2 & -> & H2). exists m2, None. split; [reflexivity|]. split; [exact H2|]. discriminate.
Qed.
Lemma createFromFile_owns m0 m ps ok p : owns m0 m ps ->
  (forall m' r, createFromFile m ok p = Some (m', r) ->
    match r with Some cs => owns m0 m' (csBlocks cs ++ ps) | None => owns m0 m' ps /\ ok (FileSkip p) = false end) /\
  (ok (FileColl p) = true -> ok (FileState p) = true -> createFromFile m ok p <> None).
Proof.
  intros H. unfold createFromFile.
  destruct (createCollection_owns m0 m ps (ok (FileColl p)) (ok (FileState p)) H) as (m1 & r1 & -> & H1 & H2).
  destruct r1 as [cs|].
  - destruct (ok (FileSkip p)).
    + split; [|discriminate]. intros m' r E. injection E as <- <-. exact H1.
    + destruct (freeCollection_owns _ _ _ _ H1) as (m2 & -> & H3). split; [|discriminate]. intros m' r E. injection E as <- <-. auto.
  - split; [discriminate|]. intros A B. now specialize (H2 A B).
Qed.

(* ---- data of cache nodes ---- *)
Definition nodeBlocks (d : data) : list (nat * Z) :=
  match ptr d with Some p => if Z.ltb 0 (allocated d) then [(p, allocated d)] else [] | None => [] end.
Definition nodeOK (d : data) : Prop :=
  (ptr d = None /\ allocated d = 0) \/ (exists p, ptr d = Some p /\ 0 < allocated d < 2 ^ 32).
Definition nodesBlocks (l : list data) : list (nat * Z) := concat (map nodeBlocks l).
Definition shardsBlocks (l : list (list data)) : list (nat * Z) := concat (map nodesBlocks l).

Lemma DataMalloc_owns m0 m d ps bytes ok : nodeOK d -> owns m0 m (nodeBlocks d ++ ps) -> 0 < bytes < 2 ^ 32 ->
  exists m' d', DataMalloc m d bytes ok = Some (m', d') /\ nodeOK d' /\ owns m0 m' (nodeBlocks d' ++ ps) /\
    (forall p, ptr d' = Some p -> bytes <= allocated d').
Proof.
  intros Hd H Hb. unfold DataMalloc.
  assert (forall m1, owns m0 m1 ps -> exists m' d',
    (if Z.eqb (allocated (mkData None 0)) 0 then
      if ok then Some (mkMem (S (fresh m1)) ((fresh m1, bytes) :: live m1), mkData (Some (fresh m1)) (bytes mod 2 ^ 32))
      else Some (m1, mkData None 0)
     else Some (m1, mkData None 0)) = Some (m', d') /\ nodeOK d' /\ owns m0 m' (nodeBlocks d' ++ ps) /\
    (forall p, ptr d' = Some p -> bytes <= allocated d')) as HA.
  { intros m1 Hm1. cbn [allocated Z.eqb]. destruct ok.
    - do 2 eexists. split; [reflexivity|]. rewrite Z.mod_small by lia. unfold nodeBlocks, nodeOK. cbn [ptr allocated].
      destruct (Z.ltb_spec 0 bytes); [|lia]. split; [right; eauto|]. split; [|intros; lia].
      cbn [app]. eapply owns_alloc; [exact Hm1|]. reflexivity.
    - do 2 eexists. split; [reflexivity|]. unfold nodeBlocks, nodeOK. cbn [ptr allocated app]. split; [auto|]. split; [exact Hm1|discriminate]. }
  destruct Hd as [(Hp & Ha)|(p & Hp & Ha)]; destruct d as [pt a]; cbn [ptr allocated] in *; subst.
  - cbn [Z.ltb Z.compare andb]. apply HA. exact H.
  - unfold nodeBlocks in H. cbn [ptr allocated] in H. destruct (Z.ltb_spec 0 a); [|lia]. cbn [andb app] in *.
    destruct (Z.ltb_spec a bytes) as [Hlt|Hge].
    + destruct (owns_free _ _ _ _ _ H) as (m1 & -> & Hm1). apply HA. exact Hm1.
    + cbn [allocated]. destruct (Z.eqb_spec a 0); [lia|]. do 2 eexists. split; [reflexivity|].
      unfold nodeBlocks, nodeOK. cbn [ptr allocated]. destruct (Z.ltb_spec 0 a); [|lia].
      split; [right; eauto|]. split; [exact H|]. intros; lia.
Qed.

Lemma sized_try bytes a b : sized (Try bytes a b) -> 0 < bytes < 2 ^ 32.
Proof. intros H. eapply H. reflexivity. Qed.

(* a get with a fresh item *)
Lemma getFile_owns m0 m ps w : sized w -> owns m0 m ps ->
  exists m' it r, getFile m (mkItem DataReset None) w = Some (m', it, r) /\
    match r with
    | None => owns m0 m' ps /\ ihandle it = None
    | Some p => owns m0 m' ((p, usedOf w) :: ps) /\ it = mkItem (mkData (Some p) (usedOf w)) (Some p) /\ 0 < usedOf w < 2 ^ 32
    end.
Proof.
  intros Hw H. destruct w as [|bytes memOk readOk].
  - cbn. do 3 eexists. split; [reflexivity|]. cbn beta iota; auto.
  - apply sized_try in Hw. cbn [getFile idata usedOf]. unfold DataMalloc, DataReset. cbn [allocated ptr Z.ltb Z.compare andb Z.eqb].
    destruct memOk.
    + pose proof (owns_alloc m0 m ps bytes _ _ H eq_refl) as H1.
      rewrite (owns_write _ _ _ _ _ bytes H1 (or_introl eq_refl)) by lia. rewrite Z.mod_small by lia. destruct readOk.
      * do 3 eexists. split; [reflexivity|]. cbn beta iota; auto.
      * destruct (owns_free _ _ _ _ _ H1) as (m2 & -> & H2). do 3 eexists. split; [reflexivity|]. cbn beta iota; auto.
    + do 3 eexists. split; [reflexivity|]. cbn beta iota; auto.
Qed.
Lemma release_owns m0 m ps p n : owns m0 m ((p, n) :: ps) ->
  exists m', releaseFile m (mkItem (mkData (Some p) n) (Some p)) = Some (m', mkItem DataReset None) /\ owns m0 m' ps.
Proof.
  intros H. unfold releaseFile. cbn [ihandle]. destruct (owns_free _ _ _ _ _ H) as (m2 & -> & H2). eauto.
Qed.

(* ---- the size to load ---- *)
Lemma iterate_owns m0 ways size : (forall i, sized (ways i)) -> forall n m it ps i next total,
  owns m0 m ps -> (it = None /\ next < size \/ it = Some (mkItem DataReset None)) ->
  exists m' k t f, iterate m it ways size n i next total = Some (m', k, t, f) /\ owns m0 m' ps.
Proof.
  intros Hw. induction n as [|n IH]; intros m it ps i next total H Hit.
  - cbn [iterate]. destruct (Z.ltb_spec next size).
    + replace (match it with Some it => it | None => mkItem DataReset None end) with (mkItem DataReset None) by (destruct Hit as [(-> & _)| ->]; auto).
      destruct (getFile_owns m0 m ps (ways i) (Hw i) H) as (m1 & it1 & [p|] & -> & H1).
      * destruct H1 as (H1 & -> & Hu). destruct (release_owns _ _ _ _ _ H1) as (m2 & -> & H2). do 4 eexists. split; [reflexivity|exact H2].
      * destruct H1 as (H1 & Hh). unfold releaseFile. rewrite Hh. do 4 eexists. split; [reflexivity|exact H1].
    + destruct Hit as [(_ & Hit)| ->]; [lia|]. cbn. do 4 eexists. split; [reflexivity|exact H].
  - cbn [iterate]. destruct (Z.ltb_spec next size).
    + replace (match it with Some it => it | None => mkItem DataReset None end) with (mkItem DataReset None) by (destruct Hit as [(-> & _)| ->]; auto).
      destruct (getFile_owns m0 m ps (ways i) (Hw i) H) as (m1 & it1 & [p|] & -> & H1).
      * destruct H1 as (H1 & -> & Hu). destruct (release_owns _ _ _ _ _ H1) as (m2 & E2 & H2). destruct n as [|n'].
        -- rewrite E2. do 4 eexists. split; [reflexivity|exact H2].
        -- rewrite E2. apply IH; auto.
      * destruct H1 as (H1 & Hh). unfold releaseFile. rewrite Hh. do 4 eexists. split; [reflexivity|exact H1].
    + destruct Hit as [(_ & Hit)| ->]; [lia|]. cbn. do 4 eexists. split; [reflexivity|exact H].
Qed.
Lemma loadedSize_owns m0 m ps h ld ways : (forall i, sized (ways i)) -> owns m0 m ps -> 0 < ld ->
  exists m' c s f, calculateLoadedSize m h ld ways = Some (m', c, s, f) /\ owns m0 m' ps.
Proof.
  intros Hw H Hl. unfold calculateLoadedSize. destruct (negb _).
  - do 4 eexists. split; [reflexivity|exact H].
  - destruct (Z.ltb_spec (hlength h) ld).
    + do 4 eexists. split; [reflexivity|exact H].
    + destruct (iterate_owns m0 ways (hlength h) Hw (Z.to_nat ld) m None ps 0%nat 0 0 H) as (m1 & k & t & f & -> & H1); [left; split; [auto|lia]|].
      do 4 eexists. split; [reflexivity|exact H1].
Qed.

(* ---- freeing ---- *)
Lemma shardFree_owns m0 nodes : Forall nodeOK nodes -> forall m ps, owns m0 m (nodesBlocks nodes ++ ps) ->
  exists m', shardFree m nodes = Some m' /\ owns m0 m' ps.
Proof.
  induction nodes as [|d nodes IH]; intros HF m ps H; cbn [shardFree].
  - exists m. auto.
  - inversion HF as [|? ? Hd HF']; subst. unfold nodesBlocks in H. cbn [map concat] in H. rewrite <- app_assoc in H. fold (nodesBlocks nodes) in H.
    destruct Hd as [(Hp & Ha)|(p & Hp & Ha)]; unfold nodeBlocks in H; rewrite Hp in *; cbn [app] in H.
    + apply IH; auto.
    + destruct (Z.ltb_spec 0 (allocated d)); [|lia]. cbn [app] in H. destruct (owns_free _ _ _ _ _ H) as (m1 & -> & H1). apply IH; auto.
Qed.
Lemma shardsFree_owns m0 shards : Forall (Forall nodeOK) shards -> forall m ps, owns m0 m (shardsBlocks shards ++ ps) ->
  exists m', shardsFree m shards = Some m' /\ owns m0 m' ps.
Proof.
  induction shards as [|nodes shards IH]; intros HF m ps H; cbn [shardsFree].
  - exists m. auto.
  - inversion HF as [|? ? Hd HF']; subst. unfold shardsBlocks in H. cbn [map concat] in H. rewrite <- app_assoc in H. fold (shardsBlocks shards) in H.
    destruct (shardFree_owns m0 nodes Hd m _ H) as (m1 & -> & H1). apply IH; auto.
Qed.

Definition cacheBlocks (k : cache) : list (nat * Z) := shardsBlocks (knodes k).
(* the block of the cache itself has some size *)
Definition baseBlocks (b : base) (z : Z) : list (nat * Z) :=
  match b with
  | BFile cs => csBlocks cs
  | BCache cs (Some f) (Some k) => csBlocks f ++ cacheBlocks k ++ (kblock k, z) :: csBlocks cs
  | BCache cs _ _ => csBlocks cs
  end.
Definition baseOK (b : base) : Prop :=
  match b with
  | BFile _ => True
  | BCache _ (Some _) (Some k) => Forall (Forall nodeOK) (knodes k)
  | BCache _ _ _ => False
  end.
Lemma freeBase_owns m0 m b z ps : baseOK b -> owns m0 m (baseBlocks b z ++ ps) -> exists m', freeBase m b = Some m' /\ owns m0 m' ps.
Proof.
  destruct b as [cs|cs [f|] [k|]]; cbn [baseOK baseBlocks freeBase]; try contradiction.
  - intros _. apply freeCollection_owns.
  - intros HF H. cbn [freeCacheCollection]. rewrite <- !app_assoc in H.
    destruct (freeCollection_owns _ _ _ _ H) as (m1 & -> & H1). unfold CacheFree, cacheBlocks in *.
    destruct (shardsFree_owns m0 _ HF m1 _ H1) as (m2 & -> & H2). cbn [app] in H2.
    destruct (owns_free _ _ _ _ _ H2) as (m3 & -> & H3). now apply freeCollection_owns.
Qed.
Definition toFreeBlocks (t : option nat) (z : Z) : list (nat * Z) := match t with Some p => [(p, z)] | None => [] end.
Definition collBlocks (c : coll) (zk zb : Z) : list (nat * Z) :=
  match c with
  | Base b => baseBlocks b zk
  | Memory cs t next => (match next with Some b => baseBlocks b zk | None => [] end) ++ toFreeBlocks t zb ++ csBlocks cs
  end.
Definition collOK (c : coll) : Prop :=
  match c with Base b => baseOK b | Memory _ _ (Some b) => baseOK b | Memory _ _ None => True end.
Lemma freeColl_owns m0 m c zk zb ps : collOK c -> owns m0 m (collBlocks c zk zb ++ ps) -> exists m', freeColl m c = Some m' /\ owns m0 m' ps.
Proof.
  destruct c as [b|cs t next]; cbn [collOK collBlocks freeColl].
  - apply freeBase_owns.
  - intros HB H. unfold freeMemoryCollection. rewrite <- !app_assoc in H.
    assert (exists m1, match next with Some b => freeBase m b | None => Some m end = Some m1 /\ owns m0 m1 (toFreeBlocks t zb ++ csBlocks cs ++ ps)) as (m1 & -> & H1).
    { destruct next as [b|]; [now apply (freeBase_owns m0 m b zk)|]. exists m. auto. }
    assert (exists m2, match t with Some p => free m1 p | None => Some m1 end = Some m2 /\ owns m0 m2 (csBlocks cs ++ ps)) as (m2 & -> & H2).
    { destruct t as [p|]; cbn [toFreeBlocks app] in H1; [now apply owns_free in H1|]. exists m1. auto. }
    now apply freeCollection_owns.
Qed.

(* ---- creation ---- *)
Lemma put_in {A} (l : list A) n x y : In y (put l n x) -> y = x \/ In y l.
Proof. revert n. induction l as [|z l IH]; intros [|n]; cbn; [tauto|tauto|intuition|]. intros [->|H]; [auto|]. apply IH in H. tauto. Qed.
Lemma shardsBlocks_new a b : shardsBlocks (repeat (repeat DataReset a) b) = [].
Proof.
  unfold shardsBlocks. induction b as [|b IH]; [reflexivity|]. cbn [repeat map concat]. rewrite IH, app_nil_r.
  clear IH. unfold nodesBlocks. induction a as [|a IHa]; [reflexivity|]. cbn. exact IHa.
Qed.
Lemma new_nodes a b : Forall (Forall nodeOK) (repeat (repeat DataReset a) b).
Proof.
  apply Forall_forall. intros l Hl. apply repeat_spec in Hl as ->. apply Forall_forall. intros d Hd. apply repeat_spec in Hd as ->. left. auto.
Qed.

Lemma cached_owns m0 m ps ok cap conc : owns m0 m ps ->
  (forall m' r, createFromFileCached m ok cap conc = Some (m', r) ->
     match r with
     | Some b => exists z, baseOK b /\ owns m0 m' (baseBlocks b z ++ ps)
     | None => exists qs, owns m0 m' (qs ++ ps) /\ (ok CacheMem = true -> conc <> 0 -> conc <= cap / conc -> qs = [])
     end) /\
  (ok CacheColl = true -> ok CacheState = true -> ok (FileColl Loader) = true -> ok (FileState Loader) = true ->
     createFromFileCached m ok cap conc <> None).
Proof.
  intros H. unfold createFromFileCached.
  destruct (createCollection_owns m0 m ps (ok CacheColl) (ok CacheState) H) as (m1 & [cs|] & -> & H1 & H1').
  2:{ split; [discriminate|]. intros A B. now specialize (H1' A B). }
  destruct (createFromFile_owns m0 m1 _ ok Loader H1) as (H2 & H2').
  destruct (createFromFile m1 ok Loader) as [(m2, [f|])|] eqn:E2.
  - specialize (H2 _ _ eq_refl). cbn beta iota in H2. unfold CacheCreate.
    destruct (Z.eqb_spec conc 0) as [Hz|Hz]; cbn [orb].
    { cbn [freeCacheCollection]. assert (owns m0 m2 (csBlocks cs ++ (csBlocks f ++ ps))) as H3.
      { eapply owns_perm; [|exact H2]. rewrite !app_assoc. apply Permutation_app_tail, Permutation_app_comm. }
      destruct (freeCollection_owns _ _ _ _ H3) as (m3 & -> & H4). split; [|discriminate]. intros m' r E. injection E as <- <-. exists (csBlocks f). split; [exact H4|congruence]. }
    destruct (Z.ltb_spec (cap / conc) conc) as [Hl|Hl].
    { cbn [freeCacheCollection]. assert (owns m0 m2 (csBlocks cs ++ (csBlocks f ++ ps))) as H3.
      { eapply owns_perm; [|exact H2]. rewrite !app_assoc. apply Permutation_app_tail, Permutation_app_comm. }
      destruct (freeCollection_owns _ _ _ _ H3) as (m3 & -> & H4). split; [|discriminate]. intros m' r E. injection E as <- <-. exists (csBlocks f). split; [exact H4|lia]. }
    destruct (ok CacheMem).
    + destruct (alloc m2 _) as [m3 k] eqn:E3. pose proof (owns_alloc _ _ _ _ _ _ H2 E3) as H3.
      split; [|discriminate]. intros m' r E. injection E as <- <-. eexists. split; [apply new_nodes|].
      cbn [baseBlocks]. unfold cacheBlocks. cbn [knodes kblock]. rewrite shardsBlocks_new. cbn [app].
      eapply owns_perm; [|exact H3]. rewrite <- app_assoc. cbn [app]. apply Permutation_middle.
    + cbn [freeCacheCollection]. assert (owns m0 m2 (csBlocks cs ++ (csBlocks f ++ ps))) as H3.
      { eapply owns_perm; [|exact H2]. rewrite !app_assoc. apply Permutation_app_tail, Permutation_app_comm. }
      destruct (freeCollection_owns _ _ _ _ H3) as (m3 & -> & H4). split; [|discriminate]. intros m' r E. injection E as <- <-. exists (csBlocks f). split; [exact H4|discriminate].
  - specialize (H2 _ _ eq_refl) as (H2 & _). cbn [freeCacheCollection].
    destruct (freeCollection_owns _ _ _ _ H2) as (m3 & -> & H4). split; [|discriminate]. intros m' r E. injection E as <- <-. exists []. auto.
  - split; [discriminate|]. intros _ _ A B. now specialize (H2' A B).
Qed.
Lemma second_owns m0 m ps ok cap conc : owns m0 m ps ->
  (forall m' r, createFromFileSecond m ok cap conc = Some (m', r) ->
     match r with
     | Some b => exists z, baseOK b /\ owns m0 m' (baseBlocks b z ++ ps)
     | None => exists qs, owns m0 m' (qs ++ ps) /\ (ok CacheMem = true -> cacheAllowed cap conc -> qs = [])
     end) /\
  (trusted ok -> createFromFileSecond m ok cap conc <> None).
Proof.
  intros H. unfold createFromFileSecond. destruct (ok SecondSeek).
  2:{ split; [|discriminate]. intros m' r E. injection E as <- <-. exists []. auto. }
  destruct (Z.ltb_spec 0 cap) as [Hc|Hc]; cbn [andb].
  1: destruct (Z.ltb_spec 0 conc) as [Hk|Hk].
  - destruct (cached_owns m0 m ps ok cap conc H) as (A & B). split.
    + intros m' r E. specialize (A _ _ E). destruct r as [b|]; [exact A|]. destruct A as (qs & A1 & A2). exists qs. split; [exact A1|]. intros K1 K2. apply A2; auto. lia.
    + intros (T1 & _ & _ & T2 & T3 & _). destruct (T1 Loader). apply B; auto.
  - destruct (createFromFile_owns m0 m ps ok Plain H) as (A & B). destruct (createFromFile m ok Plain) as [(m1, [cs|])|] eqn:E1.
    + split; [|discriminate]. intros m' r E. injection E as <- <-. exists 0. split; [exact I|]. exact (A _ _ eq_refl).
    + split; [|discriminate]. intros m' r E. injection E as <- <-. exists []. split; [exact (proj1 (A _ _ eq_refl))|auto].
    + split; [discriminate|]. intros (T1 & _). destruct (T1 Plain). intros _. apply B; auto.
  - destruct (createFromFile_owns m0 m ps ok Plain H) as (A & B). destruct (createFromFile m ok Plain) as [(m1, [cs|])|] eqn:E1.
    + split; [|discriminate]. intros m' r E. injection E as <- <-. exists 0. split; [exact I|]. exact (A _ _ eq_refl).
    + split; [|discriminate]. intros m' r E. injection E as <- <-. exists []. split; [exact (proj1 (A _ _ eq_refl))|auto].
    + split; [discriminate|]. intros (T1 & _). destruct (T1 Plain). intros _. apply B; auto.
Qed.

Lemma abandon_owns m0 m cs t f ps z : owns m0 m (toFreeBlocks t z ++ csBlocks cs ++ csBlocks f ++ ps) ->
  exists m', abandon m cs t f = Some (m', None) /\ owns m0 m' ps.
Proof.
  intros H. unfold abandon.
  destruct (freeColl_owns m0 m (Memory cs t None) 0 z (csBlocks f ++ ps) I) as (m1 & E1 & H1).
  { cbn [collBlocks app]. rewrite <- app_assoc. exact H. }
  cbn [freeColl] in E1. rewrite E1. destruct (freeCollection_owns _ _ _ _ H1) as (m2 & -> & H2). eauto.
Qed.
Lemma partial_owns m0 m ps ok h ld ways : owns m0 m ps -> (forall i, sized (ways i)) -> 0 < ld ->
  (forall m' r, createFromFilePartial m ok h ld ways = Some (m', r) ->
     match r with
     | Some (cs, b, _, size) => owns m0 m' ((b, size) :: csBlocks cs ++ ps)
     | None => owns m0 m' ps
     end) /\
  (trusted ok -> createFromFilePartial m ok h ld ways <> None).
Proof.
  intros H Hw Hl. unfold createFromFilePartial. destruct (createFromFile_owns m0 m ps ok Source H) as (A & B).
  destruct (createFromFile m ok Source) as [(m1, r1)|] eqn:E1.
  2:{ split; [discriminate|]. intros (T1 & _). destruct (T1 Source). intros _. apply B; auto. }
  specialize (A _ _ eq_refl).
  destruct r1 as [f|].
  2:{ split.
      - destruct (createCollection m1 _ _) as [(?, [?|])|]; discriminate.
      - intros (_ & _ & _ & _ & _ & T). destruct A. congruence. }
  destruct (createCollection_owns m0 m1 _ (ok MemColl) (ok MemState) A) as (m2 & [cs|] & -> & H2 & H2').
  2:{ split; [discriminate|]. intros (_ & T1 & T2 & _). now specialize (H2' T1 T2). }
  destruct (loadedSize_owns m0 m2 _ h ld ways Hw H2 Hl) as (m3 & c & size & fine & -> & H3).
  destruct fine.
  2:{ destruct (abandon_owns m0 m3 cs None f ps 0 H3) as (m4 & -> & H4). split; [|discriminate]. intros m' r E. injection E as <- <-. exact H4. }
  destruct (ok MemBytes).
  2:{ destruct (abandon_owns m0 m3 cs None f ps 0 H3) as (m4 & -> & H4). split; [|discriminate]. intros m' r E. injection E as <- <-. exact H4. }
  destruct (alloc m3 size) as [m4 b] eqn:E4. pose proof (owns_alloc _ _ _ _ _ _ H3 E4) as H4.
  destruct (abandon_owns m0 m4 cs (Some b) f ps size H4) as (m5 & E5 & H5).
  destruct (ok MemSeek).
  2:{ rewrite E5. split; [|discriminate]. intros m' r E. injection E as <- <-. exact H5. }
  rewrite (owns_write _ _ _ _ _ size H4 (or_introl eq_refl)) by lia.
  destruct (ok MemRead).
  2:{ rewrite E5. split; [|discriminate]. intros m' r E. injection E as <- <-. exact H5. }
  destruct (ok MemSkip).
  2:{ rewrite E5. split; [|discriminate]. intros m' r E. injection E as <- <-. exact H5. }
  assert (owns m0 m4 (csBlocks f ++ (b, size) :: csBlocks cs ++ ps)) as H6.
  { eapply owns_perm; [|exact H4].
    apply Permutation_trans with ((b, size) :: csBlocks f ++ csBlocks cs ++ ps); [|apply Permutation_middle].
    constructor. rewrite !app_assoc. apply Permutation_app_tail, Permutation_app_comm. }
  destruct (freeCollection_owns _ _ _ _ H6) as (m6 & -> & H7). split; [|discriminate]. intros m' r E. injection E as <- <-. exact H7.
Qed.

Lemma create_owns m ok h cfg ways : older m -> (forall i, sized (ways i)) ->
  (forall m' r, CreateFromFile m ok h cfg ways = Some (m', r) ->
     match r with
     | Some c => exists zk zb, collOK c /\ owns (live m) m' (collBlocks c zk zb)
     | None => ok CacheMem = true -> cacheAllowed (capacity cfg) (concurrency cfg) -> live m' = live m
     end) /\
  (trusted ok -> CreateFromFile m ok h cfg ways <> None).
Proof.
  intros Ho Hw. pose proof (owns_start m Ho) as H. unfold CreateFromFile. destruct (Z.ltb_spec 0 (loaded cfg)) as [Hl|Hl].
  - destruct (partial_owns (live m) m [] ok h (loaded cfg) ways H Hw Hl) as (A & B).
    destruct (createFromFilePartial m ok h (loaded cfg) ways) as [(m1, [[[[cs b] count] size]|])|].
    + specialize (A _ _ eq_refl). cbn beta iota in A. rewrite app_nil_r in A.
      destruct (Z.eqb count (loaded cfg) && Z.ltb size (size + (hlength h - size) mod 2 ^ 32)).
      * destruct (second_owns (live m) m1 _ ok (capacity cfg) (concurrency cfg) A) as (C & D).
        destruct (createFromFileSecond m1 ok (capacity cfg) (concurrency cfg)) as [(m2, [n|])|].
        -- split; [|discriminate]. intros m' r E. injection E as <- <-. destruct (C _ _ eq_refl) as (z & C1 & C2).
           exists z, size. split; [exact C1|]. exact C2.
        -- specialize (C _ _ eq_refl). cbn beta iota in C. destruct C as (qs & C1 & C2).
           destruct (freeColl_owns (live m) m2 (Memory cs (Some b) None) 0 size qs I) as (m3 & E3 & H3).
           { cbn [collBlocks app toFreeBlocks]. eapply owns_perm; [|exact C1]. apply Permutation_app_comm. }
           cbn [freeColl] in E3. rewrite E3. split; [|discriminate]. intros m' r E. injection E as <- <-. intros K1 K2.
           rewrite (C2 K1 K2) in H3. now apply owns_end.
        -- split; [discriminate|]. intros T _. now apply (D T).
      * split; [|discriminate]. intros m' r E. injection E as <- <-. exists 0, size. split; [exact I|]. cbn [collBlocks toFreeBlocks app]. exact A.
    + specialize (A _ _ eq_refl). cbn in A. split; [|discriminate]. intros m' r E. injection E as <- <-. intros _ _. now apply owns_end.
    + split; [discriminate|]. intros T _. now apply (B T).
  - destruct (second_owns (live m) m [] ok (capacity cfg) (concurrency cfg) H) as (C & D).
    destruct (createFromFileSecond m ok (capacity cfg) (concurrency cfg)) as [(m2, [n|])|].
    + split; [|discriminate]. intros m' r E. injection E as <- <-. destruct (C _ _ eq_refl) as (z & C1 & C2).
      exists z, 0. split; [exact C1|]. rewrite app_nil_r in C2. exact C2.
    + split; [|discriminate]. intros m' r E. injection E as <- <-. destruct (C _ _ eq_refl) as (qs & C1 & C2). intros K1 K2. rewrite (C2 K1 K2) in C1. now apply owns_end.
    + split; [discriminate|]. intros T _. now apply (D T).
Qed.

(* ---- loading into a cache ---- *)
Lemma loaderCache_owns m0 m d ps w ok : sized w -> nodeOK d -> owns m0 m (nodeBlocks d ++ ps) ->
  exists m' d', loaderCache m d w ok = Some (m', d') /\ nodeOK d' /\ owns m0 m' (nodeBlocks d' ++ ps).
Proof.
  intros Hw Hd H. unfold loaderCache. destruct (getFile_owns m0 m _ w Hw H) as (m1 & it & [p|] & -> & H1).
  - destruct H1 as (H1 & -> & Hu). destruct (Z.ltb_spec 0 (usedOf w)); [|lia]. cbn [idata allocated].
    assert (owns m0 m1 (nodeBlocks d ++ (p, usedOf w) :: ps)) as H2.
    { eapply owns_perm; [|exact H1]. apply Permutation_middle. }
    destruct (DataMalloc_owns m0 m1 d _ (usedOf w) ok Hd H2 Hu) as (m2 & d2 & -> & Hd2 & H3 & H4).
    assert (owns m0 m2 ((p, usedOf w) :: nodeBlocks d2 ++ ps)) as H5.
    { eapply owns_perm; [|exact H3]. apply Permutation_sym, Permutation_middle. }
    destruct (release_owns _ _ _ _ _ H5) as (m3 & E3 & H6).
    destruct d2 as [[q|] a].
    + rewrite (owns_write m0 m2 q a _ (usedOf w) H3); [rewrite E3; eauto| |exact (H4 q eq_refl)].
      apply in_or_app. left. unfold nodeBlocks. cbn [ptr allocated].
      pose proof (H4 q eq_refl) as Hle. cbn [allocated] in Hle. destruct (Z.ltb_spec 0 a); [|lia]. now left.
    + rewrite E3. eauto.
  - destruct H1 as (H1 & _). eauto.
Qed.
Lemma put_split {A} (l : list A) n x y : nth_error l n = Some x -> exists l1 l2, l = l1 ++ x :: l2 /\ put l n y = l1 ++ y :: l2.
Proof.
  revert n. induction l as [|z l IH]; intros [|n] E; try discriminate; cbn in E.
  - injection E as ->. exists [], l. auto.
  - destruct (IH _ E) as (l1 & l2 & -> & E2). exists (z :: l1), l2. cbn. now rewrite E2.
Qed.
Lemma blocks_split {A} (f : A -> list (nat * Z)) l1 x l2 ps :
  Permutation (concat (map f (l1 ++ x :: l2)) ++ ps) (f x ++ concat (map f l1) ++ concat (map f l2) ++ ps).
Proof.
  rewrite map_app, concat_app. cbn [map concat]. rewrite <- !app_assoc.
  apply Permutation_trans with ((concat (map f l1) ++ f x) ++ concat (map f l2) ++ ps); [rewrite <- app_assoc; apply Permutation_refl|].
  apply Permutation_trans with ((f x ++ concat (map f l1)) ++ concat (map f l2) ++ ps); [|rewrite <- app_assoc; apply Permutation_refl].
  apply Permutation_app_tail, Permutation_app_comm.
Qed.
Lemma loadCache_owns m0 m k ps o : sizedLoad o -> Forall (Forall nodeOK) (knodes k) -> owns m0 m (cacheBlocks k ++ ps) ->
  exists m' k', loadCache m k o = Some (m', k') /\ kblock k' = kblock k /\ Forall (Forall nodeOK) (knodes k') /\ owns m0 m' (cacheBlocks k' ++ ps).
Proof.
  intros Hs HF H. destruct o as [i j w okNode]. cbn [loadCache]. specialize (Hs _ _ _ _ eq_refl).
  destruct (nth_error (knodes k) i) as [nodes|] eqn:Ei; [|exists m, k; auto].
  destruct (nth_error nodes j) as [d|] eqn:Ej; [|exists m, k; auto].
  pose proof (proj1 (Forall_forall _ _) HF nodes (nth_error_In _ _ Ei)) as Hn.
  pose proof (proj1 (Forall_forall _ _) Hn d (nth_error_In _ _ Ej)) as Hd.
  assert (forall d', exists rest, (forall m, owns m0 m (cacheBlocks k ++ ps) -> owns m0 m (nodeBlocks d ++ rest)) /\
    (forall m, owns m0 m (nodeBlocks d' ++ rest) -> owns m0 m (cacheBlocks (mkCache (kblock k) (put (knodes k) i (put nodes j d'))) ++ ps))) as HR.
  { intros d'. destruct (put_split nodes j d d' Ej) as (n1 & n2 & En & Ep). destruct (put_split _ i nodes (put nodes j d') Ei) as (s1 & s2 & Es & Eq).
    exists (nodesBlocks n1 ++ nodesBlocks n2 ++ shardsBlocks s1 ++ shardsBlocks s2 ++ ps). unfold cacheBlocks. cbn [knodes]. rewrite Eq, Es, Ep.
    assert (forall x, Permutation (shardsBlocks (s1 ++ (n1 ++ x :: n2) :: s2) ++ ps) (nodeBlocks x ++ nodesBlocks n1 ++ nodesBlocks n2 ++ shardsBlocks s1 ++ shardsBlocks s2 ++ ps)) as P.
    { intros x. unfold shardsBlocks at 1. eapply Permutation_trans; [apply blocks_split|].
      apply (blocks_split nodeBlocks n1 x n2 (shardsBlocks s1 ++ shardsBlocks s2 ++ ps)). }
    split; intros m2 H2; (eapply owns_perm; [|exact H2]).
    - rewrite En. apply P.
    - apply Permutation_sym, P. }
  destruct (HR d) as (rest0 & R0 & _). 
  destruct (loaderCache_owns m0 m d rest0 w okNode Hs Hd (R0 _ H)) as (m1 & d1 & E1 & Hd1 & _).
  destruct (HR d1) as (rest & R1 & R2).
  destruct (loaderCache_owns m0 m d rest w okNode Hs Hd (R1 _ H)) as (m2 & d2 & E2 & Hd2 & H2).
  rewrite E1 in E2. injection E2 as <- <-. rewrite E1. do 2 eexists. split; [reflexivity|]. split; [reflexivity|].
  split; [|apply R2; exact H2]. cbn [knodes]. apply Forall_forall. intros l Hl. apply put_in in Hl as [->|Hl].
  - apply Forall_forall. intros x Hx. apply put_in in Hx as [->|Hx]; [exact Hd1|]. now apply (proj1 (Forall_forall _ _) Hn).
  - now apply (proj1 (Forall_forall _ _) HF).
Qed.
Lemma loadBase_owns m0 m b z ps o : sizedLoad o -> baseOK b -> owns m0 m (baseBlocks b z ++ ps) ->
  exists m' b', loadBase m b o = Some (m', b') /\ baseOK b' /\ owns m0 m' (baseBlocks b' z ++ ps).
Proof.
  intros Hs HB H. destruct b as [cs|cs [f|] [k|]]; cbn [baseOK] in HB; try contradiction.
  - exists m, (BFile cs). auto.
  - cbn [loadBase]. cbn [baseBlocks] in H.
    destruct (loadCache_owns m0 m k (csBlocks f ++ (kblock k, z) :: csBlocks cs ++ ps) o Hs HB) as (m1 & k1 & -> & Ek & HF & H1).
    { eapply owns_perm; [|exact H]. rewrite <- !app_assoc. cbn [app]. rewrite !app_assoc. apply Permutation_app; [apply Permutation_app_comm|apply Permutation_refl]. }
    do 2 eexists. split; [reflexivity|]. split; [exact HF|]. cbn [baseBlocks]. rewrite Ek.
    eapply owns_perm; [|exact H1]. rewrite <- !app_assoc. cbn [app]. rewrite !app_assoc. apply Permutation_app; [apply Permutation_app_comm|apply Permutation_refl].
Qed.
Lemma loadColl_owns m0 m c zk zb o : sizedLoad o -> collOK c -> owns m0 m (collBlocks c zk zb) ->
  exists m' c', loadColl m c o = Some (m', c') /\ collOK c' /\ owns m0 m' (collBlocks c' zk zb).
Proof.
  intros Hs HC H. destruct c as [b|cs t [b|]]; cbn [collOK collBlocks loadColl] in *.
  - rewrite <- (app_nil_r (baseBlocks b zk)) in H. destruct (loadBase_owns _ _ _ _ _ _ Hs HC H) as (m1 & b1 & -> & HB & H1).
    do 2 eexists. split; [reflexivity|]. split; [exact HB|]. rewrite app_nil_r in H1. exact H1.
  - destruct (loadBase_owns _ _ _ _ _ _ Hs HC H) as (m1 & b1 & -> & HB & H1). do 2 eexists. split; [reflexivity|]. auto.
  - exists m, (Memory cs t None). auto.
Qed.
Lemma loads_owns m0 zk zb os : (forall o, In o os -> sizedLoad o) -> forall m c, collOK c -> owns m0 m (collBlocks c zk zb) ->
  exists m' c', loads m c os = Some (m', c') /\ collOK c' /\ owns m0 m' (collBlocks c' zk zb).
Proof.
  induction os as [|o os IH]; intros Hs m c HC H; cbn [loads]; [eauto|].
  destruct (loadColl_owns m0 m c zk zb o (Hs o (or_introl eq_refl)) HC H) as (m1 & c1 & -> & HC1 & H1).
  apply IH; auto. intros o' Ho. apply Hs. now right.
Qed.

(* ---- collections in memory ---- *)
Lemma memory_owns m0 m ps ok synced : owns m0 m ps ->
  (forall m' r, CreateFromMemory m ok synced = Some (m', r) ->
     match r with
     | Some c => exists cs, c = Memory cs None None /\ owns m0 m' (csBlocks cs ++ ps)
     | None => owns m0 m' ps
     end) /\
  (ok MemColl = true -> ok MemState = true -> CreateFromMemory m ok synced <> None).
Proof.
  intros H. unfold CreateFromMemory. destruct synced.
  2:{ split; [|discriminate]. intros m' r E. injection E as <- <-. exact H. }
  destruct (createCollection_owns m0 m ps (ok MemColl) (ok MemState) H) as (m1 & [cs|] & -> & H1 & H1').
  2:{ split; [discriminate|]. intros A B. now specialize (H1' A B). }
  destruct (ok Advance).
  - split; [|discriminate]. intros m' r E. injection E as <- <-. eauto.
  - cbn [freeMemoryCollection]. unfold freeMemoryCollection. destruct (freeCollection_owns _ _ _ _ H1) as (m2 & -> & H2).
    split; [|discriminate]. intros m' r E. injection E as <- <-. exact H2.
Qed.
Lemma memoryOnly_owns m ok h : older m ->
  (forall m' r, CreateFromFileMemoryOnly m ok h = Some (m', r) ->
     match r with
     | Some c => collOK c /\ owns (live m) m' (collBlocks c 0 (hlength h))
     | None => live m' = live m
     end) /\
  (ok MemColl = true -> ok MemState = true -> CreateFromFileMemoryOnly m ok h <> None).
Proof.
  intros Ho. pose proof (owns_start m Ho) as H. unfold CreateFromFileMemoryOnly. destruct (ok MemBytes).
  2:{ split; [|discriminate]. intros m' r E. injection E as <- <-. reflexivity. }
  destruct (alloc m (hlength h)) as [m1 b] eqn:E1. pose proof (owns_alloc _ _ _ _ _ _ H E1) as H1.
  destruct (owns_free _ _ _ _ _ H1) as (m2 & E2 & H2). destruct (ok MemSeek).
  2:{ rewrite E2. split; [|discriminate]. intros m' r E. injection E as <- <-. now apply owns_end. }
  rewrite (owns_write _ _ _ _ _ (hlength h) H1 (or_introl eq_refl)) by lia.
  destruct (ok MemRead).
  2:{ rewrite E2. split; [|discriminate]. intros m' r E. injection E as <- <-. now apply owns_end. }
  destruct (memory_owns (live m) m1 _ ok true H1) as (A & B).
  destruct (CreateFromMemory m1 ok true) as [(m3, [c|])|].
  - destruct (A _ _ eq_refl) as (cs & -> & H3). split; [|discriminate]. intros m' r E. injection E as <- <-. split; [exact I|].
    cbn [collBlocks toFreeBlocks app]. eapply owns_perm; [|exact H3]. apply Permutation_app_comm.
  - specialize (A _ _ eq_refl). cbn in A. destruct (owns_free _ _ _ _ _ A) as (m4 & -> & H4). split; [|discriminate].
    intros m' r E. injection E as <- <-. now apply owns_end.
  - split; [discriminate|exact B].
Qed.

(* ---- nothing fails ---- *)
Lemma readable_sized w : readable w -> sized w.
Proof. intros (b & -> & Hb) b' a c E. injection E as <- _ _. exact Hb. Qed.
Lemma getFile_readable m w : readable w -> exists m' it p, getFile m (mkItem DataReset None) w = Some (m', it, Some p).
Proof.
  intros (b & -> & Hb). cbn [getFile idata]. unfold DataMalloc, DataReset. cbn [allocated ptr Z.ltb Z.compare andb Z.eqb].
  unfold write. cbn [live sizeOf]. rewrite Nat.eqb_refl. destruct (Z.leb_spec b b); [|lia]. eauto.
Qed.
Lemma iterate_fine ways size : (forall i, readable (ways i)) -> forall n m it i next total m' k t f,
  (it = None \/ it = Some (mkItem DataReset None)) ->
  iterate m it ways size n i next total = Some (m', k, t, f) -> f = true.
Proof.
  intros Hw. induction n as [|n IH]; intros m it i next total m' k t f Hit E; cbn [iterate] in E.
  - destruct (Z.ltb next size).
    + replace (match it with Some it => it | None => mkItem DataReset None end) with (mkItem DataReset None) in E by (destruct Hit as [-> | ->]; auto).
      destruct (getFile_readable m (ways i) (Hw i)) as (m1 & it1 & p & E1). rewrite E1 in E.
      destruct (releaseFile m1 it1) as [(m2, it2)|]; [|discriminate]. now injection E.
    + destruct it as [it|]; [|discriminate]. destruct (releaseFile m it) as [(m2, it2)|]; [|discriminate]. now injection E.
  - destruct (Z.ltb next size).
    + replace (match it with Some it => it | None => mkItem DataReset None end) with (mkItem DataReset None) in E by (destruct Hit as [-> | ->]; auto).
      destruct (getFile_readable m (ways i) (Hw i)) as (m1 & it1 & p & E1).
      assert (it1 = mkItem (mkData (Some p) (usedOf (ways i))) (Some p)) as ->.
      { destruct (Hw i) as (b & Eb & Hb). rewrite Eb in E1 |- *. cbn [getFile idata usedOf] in E1 |- *. unfold DataMalloc, DataReset in E1.
        cbn [allocated ptr Z.ltb Z.compare andb Z.eqb] in E1. unfold write in E1. cbn [live sizeOf] in E1. rewrite Nat.eqb_refl in E1.
        destruct (Z.leb_spec b b); [|lia]. rewrite Z.mod_small in E1 by lia. injection E1 as _ <- <-. reflexivity. }
      rewrite E1 in E. unfold releaseFile in E. cbn [ihandle] in E.
      destruct (free m1 p) as [m2|]; [|destruct n; discriminate].
      destruct n as [|n']; [now injection E|]. eapply IH; [|exact E]. auto.
    + destruct it as [it|]; [|discriminate]. destruct (releaseFile m it) as [(m2, it2)|]; [|discriminate]. now injection E.
Qed.
Lemma createCollection_some m a b m' r : createCollection m a b = Some (m', r) -> a = true -> b = true -> r <> None.
Proof. unfold createCollection. intros E -> ->. destruct (alloc m _), (alloc _ _). injection E as _ <-. discriminate. Qed.
Lemma createFromFile_some m ok p m' r : (forall c, ok c = true) -> createFromFile m ok p = Some (m', r) -> r <> None.
Proof.
  intros Hk. unfold createFromFile. destruct (createCollection m _ _) as [(m1, [cs|])|]; try discriminate. rewrite Hk.
  intros E. injection E as _ <-. discriminate.
Qed.
Lemma second_some m ok cap conc m' r : (forall c, ok c = true) -> cacheAllowed cap conc ->
  createFromFileSecond m ok cap conc = Some (m', r) -> r <> None.
Proof.
  intros Hk Hc. unfold createFromFileSecond. rewrite Hk.
  destruct (Z.ltb_spec 0 cap) as [H1|H1]; cbn [andb]; [destruct (Z.ltb_spec 0 conc) as [H2|H2]|].
  - unfold createFromFileCached. destruct (createCollection m _ _) as [(m1, [cs|])|]; try discriminate.
    destruct (createFromFile m1 ok Loader) as [(m2, [f|])|] eqn:E; try discriminate.
    + unfold CacheCreate. specialize (Hc H1 H2). destruct (Z.eqb_spec conc 0); [lia|]. destruct (Z.ltb_spec (cap / conc) conc); [lia|]. cbn [orb].
      rewrite Hk. destruct (alloc m2 _). intros E'. injection E' as _ <-. discriminate.
    + now apply createFromFile_some in E.
  - destruct (createFromFile m ok Plain) as [(m2, [f|])|] eqn:E; try discriminate; [intros E'; injection E' as _ <-; discriminate|].
    now apply createFromFile_some in E.
  - destruct (createFromFile m ok Plain) as [(m2, [f|])|] eqn:E; try discriminate; [intros E'; injection E' as _ <-; discriminate|].
    now apply createFromFile_some in E.
Qed.
Lemma create_some m ok h cfg ways m' r : (forall c, ok c = true) -> (forall i, readable (ways i)) ->
  cacheAllowed (capacity cfg) (concurrency cfg) -> CreateFromFile m ok h cfg ways = Some (m', r) -> r <> None.
Proof.
  intros Hk Hw Hc. unfold CreateFromFile. destruct (Z.ltb 0 (loaded cfg)).
  - destruct (createFromFilePartial m ok h (loaded cfg) ways) as [(m1, [[[[cs b] count] size]|])|] eqn:E; try discriminate.
    + destruct (_ && _).
      * destruct (createFromFileSecond m1 ok (capacity cfg) (concurrency cfg)) as [(m2, [n|])|] eqn:E2; try discriminate.
        -- intros E'. injection E' as _ <-. discriminate.
        -- now apply second_some in E2.
      * intros E'. injection E' as _ <-. discriminate.
    + exfalso. unfold createFromFilePartial in E. destruct (createFromFile m ok Source) as [(m2, [f|])|] eqn:E2; try discriminate.
      2:{ now apply createFromFile_some in E2. }
      destruct (createCollection m2 _ _) as [(m3, [cs|])|]; try discriminate.
      destruct (calculateLoadedSize m3 h (loaded cfg) ways) as [[[[m4 c] size] fine]|] eqn:E3; try discriminate.
      assert (fine = true) as ->.
      { unfold calculateLoadedSize in E3. destruct (negb _); [now injection E3|]. destruct (Z.ltb _ _); [now injection E3|].
        destruct (iterate m3 None ways (hlength h) (Z.to_nat (loaded cfg)) 0 0 0) as [[[[m5 k] t] f']|] eqn:E4; [|discriminate].
        injection E3 as _ _ _ <-. apply (iterate_fine ways _ Hw _ _ _ _ _ _ _ _ _ _ (or_introl eq_refl) E4). }
      rewrite !Hk in E. destruct (alloc m4 size) as [m5 b]. destruct (write m5 b size) as [m6|]; [|discriminate].
      destruct (freeCollection m6 f); discriminate.
  - destruct (createFromFileSecond m ok (capacity cfg) (concurrency cfg)) as [(m2, [n|])|] eqn:E2; try discriminate.
    + intros E'. injection E' as _ <-. discriminate.
    + now apply second_some in E2.
Qed.
