(* C12 - C16: collections (collection.c).  Histories are those of
   CollectionSpec.exec: every sequence of gets - with any index or offset and
   any failure of the file - and releases. *)
From Verif Require Import TreeModel CacheModel CacheSpec CollectionModel CollectionSpec CollectionProofs CollectionRun CollectionCreate CollectionProps SearchModel SearchSpec SearchProofs ItemModel ItemProofs.

(* ---- the examples' data: a file with three items between other bytes.  Items
   start with a byte giving the number of bytes that follow. *)
Definition exMem : heap := fun _ => Some (mk 0 0 0 true 7).
Definition exKind : kind := VarSize 1 (fun b => match b with [x] => (x + 1)%Z | _ => 0%Z end).
Definition exItems : list (list Z) := [[2; 50; 51]; [1; 60]; [3; 70; 71; 72]]%Z.
Definition exFile : list Z := ([99; 98] ++ concat exItems ++ [97; 96; 95; 94; 93; 92])%Z.
Definition exHeader : header := mkHd 2 9 0.
Lemma ex_region : regionOK exFile exKind exItems exHeader.
Proof.
  split; [|repeat split; cbn; auto; lia]. split; [lia|]. intros it [<-|[<-|[<-|[]]]]; cbn; auto; lia.
Qed.
Lemma ex_config l cap conc slots : (0 <= l < 2 ^ 32)%Z -> (0 <= cap < 2 ^ 32)%Z -> (0 <= conc < 2 ^ 16)%Z ->
  createShardCapacity cap conc = Some (Z.of_nat slots) -> TreeSpec.bound slots <= 20 ->
  configOK exMem 20 (FromFile l cap conc).
Proof.
  intros H1 H2 H3 Hs Hb. repeat split; try lia.
  - intros p _. discriminate.
  - rewrite Hs in H. injection H as H. apply Nat2Z.inj in H. now subst.
Qed.
(* the same in a collection of two byte items *)
Definition fxItems : list (list Z) := [[10; 11]; [20; 21]; [30; 31]]%Z.
Definition fxFile : list Z := ([99] ++ concat fxItems ++ [97; 96])%Z.
Definition fxHeader : header := mkHd 1 6 3.
Lemma fx_region : regionOK fxFile Fixed fxItems fxHeader.
Proof.
  split; [|repeat split; cbn; auto; lia]. exists 2. split; [lia|]. intros it [<-|[<-|[<-|[]]]]; reflexivity.
Qed.

(* C12.  Take any file with the items somewhere in it and any configuration:
   everything in memory; or any number of items loaded, any cache capacity and
   concurrency (zero: no cache).  After any history a get of the n-th item
   completes; if it returns an item its bytes are exactly those of the file;
   and unless the file fails it does return an item, the only exception being
   a cache whose slots for this item are all in use. *)
Theorem collection_get_returns_item :
  forall file k items h treeMem fuel cfg c0 tr c n it f,
  regionOK file k items h -> configOK treeMem fuel cfg -> created file k treeMem h cfg c0 ->
  exec file k fuel c0 tr c -> nth_error items n = Some it ->
  wellUsed tr c (Get (position k items n) f) ->
  exists e c', cstep file k fuel (Get (position k items n) f) c = Some (e, c') /\
  (forall acc s, e = EGot (position k items n) acc s -> firstn (length it) acc = it) /\
  (f = IoOk -> (exists acc s, e = EGot (position k items n) acc s) \/
     (e = ENull (position k items n) None None /\ hasCache c0 = true /\
      shardFull (concOf cfg) (slotsOf cfg) tr (position k items n))).
Proof.
  intros file k items h treeMem fuel cfg c0 tr c n it f HR HC Hcr He Hn Hw.
  destruct (exec_cinv _ _ _ _ _ HR _ _ _ _ _ _ (created_cinv _ _ _ _ _ HR _ _ _ HC Hcr) He) as (Hi & Hh).
  rewrite <- Hh. eapply get_item; eauto.
Qed.
Print Assumptions collection_get_returns_item.

(* C12.  Two collections over the same items, in any two configurations and
   after any two histories, return the same item bytes. *)
Theorem collection_configurations_agree :
  forall file k items h treeMem1 treeMem2 fuel1 fuel2 cfg1 cfg2 c1 c2 tr1 tr2 d1 d2 n it f1 f2 acc1 acc2 s1 s2 d1' d2',
  regionOK file k items h -> nth_error items n = Some it ->
  configOK treeMem1 fuel1 cfg1 -> created file k treeMem1 h cfg1 c1 -> exec file k fuel1 c1 tr1 d1 ->
  configOK treeMem2 fuel2 cfg2 -> created file k treeMem2 h cfg2 c2 -> exec file k fuel2 c2 tr2 d2 ->
  wellUsed tr1 d1 (Get (position k items n) f1) -> wellUsed tr2 d2 (Get (position k items n) f2) ->
  cstep file k fuel1 (Get (position k items n) f1) d1 = Some (EGot (position k items n) acc1 s1, d1') ->
  cstep file k fuel2 (Get (position k items n) f2) d2 = Some (EGot (position k items n) acc2 s2, d2') ->
  firstn (length it) acc1 = firstn (length it) acc2.
Proof.
  intros file k items h treeMem1 treeMem2 fuel1 fuel2 cfg1 cfg2 c1 c2 tr1 tr2 d1 d2 n it f1 f2 acc1 acc2 s1 s2 d1' d2'
    HR Hn A1 A2 A3 B1 B2 B3 W1 W2 E1 E2.
  destruct (collection_get_returns_item _ _ _ _ _ _ _ _ _ _ _ _ _ HR A1 A2 A3 Hn W1) as (e & c' & Q1 & Q2 & _).
  destruct (collection_get_returns_item _ _ _ _ _ _ _ _ _ _ _ _ _ HR B1 B2 B3 Hn W2) as (e' & c'' & R1 & R2 & _).
  rewrite Q1 in E1. injection E1 as -> _. rewrite R1 in E2. injection E2 as -> _.
  rewrite (Q2 _ _ eq_refl), (R2 _ _ eq_refl). reflexivity.
Qed.
Print Assumptions collection_configurations_agree.

(* C12: and the collection can be created *)
Theorem collection_create_succeeds :
  forall file k items h treeMem fuel cfg,
  regionOK file k items h -> configOK treeMem fuel cfg ->
  (0 < capOf cfg -> 0 < concOf cfg -> concOf cfg * concOf cfg <= capOf cfg /\
     (capOf cfg mod concOf cfg + capOf cfg / concOf cfg) * concOf cfg < 2 ^ 31)%Z ->
  exists c, created file k treeMem h cfg c.
Proof. intros. eapply create_total; eauto. Qed.
Print Assumptions collection_create_succeeds.

(* one item loaded, then a cache of one slot: a hit, a miss, an eviction, a get
   refused while the slot is in use, a failed seek *)
Example collection_example : exists c0 c,
  configOK exMem 20 (FromFile 1 1 1) /\ created exFile exKind exMem exHeader (FromFile 1 1 1) c0 /\
  exec exFile exKind 20 c0
    [ENull 3 (Some SEEK_FAIL) (Some (0, 0)%nat); ERel (0, 0)%nat; EGot 5 [3; 70; 71; 72]%Z (Some (0, 0)%nat); ERel (0, 0)%nat;
     ENull 5 None None; EGot 3 [1; 60]%Z (Some (0, 0)%nat); EGot 0 [2; 50; 51]%Z None] c.
Proof.
  destruct (CreateFromFile exFile exKind exMem exHeader 1 1 1) as [[c0|]|] eqn:Ec; [|vm_compute in Ec; discriminate..].
  exists c0.
  destruct (runC exFile exKind 20 [Get 0 IoOk; Get 3 IoOk; Get 5 IoOk; Release (0, 0)%nat; Get 5 IoOk; Release (0, 0)%nat; Get 3 IoSeek] [] c0)
    as [(tr, c)|] eqn:Er.
  - exists c. split; [apply (ex_config 1 1 1 1); try lia; [reflexivity|vm_compute; lia]|]. split; [exact Ec|].
    eapply runC_exec; [constructor|]. rewrite Er. vm_compute in Ec. injection Ec as <-. vm_compute in Er. injection Er as <- <-. reflexivity.
  - exfalso. vm_compute in Ec. injection Ec as <-. vm_compute in Er. discriminate.
Qed.

(* C13.  An index or offset beyond the end is always reported.  The status is
   the one for indexes or that for offsets as the kind of the collection
   demands - unless the collection is empty, when it may be the one for
   offsets, or the cache has no slot left, when no status is set. *)
Theorem collection_out_of_range :
  forall file k items h treeMem fuel cfg c0 tr c i f,
  regionOK file k items h -> configOK treeMem fuel cfg -> created file k treeMem h cfg c0 ->
  exec file k fuel c0 tr c -> outOfRange k items i -> wellUsed tr c (Get i f) ->
  exists st leak c', cstep file k fuel (Get i f) c = Some (ENull i st leak, c') /\
  (st = Some (rangeCode k) \/ (st = Some OFFSET_RANGE /\ items = []) \/
   (st = None /\ hasCache c0 = true /\ shardFull (concOf cfg) (slotsOf cfg) tr i)).
Proof.
  intros file k items h treeMem fuel cfg c0 tr c i f HR HC Hcr He Ho Hw.
  destruct (exec_cinv _ _ _ _ _ HR _ _ _ _ _ _ (created_cinv _ _ _ _ _ HR _ _ _ HC Hcr) He) as (Hi & Hh).
  rewrite <- Hh. eapply get_out; eauto.
Qed.
Print Assumptions collection_out_of_range.
(* an index of an empty collection in memory is reported as an offset *)
Theorem collection_empty_status_refuted :
  exists c, regionOK [] Fixed [] (mkHd 0 0 0) /\ created [] Fixed exMem (mkHd 0 0 0) InMemory c /\
  outOfRange Fixed [] 0 /\ wellUsed [] c (Get 0 IoOk) /\
  cstep [] Fixed 20 (Get 0 IoOk) c = Some (ENull 0 (Some OFFSET_RANGE) None, c).
Proof.
  eexists. split.
  { split; [exists 1; split; [lia|intros it []]|repeat split; cbn; lia]. }
  split; [reflexivity|]. repeat split; cbn; try lia.
Qed.
Print Assumptions collection_empty_status_refuted.

(* C13.  What can be read through a returned item lies in the collection's
   region: for fixed width collections whatever the index, for variable width
   collections when an item starts at the offset. *)
Theorem collection_get_inside_region :
  forall file k items h treeMem fuel cfg c0 tr c i f acc s c',
  regionOK file k items h -> configOK treeMem fuel cfg -> created file k treeMem h cfg c0 ->
  exec file k fuel c0 tr c -> wellUsed tr c (Get i f) ->
  k = Fixed \/ (exists n it, nth_error items n = Some it /\ i = position k items n) ->
  cstep file k fuel (Get i f) c = Some (EGot i acc s, c') -> inside items acc.
Proof.
  intros file k items h treeMem fuel cfg c0 tr c i f acc s c' HR HC Hcr He Hw Hk.
  destruct (exec_cinv _ _ _ _ _ HR _ _ _ _ _ _ (created_cinv _ _ _ _ _ HR _ _ _ HC Hcr) He) as (Hi & _).
  eapply get_inside; eauto.
Qed.
Print Assumptions collection_get_inside_region.

Example collection_out_of_range_example : exists c0 c,
  created fxFile Fixed exMem fxHeader (FromFile 1 4 2) c0 /\ configOK exMem 20 (FromFile 1 4 2) /\
  outOfRange Fixed fxItems 3 /\ outOfRange Fixed fxItems (2 ^ 32 - 1) /\
  exec fxFile Fixed 20 c0
    [EGot 2 [30; 31]%Z (Some (0, 0)%nat); ENull (2 ^ 32 - 1) (Some INDEX_RANGE) (Some (1, 1)%nat);
     ENull 3 (Some INDEX_RANGE) (Some (1, 0)%nat); EGot 0 [10; 11]%Z None] c.
Proof.
  destruct (CreateFromFile fxFile Fixed exMem fxHeader 1 4 2) as [[c0|]|] eqn:Ec; [|vm_compute in Ec; discriminate..].
  exists c0.
  destruct (runC fxFile Fixed 20 [Get 0 IoOk; Get 3 IoOk; Get (2 ^ 32 - 1) IoOk; Get 2 IoOk] [] c0) as [(tr, c)|] eqn:Er.
  - exists c. split; [exact Ec|]. split; [apply (ex_config 1 4 2 2); try lia; [reflexivity|vm_compute; lia]|].
    split; [cbn; lia|]. split; [cbn; lia|].
    eapply runC_exec; [constructor|]. rewrite Er. vm_compute in Ec. injection Ec as <-. vm_compute in Er. injection Er as <- <-. reflexivity.
  - exfalso. vm_compute in Ec. injection Ec as <-. vm_compute in Er. discriminate.
Qed.

(* C13 refuted for variable width items: nothing checks the size found at an
   offset against the collection's end.  Offset 7 is inside the collection but
   not where an item starts; its byte is taken for a size and the bytes read go
   past the end of the collection's region. *)
Definition badItems : list (list Z) := [[2; 50; 51]; [1; 60]; [3; 70; 4; 72]]%Z.
Definition badFile : list Z := ([99; 98] ++ concat badItems ++ [97; 96; 95; 94; 93; 92])%Z.
Theorem collection_get_outside_region_refuted :
  exists c0 c', regionOK badFile exKind badItems exHeader /\
  created badFile exKind exMem exHeader (FromFile 0 0 0) c0 /\ ~ outOfRange exKind badItems 7 /\
  wellUsed [] c0 (Get 7 IoOk) /\
  cstep badFile exKind 20 (Get 7 IoOk) c0 = Some (EGot 7 [4; 72; 97; 96; 95]%Z None, c') /\
  ~ inside badItems [4; 72; 97; 96; 95]%Z.
Proof.
  exists (File (createCollection exHeader) 2), (File (createCollection exHeader) 2). split.
  { split; [|repeat split; cbn; auto; lia]. split; [lia|]. intros it [<-|[<-|[<-|[]]]]; cbn; auto; lia. }
  split; [reflexivity|]. split; [cbn; lia|]. split; [split; [lia|discriminate]|]. split; [reflexivity|].
  intros (a & b & E). assert (In 97%Z (concat badItems)) as Hi by (rewrite E; apply in_or_app; right; apply in_or_app; left; cbn; auto).
  cbn in Hi. repeat destruct Hi as [Hi|Hi]; try discriminate. exact Hi.
Qed.
Print Assumptions collection_get_outside_region_refuted.

(* C14 refuted: a failed get leaves the cache's slot in use and hands nothing to
   the caller that it could release (collection.c 331-342).  With one slot, one
   failed get is enough: a later get of a valid item returns NULL - without an
   exception - although no item is held by any client. *)
Theorem collection_usable_after_failures_refuted :
  exists c0 c c', regionOK fxFile Fixed fxItems fxHeader /\
  configOK exMem 20 (FromFile 0 1 1) /\ created fxFile Fixed exMem fxHeader (FromFile 0 1 1) c0 /\
  exec fxFile Fixed 20 c0 [ENull 3 (Some INDEX_RANGE) (Some (0, 0)%nat)] c /\
  (forall s, holding [ENull 3 (Some INDEX_RANGE) (Some (0, 0)%nat)] s = 0) /\
  cstep fxFile Fixed 20 (Get 1 IoOk) c = Some (ENull 1 None None, c').
Proof.
  destruct (CreateFromFile fxFile Fixed exMem fxHeader 0 1 1) as [[c0|]|] eqn:Ec; [|vm_compute in Ec; discriminate..].
  exists c0.
  destruct (runC fxFile Fixed 20 [Get 3 IoOk] [] c0) as [(tr, c)|] eqn:Er.
  2:{ exfalso. vm_compute in Ec. injection Ec as <-. vm_compute in Er. discriminate. }
  exists c. destruct (cstep fxFile Fixed 20 (Get 1 IoOk) c) as [(e, c')|] eqn:Es.
  2:{ exfalso. vm_compute in Ec. injection Ec as <-. vm_compute in Er. injection Er as _ <-. vm_compute in Es. discriminate. }
  exists c'. split; [apply fx_region|]. split; [apply (ex_config 0 1 1 1); try lia; [reflexivity|vm_compute; lia]|].
  split; [exact Ec|]. split; [|split; [reflexivity|]].
  - eapply runC_exec; [constructor|]. rewrite Er. vm_compute in Ec. injection Ec as <-. vm_compute in Er. injection Er as <- <-. reflexivity.
  - vm_compute in Ec. injection Ec as <-. vm_compute in Er. injection Er as _ <-. vm_compute in Es. injection Es as <- _. reflexivity.
Qed.
Print Assumptions collection_usable_after_failures_refuted.

(* C14, what does hold: a get of an item succeeds, whatever failed before, as
   long as the items handed out and not released together with the earlier
   failed gets of the cache number less than the configured concurrency; without a
   cache always. *)
Theorem collection_get_succeeds_below_concurrency :
  forall file k items h treeMem fuel cfg c0 tr c n it,
  regionOK file k items h -> configOK treeMem fuel cfg -> created file k treeMem h cfg c0 ->
  exec file k fuel c0 tr c -> nth_error items n = Some it ->
  wellUsed tr c (Get (position k items n) IoOk) ->
  (hasCache c0 = true -> 0 < concOf cfg <= Z.of_nat (slotsOf cfg) /\ Z.of_nat (outstanding tr) < concOf cfg)%Z ->
  exists acc s c', cstep file k fuel (Get (position k items n) IoOk) c = Some (EGot (position k items n) acc s, c') /\
  firstn (length it) acc = it.
Proof.
  intros file k items h treeMem fuel cfg c0 tr c n it HR HC Hcr He Hn Hw Ho.
  destruct (collection_get_returns_item _ _ _ _ _ _ _ _ _ _ _ _ _ HR HC Hcr He Hn Hw) as (e & c' & Q1 & Q2 & Q3).
  destruct (Q3 eq_refl) as [(acc & s & ->)|(-> & Hh & Hf)]; [eauto 6|].
  exfalso. destruct (Ho Hh) as ((A & B) & C). eapply not_full; eauto.
Qed.
Print Assumptions collection_get_succeeds_below_concurrency.

(* two failed gets leave the collection (concurrency 3, 3 slots per shard) able to serve *)
Example collection_below_concurrency_example : exists c0 c,
  created fxFile Fixed exMem fxHeader (FromFile 0 9 3) c0 /\ configOK exMem 20 (FromFile 0 9 3) /\
  exec fxFile Fixed 20 c0 [ENull 0 (Some READ_FAIL) (Some (0, 0)%nat); ENull 7 (Some INDEX_RANGE) (Some (1, 0)%nat)] c /\
  hasCache c0 = true /\ slotsOf (FromFile 0 9 3) = 3 /\
  outstanding [ENull 0 (Some READ_FAIL) (Some (0, 0)%nat); ENull 7 (Some INDEX_RANGE) (Some (1, 0)%nat)] = 2.
Proof.
  destruct (CreateFromFile fxFile Fixed exMem fxHeader 0 9 3) as [[c0|]|] eqn:Ec; [|vm_compute in Ec; discriminate..].
  exists c0.
  destruct (runC fxFile Fixed 20 [Get 7 IoOk; Get 0 IoRead] [] c0) as [(tr, c)|] eqn:Er.
  - exists c. split; [exact Ec|]. split; [apply (ex_config 0 9 3 3); try lia; [reflexivity|vm_compute; lia]|]. split.
    + eapply runC_exec; [constructor|]. rewrite Er. vm_compute in Ec. injection Ec as <-. vm_compute in Er. injection Er as <- <-. reflexivity.
    + split; [|split; reflexivity]. vm_compute in Ec. now injection Ec as <-.
  - exfalso. vm_compute in Ec. injection Ec as <-. vm_compute in Er. discriminate.
Qed.

(* C15.  For every sequence sorted as far as the comparer can tell, and any
   bounds (upper not the largest 32 bit value), 33 rounds are enough: the search
   returns -1 exactly if no element between the bounds compares equal,
   otherwise the index of one that does.  Only items between the bounds are
   read.  Every item got is released before the next is got, except the one
   found, which is left with the caller. *)
Theorem binary_search_correct :
  forall (A : Type) (get : Z -> option A * bool) (cmp : A -> Z -> Z * bool) lower upper,
  (0 <= lower <= upper + 1)%Z -> (upper < 2 ^ 32 - 1)%Z ->
  (forall i, lower <= i <= upper -> exists r, cmpAt get cmp i = Some r)%Z ->
  sortedFor get cmp lower upper ->
  exists res tr, BinarySearch get cmp 33 lower upper = Some (res, true, tr) /\
  (forall i, In (SGet i) tr \/ In (SRelease i) tr -> lower <= i <= upper)%Z /\ length tr <= 64 /\
  ((res = -1 /\ paired tr = true /\ forall i, lower <= i <= upper -> cmpAt get cmp i <> Some 0)%Z \/
   ((lower <= res <= upper)%Z /\ cmpAt get cmp res = Some 0%Z /\ exists tr1, tr = SGet res :: tr1 /\ paired tr1 = true)).
Proof.
  intros A get cmp lower upper H1 H2 Ht Hs.
  destruct (search_step get cmp lower upper ltac:(lia) H2 Hs Ht 32 lower upper [] ltac:(lia) ltac:(lia) ltac:(lia))
    as (res & tr & E & B1 & B2 & B3); [cbn; lia|intros; lia|intros; lia|reflexivity|cbn; tauto|].
  exists res, tr. split; [exact E|]. split; [exact B1|]. split; [exact B2|].
  destruct B3 as [(B4 & B5 & B6)|B3]; [left|right; exact B3]. split; auto. split; auto.
  intros i Hi Ei. exact (B6 i 0%Z Hi Ei eq_refl).
Qed.
Print Assumptions binary_search_correct.

Definition keysGet (ks : list Z) (i : Z) : option Z * bool :=
  match nth_error ks (Z.to_nat i) with Some x => (Some x, true) | None => (None, false) end.
Definition keysCmp (key : Z) (x : Z) (_ : Z) : Z * bool := ((x - key)%Z, true).
Example binary_search_example :
  (forall i, 0 <= i <= 4 -> exists r, cmpAt (keysGet [2; 4; 4; 9; 12]) (keysCmp 9) i = Some r)%Z /\
  sortedFor (keysGet [2; 4; 4; 9; 12]%Z) (keysCmp 9) 0 4 /\
  BinarySearch (keysGet [2; 4; 4; 9; 12]%Z) (keysCmp 9) 33 0 4 = Some (3, true, [SGet 3; SRelease 2; SGet 2])%Z /\
  BinarySearch (keysGet [2; 4; 4; 9; 12]%Z) (keysCmp 1) 33 0 4 =
    Some (-1, true, [SRelease 1; SGet 1; SRelease 0; SGet 0; SRelease 2; SGet 2])%Z.
Proof.
  assert (forall i, 0 <= i <= 4 -> cmpAt (keysGet [2; 4; 4; 9; 12]) (keysCmp 9) i = Some (nth (Z.to_nat i) [2; 4; 4; 9; 12] 0 - 9))%Z as H.
  { intros i Hi. assert (i = 0 \/ i = 1 \/ i = 2 \/ i = 3 \/ i = 4)%Z as [-> |[-> |[-> |[-> | ->]]]] by lia; reflexivity. }
  split; [eauto|]. split; [|split; reflexivity].
  intros i j r s H1 H2 H3 Er Es. rewrite H in Er, Es by lia. injection Er as <-. injection Es as <-.
  assert (i = 0 \/ i = 1 \/ i = 2 \/ i = 3 \/ i = 4)%Z as Hi by lia.
  assert (j = 0 \/ j = 1 \/ j = 2 \/ j = 3 \/ j = 4)%Z as Hj by lia.
  destruct Hi as [-> |[-> |[-> |[-> | ->]]]]; destruct Hj as [-> |[-> |[-> |[-> | ->]]]]; try lia; vm_compute; split; intros; congruence.
Qed.

(* C16 refuted: when an item cannot be read the search returns 0, the index of
   the first item.  Only the exception tells the difference - and there is none
   if the cache had no free slot: here after one failed get of a collection with
   one slot the search for key 30, the third of three items, returns 0 without
   an exception. *)
Definition searchGet (file : list Z) (k : kind) (fuel : nat) (c : coll) (i : Z) : option (list Z) * bool :=
  match collGet file k fuel c IoOk i with
  | Some (EGot _ acc _, _) => (Some acc, true)
  | Some (ENull _ st _, _) => (None, match st with None => true | Some _ => false end)
  | _ => (None, false)
  end.
Definition firstByteCmp (key : Z) (acc : list Z) (_ : Z) : Z * bool := ((hd 0 acc - key)%Z, true).
Theorem binary_search_error_refuted :
  exists c0 c tr, created fxFile Fixed exMem fxHeader (FromFile 0 1 1) c0 /\
  exec fxFile Fixed 20 c0 [ENull 3 (Some INDEX_RANGE) (Some (0, 0)%nat)] c /\
  BinarySearch (searchGet fxFile Fixed 20 c0) (firstByteCmp 30) 33 2 2 = Some (2%Z, true, [SGet 2]) /\
  BinarySearch (searchGet fxFile Fixed 20 c) (firstByteCmp 30) 33 2 2 = Some (0%Z, true, tr).
Proof.
  destruct (CreateFromFile fxFile Fixed exMem fxHeader 0 1 1) as [[c0|]|] eqn:Ec; [|vm_compute in Ec; discriminate..].
  exists c0.
  destruct (runC fxFile Fixed 20 [Get 3 IoOk] [] c0) as [(tr, c)|] eqn:Er.
  2:{ exfalso. vm_compute in Ec. injection Ec as <-. vm_compute in Er. discriminate. }
  exists c, [SGet 2]. split; [exact Ec|]. split; [|split].
  - eapply runC_exec; [constructor|]. rewrite Er. vm_compute in Ec. injection Ec as <-. vm_compute in Er. injection Er as <- <-. reflexivity.
  - vm_compute in Ec. injection Ec as <-. vm_compute. reflexivity.
  - vm_compute in Ec. injection Ec as <-. vm_compute in Er. injection Er as _ <-. vm_compute. reflexivity.
Qed.
Print Assumptions binary_search_error_refuted.

(* C16, what does hold: if every failed get sets the exception, a result with
   the exception clear is right - an index within the bounds that compares
   equal, or -1.  No assumption on the order of the items. *)
Theorem binary_search_clear_exception :
  forall (A : Type) (get : Z -> option A * bool) (cmp : A -> Z -> Z * bool) fuel lower upper res tr,
  (forall i, fst (get i) = None -> snd (get i) = false) ->
  (0 <= lower)%Z -> (upper < 2 ^ 32 - 1)%Z ->
  BinarySearch get cmp fuel lower upper = Some (res, true, tr) ->
  res = (-1)%Z \/ (cmpAt get cmp res = Some 0%Z /\ (lower <= res <= upper)%Z).
Proof. intros. eapply search_clear; eauto. Qed.
Print Assumptions binary_search_clear_exception.

Example binary_search_clear_example :
  (forall i, fst (keysGet [2; 4; 9]%Z i) = None -> snd (keysGet [2; 4; 9]%Z i) = false) /\
  BinarySearch (keysGet [2; 4; 9]%Z) (keysCmp 9) 33 0 2 = Some (2, true, [SGet 2; SRelease 1; SGet 1])%Z /\
  BinarySearch (keysGet [2; 4; 9]%Z) (keysCmp 20) 33 0 5 = Some (0, false, [SGet 4; SRelease 2; SGet 2])%Z.
Proof.
  split; [|split; reflexivity]. intros i. unfold keysGet. destruct (nth_error _ _); [discriminate|reflexivity].
Qed.

(* C16.  A search that fails with an exception returns 0, which is an index
   too: the caller has to look at the exception.  All items got before were
   released; the last get is the one that failed or whose item could not be
   compared, and that item is not released. *)
Theorem binary_search_exception :
  forall (A : Type) (get : Z -> option A * bool) (cmp : A -> Z -> Z * bool) fuel lower upper res tr,
  BinarySearch get cmp fuel lower upper = Some (res, false, tr) ->
  res = 0%Z /\ exists i tr1, tr = SGet i :: tr1 /\ paired tr1 = true /\
    (snd (get i) = false \/ exists a, fst (get i) = Some a /\ snd (cmp a i) = false).
Proof. intros. eapply search_failed; [|eassumption]. reflexivity. Qed.
Print Assumptions binary_search_exception.
Example binary_search_exception_case :
  BinarySearch (keysGet [2; 4; 9]%Z) (keysCmp 20) 33 0 5 = Some (0, false, [SGet 4; SRelease 2; SGet 2])%Z /\
  BinarySearch (fun i => (Some i, Z.eqb i 2)) (fun _ _ => (1, true)%Z) 33 0 4 = Some (0, false, [SGet 0; SRelease 2; SGet 2])%Z.
Proof. split; reflexivity. Qed.

(* C16 refuted for the last index of all, 2^32 - 1: the lower bound wraps to 0
   and a search for something behind all items never ends. *)
Theorem binary_search_last_refuted :
  forall (A : Type) (get : Z -> option A * bool) (cmp : A -> Z -> Z * bool) lower,
  (forall i, exists a, get i = (Some a, true) /\ exists r, (r < 0)%Z /\ cmp a i = (r, true)) ->
  (0 <= lower <= 2 ^ 32 - 1)%Z -> forall steps, BinarySearch get cmp steps lower (2 ^ 32 - 1) = None.
Proof. intros A get cmp lower H Hl steps. now apply search_loops. Qed.
Print Assumptions binary_search_last_refuted.
Example binary_search_last_case :
  (forall i, exists a, (fun i : Z => (Some i, true)) i = (Some a, true) /\ exists r, (r < 0)%Z /\ (fun _ _ : Z => (-1, true)%Z) a i = (r, true)).
Proof. intros i. exists i. split; [reflexivity|]. exists (-1)%Z. split; [lia|reflexivity]. Qed.

(* C63 refuted: after a failed read the item still points at the memory that
   was freed (collection.c 1016 and 1080).  The next get with the same item
   writes to freed memory; if it needs more bytes it frees the memory twice. *)
Theorem item_reuse_after_failed_read_refuted :
  irun [IGet (Try 8 true false); IGet (Try 8 true true)] (mkMem 0 [], mkItem DataReset None) = None /\
  irun [IGet (Try 8 true false); IGet (Try 9 true true)] (mkMem 0 [], mkItem DataReset None) = None /\
  irun [IGet (Try 8 true false)] (mkMem 0 [], mkItem DataReset None) =
    Some (mkMem 1 [], mkItem (mkData (Some 0) 8) None).
Proof. repeat split. Qed.
Print Assumptions item_reuse_after_failed_read_refuted.

(* C63 refuted, leak: a failed get clears the handle of an item that holds
   memory, so its release frees nothing. *)
Theorem item_release_after_failed_get_refuted :
  irun [IGet (Try 8 true true); IGet Early; IRelease] (mkMem 0 [], mkItem DataReset None) =
    Some (mkMem 1 [(0, 8%Z)], mkItem (mkData (Some 0) 8) None).
Proof. reflexivity. Qed.
Print Assumptions item_release_after_failed_get_refuted.

(* C63, what does hold: for any sequence of gets and releases with one reset
   item in which no read fails after the memory was obtained, nothing undefined
   happens, all other memory is untouched, and the item never owns more than
   one block, the one it points to. *)
Theorem item_memory_safe :
  forall m0 f os, (forall q, In q (map fst m0) -> q < f) -> (forall o, In o os -> fine o) ->
  exists f' own it, irun os (mkMem f m0, mkItem DataReset None) = Some (mkMem f' (own ++ m0), it) /\
  (own = [] \/ exists p n, own = [(p, n)] /\ ptr (idata it) = Some p /\ allocated (idata it) = n /\ ~ In p (map fst m0)).
Proof.
  intros m0 f os Ha Hf. destruct (irun_fine m0 os (mkMem f m0) (mkItem DataReset None)) as (m' & it & E & Ho).
  - constructor. exact Ha.
  - exact Hf.
  - rewrite E. inversion Ho as [f' pt Ha'|f' p n h Ha' Hp Hpf Hn Hh]; subst.
    + exists f', [], (mkItem (mkData pt 0) None). auto.
    + exists f', [(p, n)], (mkItem (mkData (Some p) n) h). split; [reflexivity|]. right. exists p, n. auto.
Qed.
Print Assumptions item_memory_safe.

(* C63: and releasing the item after a successful get gives back all its memory,
   whatever happened before *)
Theorem item_release_frees_memory :
  forall m0 f os bytes m it, (forall q, In q (map fst m0) -> q < f) -> (forall o, In o os -> fine o) ->
  (0 < bytes < 2 ^ 32)%Z ->
  irun (os ++ [IGet (Try bytes true true); IRelease]) (mkMem f m0, mkItem DataReset None) = Some (m, it) ->
  live m = m0 /\ it = mkItem DataReset None.
Proof.
  intros m0 f os bytes m it Ha Hf Hb. rewrite irun_app.
  destruct (irun_fine m0 os (mkMem f m0) (mkItem DataReset None)) as (m1 & it1 & -> & Ho); [constructor; exact Ha|exact Hf|].
  cbn [irun istep fst snd]. intros HE.
  destruct (istep_fine m0 (IGet (Try bytes true true)) m1 it1 Ho) as (m2 & it2 & E2 & Ho2); [cbn; auto|].
  cbn [istep fst snd] in E2. destruct (getFile m1 it1 (Try bytes true true)) as [((m3, it3), r)|] eqn:Eg; [|discriminate].
  injection E2 as -> ->. cbn [fst snd] in HE.
  assert (exists p, ihandle it2 = Some p) as (p & Ep).
  { unfold getFile, DataMalloc in Eg. cbv zeta in Eg.
    destruct (Z.ltb 0 (allocated (idata it1)) && Z.ltb (allocated (idata it1)) bytes).
    - destruct (ptr (idata it1)); [|discriminate]. destruct (free m1 n); [|discriminate]. cbn [allocated Z.eqb] in Eg.
      destruct (write _ _ _); [|discriminate]. injection Eg as _ <- _; eexists; reflexivity.
    - inversion Ho as [f' pt Ha'|f' p n h Ha' Hp Hpf Hn Hh]; subst; cbn [idata allocated Z.eqb] in Eg.
      + destruct (write _ _ _); [|discriminate]. injection Eg as _ <- _; eexists; reflexivity.
      + destruct (Z.eqb_spec n 0); [lia|]. destruct (write _ _ _); [|discriminate]. injection Eg as _ <- _; eexists; reflexivity. }
  unfold releaseFile in HE. rewrite Ep in HE. inversion Ho2 as [f' pt Ha'|f' q n h Ha' Hp Hpf Hn Hh]; subst; [discriminate Ep|].
  cbn in Ep. subst h. destruct Hh as [Hh|Hh]; [discriminate|]. injection Hh as ->.
  unfold free in HE. cbn [live sizeOf fresh] in HE. rewrite Nat.eqb_refl, drop_self in HE by auto. injection HE as <- <-. auto.
Qed.
Print Assumptions item_release_frees_memory.

Example item_example :
  (forall o, In o [IGet (Try 4 true true); IGet (Try 16 false true); IGet (Try 8 true true); IGet (Try 3 true true); IGet Early; IGet (Try 5 true true); IRelease] -> fine o) /\
  irun [IGet (Try 4 true true); IGet (Try 16 false true); IGet (Try 8 true true); IGet (Try 3 true true); IGet Early; IGet (Try 5 true true); IRelease]
    (mkMem 3 [(0, 10%Z)], mkItem DataReset None) = Some (mkMem 5 [(0, 10%Z)], mkItem DataReset None).
Proof.
  split; [|reflexivity]. intros o Hi. cbn [In] in Hi. repeat destruct Hi as [<-|Hi]; cbn; auto; try lia.
Qed.
