(* C96, C97: the memory of collections from creation to freeing. *)
From Verif Require Import ItemModel LifeModel LifeSpec LifeProofs.
Local Open Scope Z_scope.

(* ---- the examples: a collection of 12 bytes, two items loaded, the others
   read through a cache ---- *)
Definition exHeap : mem := mkMem 7 [(3%nat, 40)].
Definition exConfig : config := mkConfig 2 5 2.
Definition exWays (i : nat) : way := Try 4 true true.
Definition allOk (c : call) : bool := true.
Definition failing (c0 : call) (c : call) : bool :=
  match c0, c with
  | MemRead, MemRead | CacheMem, CacheMem | SecondSeek, SecondSeek | MemColl, MemColl | Advance, Advance => false
  | FileSkip Source, FileSkip Source | FileSkip Loader, FileSkip Loader | FileColl Plain, FileColl Plain => false
  | _, _ => true
  end.
Lemma exHeap_older : older exHeap.
Proof. intros p n [E|[]]. injection E as <- <-. cbn. lia. Qed.
Lemma exWays_sized i : readable (exWays i).
Proof. exists 4. split; [reflexivity|lia]. Qed.

(* C96.  A collection that was created can be freed whatever was loaded by its
   cache meanwhile: every block is live when it is freed, none is left. *)
Theorem collection_freed : forall m ok h cfg ways m1 c os,
  older m -> (forall i, sized (ways i)) -> (forall o, In o os -> sizedLoad o) ->
  CreateFromFile m ok h cfg ways = Some (m1, Some c) ->
  exists m2 c2 m3, loads m1 c os = Some (m2, c2) /\ freeColl m2 c2 = Some m3 /\ live m3 = live m.
Proof.
  intros m ok h cfg ways m1 c os Ho Hw Hs E. destruct (create_owns m ok h cfg ways Ho Hw) as (A & _).
  destruct (A _ _ E) as (zk & zb & HC & H1). destruct (loads_owns _ _ _ os Hs _ _ HC H1) as (m2 & c2 & E2 & HC2 & H2).
  rewrite <- (app_nil_r (collBlocks c2 zk zb)) in H2. destruct (freeColl_owns _ _ _ _ _ _ HC2 H2) as (m3 & E3 & H3).
  exists m2, c2, m3. split; [exact E2|]. split; [exact E3|]. now apply owns_end.
Qed.
Print Assumptions collection_freed.
(* nodes grow, loads fail at each step *)
Definition exLoads : list load :=
  [Load 0 0 (Try 4 true true) true; Load 0 0 (Try 9 true true) true; Load 1 2 (Try 3 true false) true;
   Load 1 1 Early true; Load 0 2 (Try 5 true true) true; Load 0 0 (Try 12 true true) false; Load 1 0 (Try 2 true true) true].
Example collection_freed_case :
  (forall o, In o exLoads -> sizedLoad o) /\
  exists m1 c m2 c2 m3, CreateFromFile exHeap allOk (mkHeader 0 12) exConfig exWays = Some (m1, Some c) /\
  length (live m1) = 9%nat /\ loads m1 c exLoads = Some (m2, c2) /\ length (live m2) = 11%nat /\ freeColl m2 c2 = Some m3 /\ live m3 = [(3%nat, 40)].
Proof.
  split.
  - intros o Ho i j w k -> b a r ->. cbn in Ho.
    repeat (destruct Ho as [Ho|Ho]; [try discriminate; injection Ho; intros; subst; lia|]). contradiction.
  - do 5 eexists. split; [vm_compute; reflexivity|]. split; [reflexivity|]. split; [vm_compute; reflexivity|]. repeat split; vm_compute; reflexivity.
Qed.

(* C96.  A creation that fails leaves no memory, provided that the cache, if
   one is to be made, could be made. *)
Theorem collection_refused : forall m ok h cfg ways m1,
  older m -> (forall i, sized (ways i)) ->
  CreateFromFile m ok h cfg ways = Some (m1, None) ->
  ok CacheMem = true -> cacheAllowed (capacity cfg) (concurrency cfg) -> live m1 = live m.
Proof. intros m ok h cfg ways m1 Ho Hw E. destruct (create_owns m ok h cfg ways Ho Hw) as (A & _). exact (A _ _ E). Qed.
Print Assumptions collection_refused.
Example collection_refused_case :
  cacheAllowed 5 2 /\
  CreateFromFile exHeap (failing MemRead) (mkHeader 0 12) exConfig exWays = Some (mkMem 14 [(3%nat, 40)], None) /\
  CreateFromFile exHeap (failing SecondSeek) (mkHeader 3 12) exConfig exWays = Some (mkMem 12 [(3%nat, 40)], None) /\
  CreateFromFile exHeap (failing (FileSkip Loader)) (mkHeader 3 12) exConfig exWays = Some (mkMem 16 [(3%nat, 40)], None) /\
  CreateFromFile exHeap allOk (mkHeader 0 12) exConfig (fun i => match i with O => Try 4 true true | _ => Try 5 true false end) =
    Some (mkMem 13 [(3%nat, 40)], None).
Proof. split; [intros _ _; cbn; lia|]. repeat split; vm_compute; reflexivity. Qed.

(* C96.  When nothing fails and the settings allow the cache the collection is
   created. *)
Theorem collection_created : forall m ok h cfg ways,
  older m -> (forall c, ok c = true) -> (forall i, readable (ways i)) ->
  cacheAllowed (capacity cfg) (concurrency cfg) ->
  exists m1 c, CreateFromFile m ok h cfg ways = Some (m1, Some c).
Proof.
  intros m ok h cfg ways Ho Hk Hw Hc. destruct (create_owns m ok h cfg ways Ho (fun i => readable_sized _ (Hw i))) as (_ & B).
  destruct (CreateFromFile m ok h cfg ways) as [(m1, [c|])|] eqn:E.
  - eauto.
  - now apply create_some in E.
  - exfalso. apply B; [|reflexivity]. repeat split; apply Hk.
Qed.
Print Assumptions collection_created.
Example collection_created_case : cacheAllowed 0 0 /\
  CreateFromFile exHeap allOk (mkHeader 3 12) (mkConfig 0 0 0) exWays =
    Some (mkMem 9 [(8%nat, 32); (7%nat, 56); (3%nat, 40)], Some (Base (BFile (7%nat, 8%nat)))).
Proof. split; [intros H; lia|]. reflexivity. Qed.

(* C96.  The behaviour is defined as long as the allocations the code does not
   test and the first skip of the file succeed. *)
Theorem collection_defined : forall m ok h cfg ways,
  older m -> (forall i, sized (ways i)) -> trusted ok -> CreateFromFile m ok h cfg ways <> None.
Proof. intros m ok h cfg ways Ho Hw. destruct (create_owns m ok h cfg ways Ho Hw) as (_ & B). exact B. Qed.
Print Assumptions collection_defined.
Example collection_defined_case : trusted (failing MemRead) /\ trusted (failing CacheMem) /\ trusted (failing (FileSkip Loader)) /\ ~ trusted (failing MemColl).
Proof.
  assert (forall c, (forall p, failing c (FileColl p) = true /\ failing c (FileState p) = true) /\
    failing c MemColl = true /\ failing c MemState = true /\ failing c CacheColl = true /\ failing c CacheState = true /\
    failing c (FileSkip Source) = true -> trusted (failing c)) as H by (intros c Hc; exact Hc).
  split; [|split; [|split]]; [apply H|apply H|apply H|intros (_ & T & _); discriminate].
  all: split; [intros p; split; [destruct p; reflexivity|reflexivity]|repeat split; reflexivity].
Qed.

(* C96 refuted.  A cache that cannot be made - settings refused or no memory -
   leaks the collection made for it. *)
Theorem collection_cache_leak_refuted :
  CreateFromFile exHeap allOk (mkHeader 3 12) (mkConfig 0 1 2) exWays =
    Some (mkMem 11 [(10%nat, 32); (9%nat, 56); (3%nat, 40)], None) /\
  CreateFromFile exHeap (failing CacheMem) (mkHeader 3 12) (mkConfig 0 5 2) exWays =
    Some (mkMem 11 [(10%nat, 32); (9%nat, 56); (3%nat, 40)], None).
Proof. split; reflexivity. Qed.
Print Assumptions collection_cache_leak_refuted.
(* C96 refuted.  No memory for a collection, or a failed skip before a part is
   loaded, is undefined behaviour instead of NULL. *)
Theorem collection_null_used_refuted :
  CreateFromFile exHeap (failing (FileColl Plain)) (mkHeader 3 12) (mkConfig 0 0 0) exWays = None /\
  CreateFromFile exHeap (failing MemColl) (mkHeader 3 12) (mkConfig 2 0 0) exWays = None /\
  CreateFromFile exHeap (failing (FileSkip Source)) (mkHeader 3 12) (mkConfig 2 0 0) exWays = None.
Proof. repeat split; reflexivity. Qed.
Print Assumptions collection_null_used_refuted.

(* C96.  The block of a cache is as large as the cache, its shards and their nodes
   together, and each shard has a node for every thread. *)
Theorem cache_room : forall m capacity conc okMem m1 k,
  0 <= capacity -> 0 <= conc -> CacheCreate m capacity conc okMem = (m1, Some k) ->
  sizeOf (live m1) (kblock k) = Some (1 + Z.of_nat (length (knodes k)) + Z.of_nat (length (concat (knodes k)))) /\
  Z.of_nat (length (knodes k)) = conc /\ Forall (fun s => conc <= Z.of_nat (length s)) (knodes k).
Proof.
  intros m capacity conc okMem m1 k Hc Hn E. unfold CacheCreate in E. destruct (Z.eqb_spec conc 0) as [|Nz]; [discriminate|]. destruct (Z.ltb_spec (capacity / conc) conc) as [|G]; [discriminate|].
  destruct okMem; [|discriminate]. cbn [orb] in E. unfold LifeModel.alloc in E.
  set (z := 1 + conc * (1 + Z.of_nat (Z.to_nat (capacity mod conc + capacity / conc)))) in E. assert (Ez : z = 1 + conc * (1 + Z.of_nat (Z.to_nat (capacity mod conc + capacity / conc)))) by reflexivity. clearbody z.
  injection E as <- <-. cbn [kblock knodes live sizeOf]. rewrite Nat.eqb_refl.
  pose proof (Z.mod_pos_bound capacity conc ltac:(lia)) as B. set (slots := Z.to_nat (capacity mod conc + capacity / conc)).
  assert (L : forall n, length (concat (repeat (repeat DataReset slots) n)) = (n * slots)%nat) by (induction n as [|n IH]; [reflexivity|]; cbn [repeat concat]; rewrite app_length, repeat_length, IH; reflexivity).
  rewrite L, repeat_length. split; [apply f_equal; rewrite Ez, Nat2Z.inj_mul, (Z2Nat.id conc) by lia; unfold slots; ring|]. split; [lia|]. apply Forall_forall. intros x Hx. apply repeat_spec in Hx. subst x. rewrite repeat_length. unfold slots. lia.
Qed.
Print Assumptions cache_room.
Example cache_room_case : exists m1 k, CacheCreate exHeap 5 2 true = (m1, Some k) /\ length (knodes k) = 2%nat /\ length (concat (knodes k)) = 6%nat.
Proof. do 2 eexists. split; [reflexivity|]. split; reflexivity. Qed.

(* C97.  Collections in memory: freed with the bytes they were read into, if
   these are theirs; nothing is left when the creation fails. *)
Theorem memory_collection_freed : forall m ok synced m1 r,
  older m -> CreateFromMemory m ok synced = Some (m1, r) ->
  match r with
  | Some c => exists m2, freeColl m1 c = Some m2 /\ live m2 = live m
  | None => live m1 = live m
  end.
Proof.
  intros m ok synced m1 r Ho E. destruct (memory_owns (live m) m [] ok synced (owns_start m Ho)) as (A & _).
  specialize (A _ _ E). destruct r as [c|]; [|now apply owns_end]. destruct A as (cs & -> & H).
  destruct (freeColl_owns (live m) m1 (Memory cs None None) 0 0 [] I) as (m2 & E2 & H2); [cbn [collBlocks toFreeBlocks app]; exact H|].
  exists m2. split; [exact E2|]. now apply owns_end.
Qed.
Print Assumptions memory_collection_freed.
Theorem memory_only_collection_freed : forall m ok h m1 r,
  older m -> CreateFromFileMemoryOnly m ok h = Some (m1, r) ->
  match r with
  | Some c => exists m2, freeColl m1 c = Some m2 /\ live m2 = live m
  | None => live m1 = live m
  end.
Proof.
  intros m ok h m1 r Ho E. destruct (memoryOnly_owns m ok h Ho) as (A & _). specialize (A _ _ E). destruct r as [c|]; [|exact A].
  destruct A as (HC & H). rewrite <- (app_nil_r (collBlocks c 0 (hlength h))) in H.
  destruct (freeColl_owns _ _ _ _ _ _ HC H) as (m2 & E2 & H2). exists m2. split; [exact E2|]. now apply owns_end.
Qed.
Print Assumptions memory_only_collection_freed.
(* with enough memory both are defined *)
Theorem memory_collection_defined : forall m ok synced h,
  older m -> ok MemColl = true -> ok MemState = true ->
  CreateFromMemory m ok synced <> None /\ CreateFromFileMemoryOnly m ok h <> None.
Proof.
  intros m ok synced h Ho A B. split.
  - now apply (proj2 (memory_owns (live m) m [] ok synced (owns_start m Ho))).
  - now apply (proj2 (memoryOnly_owns m ok h Ho)).
Qed.
Print Assumptions memory_collection_defined.
Example memory_collection_case :
  CreateFromMemory exHeap allOk true = Some (mkMem 9 [(8%nat, 32); (7%nat, 56); (3%nat, 40)], Some (Memory (7%nat, 8%nat) None None)) /\
  CreateFromMemory exHeap (failing Advance) true = Some (mkMem 9 [(3%nat, 40)], None) /\
  CreateFromFileMemoryOnly exHeap allOk (mkHeader 3 12) =
    Some (mkMem 10 [(9%nat, 32); (8%nat, 56); (7%nat, 12); (3%nat, 40)], Some (Memory (8%nat, 9%nat) (Some 7%nat) None)) /\
  freeColl (mkMem 10 [(9%nat, 32); (8%nat, 56); (7%nat, 12); (3%nat, 40)]) (Memory (8%nat, 9%nat) (Some 7%nat) None) = Some (mkMem 10 [(3%nat, 40)]) /\
  CreateFromFileMemoryOnly exHeap (failing Advance) (mkHeader 3 12) = Some (mkMem 10 [(3%nat, 40)], None).
Proof. repeat split; reflexivity. Qed.
(* C97 refuted: no memory for the collection *)
Theorem memory_collection_null_refuted : CreateFromMemory exHeap (failing MemColl) true = None.
Proof. reflexivity. Qed.
Print Assumptions memory_collection_null_refuted.
