(* memory.c, built for a 64 bit system without Windows or Apple (aligned_alloc)
   and with threads, so with 20 shards.  Each shard has its own tree (TreeModel);
   a record is a node of the tree with the size.  Pointers to tracked memory are
   integers 0..2^64-1; the pointers malloc returns are given with the call.
   Not modelled: a failed malloc of a record (an assert), two threads that call
   tryInit first at the same time. *)
From Verif Require Export TreeModel.

(* the size of the address space *)
Definition word : Z := 2 ^ 64.

(* memory.c:40-43 allocation: the tree nodes of a shard and the sizes behind them *)
Record Shard := mkShard { nodes : heap; sizes : ptr -> Z }.
(* memory.c:45-55 *)
Record Tracker := mkTracker { shards : list Shard; allocatedTotal : Z; maxTotal : Z; initialised : bool }.

Definition SHARDS : nat := 20. (* memory.c:29 *)
(* memory.c:36,92-102 getShardFromPointer: sizeof(void* ) * 3 is 24 *)
Definition getShardFromPointer (pointer : Z) : nat := Z.to_nat ((pointer / 24) mod 20).
(* memory.c:121 (int64_t)pointer *)
Definition keyOf (pointer : Z) : Z := if Z.ltb pointer (2 ^ 63) then pointer else (pointer - word)%Z.

(* an array element is assigned *)
Definition setShard (l : list Shard) (i : nat) (x : Shard) : list Shard := firstn i l ++ x :: skipn (S i) l.

(* memory.c:112 malloc(sizeof(allocation)): record with the content garbage; it is
   not allocated before *)
Definition mallocRecord (record : ptr) (garbage : node) : M unit :=
  fun h => match h record with None => Some (tt, upd record garbage h) | Some _ => None end.
(* memory.c:173 free(record) *)
Definition freeRecord (record : ptr) : M unit :=
  fun h => match h record with Some _ => Some (tt, fun q => if Nat.eqb q record then None else h q) | None => None end.

(* memory.c:110-133 trackAllocation up to the unlock of the shard *)
Definition trackInsert (fuel : nat) (st : Tracker) (pointer size : Z) (record : ptr) (garbage : node) : option Tracker :=
  let i := getShardFromPointer pointer in
  match nth_error (shards st) i with
  | None => None
  | Some sh =>
    match (mallocRecord record garbage ;;; TreeNodeInit record ;;; set_key (keyOf pointer) record ;;; TreeInsert fuel record) (nodes sh) with
    | None => None
    | Some (_, h) =>
      Some (mkTracker (setShard (shards st) i (mkShard h (fun q => if Nat.eqb q record then size mod 2 ^ 32 else sizes sh q)%Z))
                      (allocatedTotal st) (maxTotal st) (initialised st))
    end
  end.
(* memory.c:136-146: the rest of it, with the lock *)
Definition trackTotal (st : Tracker) (size : Z) : Tracker :=
  let a := ((allocatedTotal st + size) mod word)%Z in
  mkTracker (shards st) a (if Z.ltb (maxTotal st) a then a else maxTotal st) (initialised st).

(* memory.c:150-173 untrackAllocation up to the unlock of the shard, and free: the
   size that was read.  None also when the pointer is not found: record->size
   through NULL *)
Definition untrackDelete (fuel : nat) (st : Tracker) (pointer : Z) : option (Tracker * Z) :=
  let i := getShardFromPointer pointer in
  match nth_error (shards st) i with
  | None => None
  | Some sh =>
    match TreeFind fuel (keyOf pointer) (nodes sh) with
    | Some (Some record, h) =>
      match (TreeDelete fuel record ;;; freeRecord record) h with
      | Some (_, h') =>
        Some (mkTracker (setShard (shards st) i (mkShard h' (sizes sh))) (allocatedTotal st) (maxTotal st) (initialised st), sizes sh record)
      | None => None
      end
    | _ => None
    end
  end.
(* memory.c:178-182 *)
Definition untrackTotal (st : Tracker) (size : Z) : Tracker :=
  mkTracker (shards st) ((allocatedTotal st - size) mod word)%Z (maxTotal st) (initialised st).

(* memory.c:246-262 fiftyoneDegreesMemoryTrackingReset *)
Fixpoint initShards (l : list Shard) : option (list Shard) :=
  match l with
  | [] => Some []
  | sh :: rest =>
    match TreeRootInit (nodes sh), initShards rest with
    | Some (_, h), Some rest' => Some (mkShard h (sizes sh) :: rest')
    | _, _ => None
    end
  end.
(* memory.c:246-262 fiftyoneDegreesMemoryTrackingReset *)
Definition MemoryTrackingReset (st : Tracker) : option Tracker :=
  match (if initialised st then Some (shards st) else initShards (shards st)) with
  | Some l => Some (mkTracker l 0 0 true)
  | None => None
  end.
(* memory.c:104-108 tryInit *)
Definition tryInit (st : Tracker) : option Tracker := if initialised st then Some st else MemoryTrackingReset st.

(* memory.c:110-148, 150-184: one after the other, as a single thread does *)
Definition trackAllocation fuel st pointer size record garbage : option Tracker :=
  option_map (fun st' => trackTotal st' size) (trackInsert fuel st pointer size record garbage).
(* memory.c:150-183 untrackAllocation *)
Definition untrackAllocation fuel st pointer : option Tracker :=
  option_map (fun r => untrackTotal (fst r) (snd r)) (untrackDelete fuel st pointer).

(* memory.c:236-244 *)
Definition MemoryTrackingGetMax (st : Tracker) : Z := maxTotal st.
(* memory.c:242-244 fiftyoneDegreesMemoryTrackingGetAllocated *)
Definition MemoryTrackingGetAllocated (st : Tracker) : Z := allocatedTotal st.

(* memory.c:74-90 fiftyoneDegreesMemoryStandardMallocAligned, 185-199
   fiftyoneDegreesMemoryTrackingMallocAligned: the size that is requested and
   tracked; alignment is an int, converted to size_t *)
Definition alignedSize (alignment size : Z) : Z := ((size + size mod alignment) mod word)%Z.

(* memory.h:52-58 fiftyoneDegreesMemoryReader; NULL is 0 *)
Record MemoryReader := mkReader { current : Z; lastByte : Z }.
(* memory.c:57-68 fiftyoneDegreesMemoryAdvance: pointers wrap around as on usual
   hardware *)
Definition MemoryAdvance (reader : option MemoryReader) (advanceBy : Z) : option MemoryReader * bool :=
  match reader with
  | None => (None, false)
  | Some r =>
    if Z.eqb (current r) 0 then (reader, false)
    else
      let c := ((current r + advanceBy) mod word)%Z in
      (Some (mkReader c (lastByte r)), negb (Z.ltb (lastByte r) c))
  end.
