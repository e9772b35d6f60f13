(* Model of the memory of collections from their creation to their freeing:
   collection.c 118-181 (release and free methods), 353-394 (loaderCache),
   396-483 (iterateCollection, calculateLoadedSize), 485-726 (the create
   functions), 759-810 (CollectionCreateFromMemory) and 843-940
   (CollectionCreateFromFile, both builds), with cache.c 297-311, 316-380
   (CacheCreate, CacheFree).  The heap, Malloc for an item's data and the get
   of a file collection are those of ItemModel.

   A collection is its blocks of memory.  What was read from the file matters
   only for the sizes of the items read while the size to load is worked out;
   these reads, the allocations and the file operations succeed or fail as an
   input says.  None: undefined behaviour - a NULL pointer used, a block that
   is not live freed or written, or written past its end. *)
From Verif Require Export ItemModel.
Local Open Scope Z_scope.

(* Malloc of n bytes when it succeeds *)
Definition alloc (m : mem) (n : Z) : mem * nat := (mkMem (S (fresh m)) ((fresh m, n) :: live m), fresh m).

(* the functions that create a file collection with createFromFile: for a part
   loaded into memory, for a cache, or for use as it is *)
Inductive part := Source | Loader | Plain.
(* the calls in a creation that can fail: Malloc (first three lines), fseek
   and fread *)
Inductive call :=
| FileColl (p : part) | FileState (p : part)
| MemColl | MemState | MemBytes
| CacheColl | CacheState | CacheMem
| FileSkip (p : part) | MemSeek | MemRead | MemSkip | SecondSeek | Advance.

(* memory sizes of the structures, collection.h 308-410, cache.h: any *)
Definition sizeofCollection : Z := 56.
Definition sizeofState : Z := 32.

(* collection.c 485-504: the blocks of the collection and its state, or NULL *)
Definition createCollection (m : mem) (okColl okState : bool) : option (mem * option (nat * nat)) :=
  if okColl then
    let (m, c) := alloc m sizeofCollection in
    if okState then let (m, s) := alloc m sizeofState in Some (m, Some (c, s))
    else match free m c with Some m => Some (m, None) | None => None end
  else Some (m, None).

(* collection.c 140-143, 161-163 *)
Definition freeCollection (m : mem) (cs : nat * nat) : option mem :=
  match free m (snd cs) with Some m => free m (fst cs) | None => None end.

(* collection.c 529-558: NULL from createCollection is used at once *)
Definition createFromFile (m : mem) (ok : call -> bool) (p : part) : option (mem * option (nat * nat)) :=
  match createCollection m (ok (FileColl p)) (ok (FileState p)) with
  | Some (m, Some cs) =>
    if ok (FileSkip p) then Some (m, Some cs)
    else match freeCollection m cs with Some m => Some (m, None) | None => None end
  | Some (_, None) => None
  | None => None
  end.

(* the cache of a collection: its block and the data of its nodes by shard *)
Record cache := mkCache { kblock : nat; knodes : list (list data) }.
(* a collection read from file, as it is or through a cache *)
Inductive base :=
| BFile (cs : nat * nat)
| BCache (cs : nat * nat) (source : option (nat * nat)) (c : option cache).
(* a collection: one of these or one in memory, with memoryToFree and next *)
Inductive coll := Base (b : base) | Memory (cs : nat * nat) (toFree : option nat) (next : option base).

(* cache.c 297-306 over the nodes of a shard *)
Fixpoint shardFree (m : mem) (nodes : list data) : option mem :=
  match nodes with
  | [] => Some m
  | d :: nodes' =>
    match ptr d with
    | Some p => if Z.ltb 0 (allocated d)
                then match free m p with Some m => shardFree m nodes' | None => None end
                else shardFree m nodes'
    | None => shardFree m nodes'
    end
  end.
(* cache.c 373-376 *)
Fixpoint shardsFree (m : mem) (shards : list (list data)) : option mem :=
  match shards with
  | [] => Some m
  | nodes :: shards' => match shardFree m nodes with Some m => shardsFree m shards' | None => None end
  end.
(* cache.c 369-380 *)
Definition CacheFree (m : mem) (c : cache) : option mem :=
  match shardsFree m (knodes c) with Some m => free m (kblock c) | None => None end.
(* collection.c 165-178 *)
Definition freeCacheCollection (m : mem) (cs : nat * nat) (source : option (nat * nat)) (c : option cache) : option mem :=
  match c with
  | Some k =>
    match source with
    | Some f =>
      match freeCollection m f with
      | Some m => match CacheFree m k with Some m => freeCollection m cs | None => None end
      | None => None
      end
    | None => None
    end
  | None => freeCollection m cs
  end.
(* the freeCollection method of a file or cache collection *)
Definition freeBase (m : mem) (b : base) : option mem :=
  match b with
  | BFile cs => freeCollection m cs
  | BCache cs source c => freeCacheCollection m cs source c
  end.
(* collection.c 145-157 *)
Definition freeMemoryCollection (m : mem) (cs : nat * nat) (toFree : option nat) (next : option base) : option mem :=
  match (match next with Some b => freeBase m b | None => Some m end) with
  | Some m =>
    match (match toFree with Some p => free m p | None => Some m end) with
    | Some m => freeCollection m cs
    | None => None
    end
  | None => None
  end.
(* the freeCollection method *)
Definition freeColl (m : mem) (c : coll) : option mem :=
  match c with
  | Base b => freeBase m b
  | Memory cs toFree next => freeMemoryCollection m cs toFree next
  end.

(* cache.c 121-123, 329-365: the cache has [conc] shards of this many nodes,
   with no data; capacities that overflow are left to CacheModel *)
Definition CacheCreate (m : mem) (capacity conc : Z) (okMem : bool) : mem * option cache :=
  if Z.eqb conc 0 || Z.ltb (capacity / conc) conc then (m, None)
  else if okMem then
    let slots := Z.to_nat (capacity mod conc + capacity / conc) in
    let (m, k) := alloc m (1 + conc * (1 + Z.of_nat slots)) in
    (m, Some (mkCache k (repeat (repeat DataReset slots) (Z.to_nat conc))))
  else (m, None).

(* collection.c 644-688 *)
Definition createFromFileCached (m : mem) (ok : call -> bool) (capacity conc : Z) : option (mem * option base) :=
  match createCollection m (ok CacheColl) (ok CacheState) with
  | Some (m, Some cs) =>
    match createFromFile m ok Loader with
    | Some (m, None) => match freeCacheCollection m cs None None with Some m => Some (m, None) | None => None end
    | Some (m, Some f) =>
      match CacheCreate m capacity conc (ok CacheMem) with
      | (m, None) => match freeCacheCollection m cs (Some f) None with Some m => Some (m, None) | None => None end
      | (m, Some k) => Some (m, Some (BCache cs (Some f) (Some k)))
      end
    | None => None
    end
  | Some (_, None) => None
  | None => None
  end.

(* collection.c 695-726 *)
Definition createFromFileSecond (m : mem) (ok : call -> bool) (capacity conc : Z) : option (mem * option base) :=
  if ok SecondSeek then
    if Z.ltb 0 capacity && Z.ltb 0 conc then createFromFileCached m ok capacity conc
    else match createFromFile m ok Plain with
         | Some (m, Some cs) => Some (m, Some (BFile cs))
         | Some (m, None) => Some (m, None)
         | None => None
         end
  else Some (m, None).

(* the bytes an item takes when it can be read *)
Definition usedOf (w : way) : Z := match w with Early => 0 | Try bytes _ _ => bytes end.
(* collection.c 396-433 with 441-449 as the callback, for items of variable
   size: [n] is how many are still wanted, [i] how many were read, [ways] how
   the reads go.  The handle of the item is not set before the first get; it
   is read by the release at the end.  Result: the heap, the number of bytes,
   whether no exception was set (a get that fails sets one) *)
Fixpoint iterate (m : mem) (it : option item) (ways : nat -> way) (size : Z) (n i : nat) (next total : Z) {struct n}
  : option (mem * nat * Z * bool) :=
  let stop m it fine total i :=
    match it with
    | Some it => match releaseFile m it with Some (m, _) => Some (m, i, total, fine) | None => None end
    | None => None
    end in
  if Z.ltb next size then
    let it0 := match it with Some it => it | None => mkItem DataReset None end in
    match getFile m it0 (ways i) with
    | None => None
    | Some (m, it, None) => stop m (Some it) false total i
    | Some (m, it, Some _) =>
      let used := usedOf (ways i) in
      match n with
      | S (S n' as n1) =>
        match releaseFile m it with
        | Some (m, it) => iterate m (Some it) ways size n1 (S i) ((next + used) mod 2 ^ 32) ((total + used) mod 2 ^ 32)
        | None => None
        end
      | _ => stop m (Some it) true ((total + used) mod 2 ^ 32) (S i)
      end
    end
  else stop m it true total i.

(* what is known of a collection from its header, collection.c 492-496 *)
Record header := mkHeader { hcount : Z; hlength : Z }.
Definition elementSize (h : header) : Z := if Z.eqb (hcount h) 0 then 0 else hlength h / hcount h.
(* collection.c 455-483: the heap, count, size, whether no exception was set *)
Definition calculateLoadedSize (m : mem) (h : header) (loaded : Z) (ways : nat -> way) : option (mem * Z * Z * bool) :=
  if negb (Z.eqb (elementSize h) 0) then
    let count := if Z.ltb (hcount h) loaded then hcount h else loaded in
    Some (m, count, (count * elementSize h) mod 2 ^ 32, true)
  else if Z.ltb (hlength h) loaded then Some (m, 0, hlength h, true)
  else match iterate m None ways (hlength h) (Z.to_nat loaded) 0 0 0 with
       | Some (m, n, size, fine) => Some (m, Z.of_nat n, size, fine)
       | None => None
       end.

(* the end of each failure in createFromFilePartial, e.g. 581-582: the memory
   collection is freed, then the source *)
Definition abandon (m : mem) (cs : nat * nat) (toFree : option nat) (source : nat * nat) : option (mem * option (nat * nat * nat * Z * Z)) :=
  match freeMemoryCollection m cs toFree None with
  | Some m => match freeCollection m source with Some m => Some (m, None) | None => None end
  | None => None
  end.
(* collection.c 560-642: the blocks of the collection, of its bytes, its count
   and size.  The source is used without a check for NULL (578) *)
Definition createFromFilePartial (m : mem) (ok : call -> bool) (h : header) (loaded : Z) (ways : nat -> way)
  : option (mem * option (nat * nat * nat * Z * Z)) :=
  match createFromFile m ok Source with
  | None => None
  | Some (m, source) =>
    match createCollection m (ok MemColl) (ok MemState) with
    | None | Some (_, None) => None
    | Some (m, Some cs) =>
      match source with
      | None => None
      | Some source =>
        match calculateLoadedSize m h loaded ways with
        | None => None
        | Some (m, count, size, fine) =>
          if fine then
            if ok MemBytes then
              let (m, b) := alloc m size in
              if ok MemSeek then
                match write m b size with
                | None => None
                | Some m =>
                  if ok MemRead then
                    if ok MemSkip then
                      match freeCollection m source with
                      | Some m => Some (m, Some (cs, b, count, size))
                      | None => None
                      end
                    else abandon m cs (Some b) source
                  else abandon m cs (Some b) source
                end
              else abandon m cs (Some b) source
            else abandon m cs None source
          else abandon m cs None source
        end
      end
    end
  end.

(* collection.h 287-295 *)
Record config := mkConfig { loaded : Z; capacity : Z; concurrency : Z }.
(* collection.c 843-898: the build that reads collections from files *)
Definition CreateFromFile (m : mem) (ok : call -> bool) (h : header) (cfg : config) (ways : nat -> way) : option (mem * option coll) :=
  if Z.ltb 0 (loaded cfg) then
    match createFromFilePartial m ok h (loaded cfg) ways with
    | Some (m, Some (cs, b, count, size)) =>
      if Z.eqb count (loaded cfg) && Z.ltb size (size + (hlength h - size) mod 2 ^ 32) then
        match createFromFileSecond m ok (capacity cfg) (concurrency cfg) with
        | Some (m, Some n) => Some (m, Some (Memory cs (Some b) (Some n)))
        | Some (m, None) => match freeMemoryCollection m cs (Some b) None with Some m => Some (m, None) | None => None end
        | None => None
        end
      else Some (m, Some (Memory cs (Some b) None))
    | Some (m, None) => Some (m, None)
    | None => None
    end
  else
    match createFromFileSecond m ok (capacity cfg) (concurrency cfg) with
    | Some (m, Some n) => Some (m, Some (Base n))
    | Some (m, None) => Some (m, None)
    | None => None
    end.

(* collection.c 759-810: [synced]: the reader is where the header says *)
Definition CreateFromMemory (m : mem) (ok : call -> bool) (synced : bool) : option (mem * option coll) :=
  if synced then
    match createCollection m (ok MemColl) (ok MemState) with
    | Some (m, Some cs) =>
      if ok Advance then Some (m, Some (Memory cs None None))
      else match freeMemoryCollection m cs None None with Some m => Some (m, None) | None => None end
    | _ => None
    end
  else Some (m, None).
(* collection.c 900-937: the build that keeps all in memory *)
Definition CreateFromFileMemoryOnly (m : mem) (ok : call -> bool) (h : header) : option (mem * option coll) :=
  if ok MemBytes then
    let (m, b) := alloc m (hlength h) in
    if ok MemSeek then
      match write m b (hlength h) with
      | None => None
      | Some m =>
        if ok MemRead then
          match CreateFromMemory m ok true with
          | Some (m, Some (Memory cs _ next)) => Some (m, Some (Memory cs (Some b) next))
          | Some (m, Some c) => None
          | Some (m, None) => match free m b with Some m => Some (m, None) | None => None end
          | None => None
          end
        else match free m b with Some m => Some (m, None) | None => None end
      end
    else match free m b with Some m => Some (m, None) | None => None end
  else Some (m, None).

(* collection.c 353-394: an item read from the source is copied to the data of
   a cache node; [okNode]: Malloc for the node succeeds if called *)
Definition loaderCache (m : mem) (d : data) (w : way) (okNode : bool) : option (mem * data) :=
  match getFile m (mkItem DataReset None) w with
  | None => None
  | Some (m, it, None) => Some (m, d)
  | Some (m, it, Some _) =>
    match (if Z.ltb 0 (usedOf w) then
             match DataMalloc m d (allocated (idata it)) okNode with
             | None => None
             | Some (m, mkData None a) => Some (m, mkData None a)
             | Some (m, mkData (Some p) a) =>
               match write m p (usedOf w) with Some m => Some (m, mkData (Some p) a) | None => None end
             end
           else Some (m, d)) with
    | None => None
    | Some (m, d) => match releaseFile m it with Some (m, _) => Some (m, d) | None => None end
    end
  end.
(* the n-th element replaced *)
Fixpoint put {A} (l : list A) (n : nat) (x : A) : list A :=
  match l, n with [], _ => [] | _ :: l', O => x :: l' | y :: l', S n' => y :: put l' n' x end.
(* a get of a cache that loads into one of its nodes (cache.c 268-292) *)
Inductive load := Load (shard slot : nat) (w : way) (okNode : bool).
Definition loadCache (m : mem) (k : cache) (o : load) : option (mem * cache) :=
  match o with
  | Load i j w okNode =>
    match nth_error (knodes k) i with
    | Some nodes =>
      match nth_error nodes j with
      | Some d => match loaderCache m d w okNode with
                  | Some (m, d) => Some (m, mkCache (kblock k) (put (knodes k) i (put nodes j d)))
                  | None => None
                  end
      | None => Some (m, k)                        (* no such node: not a get *)
      end
    | None => Some (m, k)
    end
  end.
Definition loadBase (m : mem) (b : base) (o : load) : option (mem * base) :=
  match b with
  | BCache cs source (Some k) => match loadCache m k o with Some (m, k) => Some (m, BCache cs source (Some k)) | None => None end
  | _ => Some (m, b)
  end.
(* a get of the collection that loads *)
Definition loadColl (m : mem) (c : coll) (o : load) : option (mem * coll) :=
  match c with
  | Base b => match loadBase m b o with Some (m, b) => Some (m, Base b) | None => None end
  | Memory cs t (Some b) => match loadBase m b o with Some (m, b) => Some (m, Memory cs t (Some b)) | None => None end
  | Memory cs t None => Some (m, c)
  end.
(* a sequence of gets *)
Fixpoint loads (m : mem) (c : coll) (os : list load) : option (mem * coll) :=
  match os with
  | [] => Some (m, c)
  | o :: os' => match loadColl m c o with Some (m, c) => loads m c os' | None => None end
  end.
