(* Model of /repo/collection.c: the four kinds of collection and how a
   configuration chooses between them.

   A file is the list of its bytes.  A get returns the bytes that can be read
   through the returned pointer: for data in memory everything from the item
   to the end of the block, for data read from file the bytes read.
   Simplifications: the exception passed is not NULL and not yet set; handles,
   seeks, reads and allocations can fail in a get (as chosen by [io]) but not
   while a collection is created, except that a read past the end of the file
   always fails; calls do not overlap (each runs under the lock of its cache
   shard).  Reuse of an item's memory by later
   gets is in ItemModel.v. *)
From Coq Require Export List Arith ZArith Lia Bool.
Export ListNotations.
From Verif Require Import TreeModel CacheModel CacheSpec.

(* n elements from a on; no counterpart in /repo *)
Definition slice {A} (l : list A) (a n : nat) : list A := firstn n (skipn a l).

(* collection.h 276-280 *)
Record header := mkHd { hstart : nat; hlength : Z; hcount : Z }.

(* collection.c 737-746 and 821-830; uint32_t arithmetic *)
Definition headerFrom (start : nat) (elementSize sizeOrCount : Z) (isCount : bool) : header :=
  if isCount then mkHd start ((sizeOrCount * elementSize) mod 2 ^ 32)%Z sizeOrCount
  else mkHd start sizeOrCount (if Z.ltb 0 elementSize then sizeOrCount / elementSize else 0)%Z.

(* collection.h 425-428 *)
Record cinfo := mkC { ccount : Z; celem : Z; csize : Z }.

(* collection.c 493-496 *)
Definition createCollection (h : header) : cinfo :=
  mkC (hcount h) (if Z.eqb (hcount h) 0 then 0 else hlength h / hcount h)%Z (hlength h).

(* the status codes used, status.h *)
Inductive status := INDEX_RANGE | OFFSET_RANGE | SEEK_FAIL | READ_FAIL | NO_MEMORY | NO_HANDLE.
(* what goes wrong in a get *)
Inductive io := IoOk | IoHandle | IoSeek | IoMemory | IoRead.
(* equality of io *)
Definition io_eqb (a b : io) : bool :=
  match a, b with
  | IoOk, IoOk | IoHandle, IoHandle | IoSeek, IoSeek | IoMemory, IoMemory | IoRead, IoRead => true
  | _, _ => false
  end.

(* what a read gives: bytes, or a status *)
Inductive rd := ROk (b : list Z) | RErr (s : status).

(* fread: the bytes at a position of a file, if they are all there *)
Definition fread (file : list Z) (pos n : nat) : option (list Z) :=
  if Nat.leb (pos + n) (length file) then Some (slice file pos n) else None.

(* collection.c 945-977 and 979-1033 *)
Definition ReadFileFixed (file : list Z) (start : nat) (ci : cinfo) (f : io) (index : Z) : rd :=
  let offset := ((index * celem ci) mod 2 ^ 32)%Z in
  if Z.ltb index (ccount ci) then
    if Z.ltb offset (csize ci) then
      if io_eqb f IoHandle then RErr NO_HANDLE
      else if io_eqb f IoSeek then RErr SEEK_FAIL
      else if io_eqb f IoMemory then RErr NO_MEMORY
      else if io_eqb f IoRead || Z.eqb (celem ci) 0 then RErr READ_FAIL  (* fread of size 0 returns 0 *)
      else
        match fread file (start + Z.to_nat offset) (Z.to_nat (celem ci)) with
        | Some b => ROk b
        | None => RErr READ_FAIL
        end
    else RErr OFFSET_RANGE
  else RErr INDEX_RANGE.

(* collection.c 1037-1105 and 1112-1158; init: initialSize, final:
   getFinalSize.  None: the header is copied to a buffer that is too small. *)
Definition ReadFileVariable (file : list Z) (start : nat) (ci : cinfo) (init : nat) (final : list Z -> Z)
  (f : io) (offset : Z) : option rd :=
  if Z.ltb offset (csize ci) then
    if io_eqb f IoHandle then Some (RErr NO_HANDLE)
    else if io_eqb f IoSeek then Some (RErr SEEK_FAIL)
    else
      let pos := start + Z.to_nat offset in
      match (if io_eqb f IoRead then None else fread file pos init) with
      | None => Some (RErr READ_FAIL)
      | Some initial =>
        let bytesNeeded := (final initial mod 2 ^ 32)%Z in
        if io_eqb f IoMemory then Some (RErr NO_MEMORY)
        else if Z.ltb bytesNeeded (Z.of_nat init) then None
        else
          match fread file (pos + init) (Z.to_nat bytesNeeded - init) with
          | Some rest => Some (ROk (initial ++ rest))
          | None => Some (RErr READ_FAIL)
          end
      end
  else Some (RErr OFFSET_RANGE).

(* the read method given to CreateFromFile (CollectionFileRead) *)
Inductive kind := Fixed | VarSize (init : nat) (final : list Z -> Z).
(* collection.c: the read method of a kind of file collection *)
Definition fileRead (file : list Z) (k : kind) (start : nat) (ci : cinfo) (f : io) (i : Z) : option rd :=
  match k with
  | Fixed => Some (ReadFileFixed file start ci f i)
  | VarSize init final => ReadFileVariable file start ci init final f i
  end.

(* A collection.  Mem: CollectionMemory made from a memory reader; Partial:
   CollectionMemory made from the head of a file, with the next collection. *)
Inductive coll :=
| Mem (ci : cinfo) (block : list Z)
| File (ci : cinfo) (start : nat)
| Cached (ci : cinfo) (start : nat) (cc : cache (list Z))
| Partial (ci : cinfo) (block : list Z) (next : option coll).

(* collection.c 186-218; 226-239 and 249-262 for the part in memory *)
Definition getMemory (ci : cinfo) (block : list Z) (i : Z) : option (list Z) :=
  if Z.eqb (celem ci) 0 then
    if Z.ltb i (csize ci) then Some (skipn (Z.to_nat i) block) else None
  else
    if Z.ltb i (ccount ci) then Some (skipn (Z.to_nat (i * celem ci)) block) else None.
(* collection.c: the status of an index or offset out of range *)
Definition rangeStatus (ci : cinfo) : status := if Z.eqb (celem ci) 0 then OFFSET_RANGE else INDEX_RANGE.

(* what a call did: bytes and cache node (if any) handed to the caller; NULL,
   with the status set (if any) and the node (if any) that stays in use
   although the caller was not given it; release of a node *)
Inductive cev :=
| EGot (i : Z) (acc : list Z) (h : option slot)
| ENull (i : Z) (st : option status) (leak : option slot)
| ERel (s : slot).

Section Get.
  Variable file : list Z.
  Variable k : kind.
  Variable fuel : nat.

  (* collection.c 272-295 *)
  Definition getFile (ci : cinfo) (start : nat) (f : io) (i : Z) : option cev :=
    match fileRead file k start ci f i with
    | None => None
    | Some (ROk b) => Some (EGot i b None)
    | Some (RErr s) => Some (ENull i (Some s) None)
    end.

  (* collection.c 353-392: the bytes left in the node and whether the
     exception is clear *)
  Definition loaderCache (r : rd) : bool * list Z :=
    match r with ROk b => (true, b) | RErr _ => (false, []) end.

  (* collection.c 308-343; fiftyoneDegreesCacheHash32 reads the uint32_t key
     as int32_t.  The loader is only run on a miss. *)
  Definition getFromCache (ci : cinfo) (start : nat) (cc : cache (list Z)) (f : io) (i : Z)
    : option (cev * cache (list Z)) :=
    let r := fileRead file k start ci f i in
    let (ok, d) := match r with Some r => loaderCache r | None => (false, []) end in
    match cacheGet fuel (toInt32 i) ok d cc with
    | None => None
    | Some ((j, o), cc') =>
      match o, r with
      | ONull, _ => Some (ENull i None None, cc')
      | OHit n d, _ | OLoaded n d, Some _ =>
        Some (match d with [] => ENull i None (Some (j, n)) | _ => EGot i d (Some (j, n)) end, cc')
      | OFailed n _, Some (RErr s) => Some (ENull i (Some s) (Some (j, n)), cc')
      | _, _ => None
      end
    end.

  Fixpoint collGet (c : coll) (f : io) (i : Z) : option (cev * coll) :=
    match c with
    | Mem ci block =>
      match getMemory ci block i with
      | Some acc => Some (EGot i acc None, c)
      | None => Some (ENull i (Some (rangeStatus ci)) None, c)
      end
    | File ci start =>
      match getFile ci start f i with Some e => Some (e, c) | None => None end
    | Cached ci start cc =>
      match getFromCache ci start cc f i with
      | Some (e, cc') => Some (e, Cached ci start cc')
      | None => None
      end
    | Partial ci block next =>
      (* 226-270 *)
      match getMemory ci block i with
      | Some acc => Some (EGot i acc None, c)
      | None =>
        match next with
        | Some n =>
          match collGet n f i with
          | Some (e, n') => Some (e, Partial ci block (Some n'))
          | None => None
          end
        | None => Some (ENull i (Some (rangeStatus ci)) None, c)
        end
      end
    end.

  (* collection.c 106-111, 133-138.  Items without a cache node own their
     memory or none, their release does not change the collection. *)
  Fixpoint collRelease (c : coll) (s : slot) : option coll :=
    match c with
    | Cached ci start cc =>
      match cacheRelease (fst s) (snd s) cc with Some cc' => Some (Cached ci start cc') | None => None end
    | Partial ci block (Some n) =>
      match collRelease n s with Some n' => Some (Partial ci block (Some n')) | None => None end
    | _ => None
    end.

  (* collection.c 396-435 with callbackLoadedSize (441-449): n callbacks are
     still allowed.  None: undefined; Some None: exception. *)
  Fixpoint iterateLoaded (n : nat) (ci : cinfo) (start : nat) (next count size : Z) : option (option (Z * Z)) :=
    match n with
    | 0 => Some (Some (count, size))
    | S n' =>
      if Z.ltb next (csize ci) then
        match fileRead file k start ci IoOk next with
        | None => None
        | Some (RErr _) => Some None
        | Some (ROk b) =>
          let used := Z.of_nat (length b) in
          iterateLoaded n' ci start ((next + used) mod 2 ^ 32)%Z (count + 1)%Z ((size + used) mod 2 ^ 32)%Z
        end
      else Some (Some (count, size))
    end.

  (* collection.c 455-483: entries and bytes to load *)
  Definition calculateLoadedSize (ci : cinfo) (start : nat) (count : Z) : option (option (Z * Z)) :=
    if negb (Z.eqb (celem ci) 0) then
      let n := if Z.ltb (ccount ci) count then ccount ci else count in
      Some (Some (n, ((n * celem ci) mod 2 ^ 32)%Z))
    else if Z.ltb (csize ci) count then Some (Some (0%Z, csize ci))
    else iterateLoaded (Z.to_nat count) ci start 0 0 0.

  (* collection.c 759-810 for a reader positioned at the start of [block] *)
  Definition CreateFromMemory (h : header) (block : list Z) : option coll :=
    let ci := createCollection h in
    if Z.leb (hlength h) (Z.of_nat (length block)) then   (* 802: MemoryAdvance *)
      Some (Mem (if Z.eqb (celem ci) 0 then ci else mkC (csize ci / celem ci)%Z (celem ci) (csize ci))
                (firstn (Z.to_nat (hlength h)) block))
    else None.

  (* collection.c 644-687 and 695-728; [treeMem]: content of the cache's
     memory *)
  Definition createSecond (treeMem : heap) (h : header) (capacity conc : Z) : option (option coll) :=
    let ci := createCollection h in
    if Z.ltb 0 capacity && Z.ltb 0 conc then
      match cacheCreate treeMem capacity conc [] with
      | Some (Some cc) => Some (Some (Cached ci (hstart h) cc))
      | Some None => Some None
      | None => None
      end
    else Some (Some (File ci (hstart h))).

  (* collection.c 843-898 with 560-642.  None: undefined; Some None: NULL *)
  Definition CreateFromFile (treeMem : heap) (h : header) (loaded capacity conc : Z) : option (option coll) :=
    if Z.ltb 0 loaded then
      let ci := createCollection h in
      match calculateLoadedSize ci (hstart h) loaded with
      | None => None
      | Some None => Some None
      | Some (Some (count, size)) =>
        match fread file (hstart h) (Z.to_nat size) with
        | None => Some None
        | Some block =>
          let pci := mkC count (celem ci) size in
          let end_ := (size + (csize ci - size) mod 2 ^ 32)%Z in   (* 613: ftell - startPosition *)
          if Z.eqb count loaded && Z.ltb size end_ then
            match createSecond treeMem h capacity conc with
            | Some (Some n) => Some (Some (Partial pci block (Some n)))
            | Some None => Some None
            | None => None
            end
          else Some (Some (Partial pci block None))
        end
      end
    else createSecond treeMem h capacity conc.
End Get.
