(* memory.c: which functions the pointers fiftyoneDegreesMalloc and so on hold, and
   how SetUpMemoryTracking and UnsetMemoryTracking change them, in a build without
   FIFTYONE_DEGREES_MEMORY_TRACK_ENABLED and not for Windows, where
   MemoryStandardFreeAligned is free.  The tracked calls are those of MemoryModel and
   MemorySpec.  The four pointers and the set-up of the trees are assigned at once. *)
From Verif Require Export MemoryModel MemorySpec.

(* memory.c:307-318: true for the tracking function *)
Record Pointers := mkPointers { mallocTracks : bool; mallocAlignedTracks : bool; freeTracks : bool; freeAlignedTracks : bool }.
(* memory.c:307-318 the pointers at the start *)
Definition initialPointers : Pointers := mkPointers false false false false.

(* memory.c:38, 45-55, 307-318: the pointers, and the tracker with the calls between their two sections *)
Record world := mkWorld { functions : Pointers; inside : machine }.

(* memory.c:185-280: the calls through the pointers; those that track have a second section *)
Inductive call :=
| SetUp | Unset | Reset
| Malloc (p size : Z) (record : ptr) (garbage : node)
| MallocAligned (alignment p size : Z) (record : ptr) (garbage : node)
| Malloced (p : Z)
| Free (p : Z)
| FreeAligned (p : Z)
| Freed (p : Z).

(* memory.c:246-262 fiftyoneDegreesMemoryTrackingReset with calls in progress *)
Definition resetInside (m : machine) : option machine :=
  option_map (fun st => mkMachine st (adding m) (subtracting m)) (MemoryTrackingReset (tracker m)).
(* memory.c:264-270 fiftyoneDegreesSetUpMemoryTracking *)
Definition SetUpMemoryTracking (w : world) : option world :=
  option_map (mkWorld (mkPointers true true true true)) (resetInside (inside w)).
(* memory.c:272-280 fiftyoneDegreesUnsetMemoryTracking: and what it returns *)
Definition UnsetMemoryTracking (w : world) : option (world * Z) :=
  let memAlloced := MemoryTrackingGetAllocated (tracker (inside w)) in
  option_map (fun m => (mkWorld (mkPointers false false false false) m, memAlloced)) (resetInside (inside w)).

(* memory.c:70-90, 185-236: a call by the pointer; the standard functions do not know
   of the tracker *)
Definition through (tracks : bool) (fuel : nat) (w : world) (e : event) : option world :=
  if tracks then option_map (mkWorld (functions w)) (runEvent fuel (inside w) e) else Some w.
(* memory.c:185-280: the world after the call, and what Unset returns *)
Definition callStep (fuel : nat) (w : world) (c : call) : option (world * list Z) :=
  let quiet := option_map (fun w' : world => (w', @nil Z)) in
  match c with
  | SetUp => quiet (SetUpMemoryTracking w)
  | Unset => option_map (fun r => (fst r, [snd r])) (UnsetMemoryTracking w)
  | Reset => quiet (option_map (mkWorld (functions w)) (resetInside (inside w)))
  | Malloc p size record garbage => quiet (through (mallocTracks (functions w)) fuel w (MallocBegin p size record garbage))
  | MallocAligned alignment p size record garbage =>
    quiet (through (mallocAlignedTracks (functions w)) fuel w (MallocBegin p (alignedSize alignment size) record garbage))
  | Malloced p => quiet (through true fuel w (MallocEnd p))
  | Free p => quiet (through (freeTracks (functions w)) fuel w (FreeBegin p))
  | FreeAligned p => quiet (through (freeAlignedTracks (functions w)) fuel w (FreeBegin p))
  | Freed p => quiet (through true fuel w (FreeEnd p))
  end.
(* memory.c:185-280: calls one after the other, with all that Unset returned *)
Fixpoint callSteps (fuel : nat) (w : world) (l : list call) : option (world * list Z) :=
  match l with
  | [] => Some (w, [])
  | c :: rest =>
    match callStep fuel w c with
    | None => None
    | Some (w', out) => option_map (fun r => (fst r, out ++ snd r)) (callSteps fuel w' rest)
    end
  end.
