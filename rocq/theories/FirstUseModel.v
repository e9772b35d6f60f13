(* memory.c: the set-up of the tracker by the first tracked malloc, step by step, so
   that threads can overtake each other in it.  The sections under a lock are those
   of MemorySpec.  Simplified: reads and writes of initialised, allocated and max are
   single steps seen by all threads in one order; the set-up of a shard, its mutex
   with its root, is one step; a mutex is not destroyed, so one that is created again
   is as before. *)
From Verif Require Export MemoryModel MemorySpec.

(* memory.c:104-108, 246-262: where a thread is in tryInit: not in it; it saw false at 105; it sets up shard i;
   it is at 259, 260, 261; it is past tryInit and will track what malloc returns *)
Inductive place := Outside | Checked | Setting (i : nat) | AtAllocated | AtMax | AtFlag | Past.
(* memory.c:38, 45-55: the tracker with the calls in progress, and the threads *)
Record scene := mkScene { engine : machine; places : nat -> place }.
(* thread t is at x *)
Definition goto (s : scene) (t : nat) (x : place) : nat -> place := fun u => if Nat.eqb u t then x else places s u.

(* memory.c:104-108, 201-204: a thread calls tryInit; it goes on in the set-up; it has
   its memory and tracks it; the other sections of MemorySpec *)
Inductive move :=
| Enter (t : nat)
| Advance (t : nat)
| Track (t : nat) (p size : Z) (record : ptr) (garbage : node)
| Other (e : event).

(* memory.c:249-254: shard i of the loop *)
Definition initShard (st : Tracker) (i : nat) : option Tracker :=
  match nth_error (shards st) i with
  | None => None
  | Some sh =>
    match TreeRootInit (nodes sh) with
    | Some (_, h) => Some (mkTracker (setShard (shards st) i (mkShard h (sizes sh))) (allocatedTotal st) (maxTotal st) (initialised st))
    | None => None
    end
  end.
(* memory.c:45-55 state is st *)
Definition withTracker (s : scene) (st : Tracker) : machine := mkMachine st (adding (engine s)) (subtracting (engine s)).
(* memory.c:104-108, 246-262: None where there is no such step or it is undefined *)
Definition moveStep (fuel : nat) (s : scene) (v : move) : option scene :=
  let st := tracker (engine s) in
  match v with
  | Enter t =>
    match places s t with
    | Outside => Some (mkScene (engine s) (goto s t (if initialised st then Past else Checked)))
    | _ => None
    end
  | Advance t =>
    match places s t with
    | Checked => Some (mkScene (engine s) (goto s t (if initialised st then AtAllocated else Setting 0)))
    | Setting i =>
      if Nat.ltb i SHARDS then option_map (fun st' => mkScene (withTracker s st') (goto s t (Setting (S i)))) (initShard st i)
      else Some (mkScene (engine s) (goto s t AtAllocated))
    | AtAllocated => Some (mkScene (withTracker s (mkTracker (shards st) 0 (maxTotal st) (initialised st))) (goto s t AtMax))
    | AtMax => Some (mkScene (withTracker s (mkTracker (shards st) (allocatedTotal st) 0 (initialised st))) (goto s t AtFlag))
    | AtFlag => Some (mkScene (withTracker s (mkTracker (shards st) (allocatedTotal st) (maxTotal st) true)) (goto s t Past))
    | Outside | Past => None
    end
  | Track t p size record garbage =>
    match places s t with
    | Past =>
      option_map (fun st' => mkScene (mkMachine st' ((p, size) :: adding (engine s)) (subtracting (engine s))) (goto s t Outside))
        (trackInsert fuel st p size record garbage)
    | _ => None
    end
  | Other (MallocBegin _ _ _ _) => None
  | Other e => option_map (fun m => mkScene m (places s)) (runEvent fuel (engine s) e)
  end.
(* memory.c:104-108, 246-262: one step after the other, of any threads *)
Fixpoint moveSteps (fuel : nat) (s : scene) (l : list move) : option scene :=
  match l with
  | [] => Some s
  | v :: rest => match moveStep fuel s v with Some s' => moveSteps fuel s' rest | None => None end
  end.
