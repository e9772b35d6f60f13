(* Histories of tracked allocations by any number of threads. *)
From Verif Require Import MemoryModel.

(* one locked section of one thread: malloc returned block p and, for the record,
   record; the totals are brought up to date; p is freed; the totals are brought
   up to date *)
Inductive event :=
| MallocBegin (p size : Z) (record : ptr) (garbage : node)
| MallocEnd (p : Z)
| FreeBegin (p : Z)
| FreeEnd (p : Z).

(* the tracker with the local variables of the calls between their two sections:
   block and size *)
Record machine := mkMachine { tracker : Tracker; adding : list (Z * Z); subtracting : list (Z * Z) }.
Fixpoint take (p : Z) (l : list (Z * Z)) : option (Z * list (Z * Z)) :=
  match l with
  | [] => None
  | (q, size) :: rest =>
    if Z.eqb q p then Some (size, rest)
    else match take p rest with Some (s, rest') => Some (s, (q, size) :: rest') | None => None end
  end.
Definition runEvent (fuel : nat) (m : machine) (e : event) : option machine :=
  match e with
  | MallocBegin p size record garbage =>
    match tryInit (tracker m) with
    | Some st0 => option_map (fun st => mkMachine st ((p, size) :: adding m) (subtracting m)) (trackInsert fuel st0 p size record garbage)
    | None => None
    end
  | MallocEnd p =>
    match take p (adding m) with
    | Some (size, rest) => Some (mkMachine (trackTotal (tracker m) size) rest (subtracting m))
    | None => None
    end
  | FreeBegin p =>
    match untrackDelete fuel (tracker m) p with
    | Some (st, size) => Some (mkMachine st (adding m) ((p, size) :: subtracting m))
    | None => None
    end
  | FreeEnd p =>
    match take p (subtracting m) with
    | Some (size, rest) => Some (mkMachine (untrackTotal (tracker m) size) (adding m) rest)
    | None => None
    end
  end.
Fixpoint runEvents (fuel : nat) (m : machine) (l : list event) : option machine :=
  match l with
  | [] => Some m
  | e :: rest => match runEvent fuel m e with Some m' => runEvents fuel m' rest | None => None end
  end.

(* what the program has: blocks with their size and record; mallocs and frees in
   progress *)
Definition block : Type := (Z * Z) * ptr.
Record ledger := mkLedger { live : list block; mallocs : list block; frees : list (Z * Z) }.
Definition pointers (l : ledger) : list Z := map (fun b => fst (fst b)) (live l ++ mallocs l) ++ map fst (frees l).
Definition records (l : ledger) : list ptr := map snd (live l ++ mallocs l).
(* sum of the sizes *)
Definition sumOf (l : list (Z * Z)) : Z := fold_right (fun x n => snd x + n)%Z 0%Z l.
(* what the program and the allocator may do: malloc returns memory that is not in
   use and all fits in the memory, the program frees what it has *)
Inductive allowed : ledger -> event -> ledger -> Prop :=
| a_malloc l p size record garbage : (0 <= p < 2 ^ 64)%Z -> (0 <= size < 2 ^ 32)%Z -> ~ In p (pointers l) ->
    3 <= record -> ~ In record (records l) -> (sumOf (map fst (live l ++ mallocs l) ++ frees l) + size < 2 ^ 64)%Z ->
    allowed l (MallocBegin p size record garbage) (mkLedger (live l) (((p, size), record) :: mallocs l) (frees l))
| a_malloced l p size record a b : mallocs l = a ++ ((p, size), record) :: b ->
    allowed l (MallocEnd p) (mkLedger (((p, size), record) :: live l) (a ++ b) (frees l))
| a_free l p size record a b : live l = a ++ ((p, size), record) :: b ->
    allowed l (FreeBegin p) (mkLedger (a ++ b) (mallocs l) ((p, size) :: frees l))
| a_freed l p size a b : frees l = a ++ (p, size) :: b ->
    allowed l (FreeEnd p) (mkLedger (live l) (mallocs l) (a ++ b)).
Inductive allowedRun : ledger -> list event -> ledger -> Prop :=
| r_nil l : allowedRun l [] l
| r_cons l e l' events l'' : allowed l e l' -> allowedRun l' events l'' -> allowedRun l (e :: events) l''.

(* the memory of a tracker that is not in use yet: the root records of 20 trees,
   with any content *)
Definition unused (st : Tracker) : Prop :=
  length (shards st) = SHARDS /\ initialised st = false /\
  Forall (fun sh => nodes sh ROOT <> None /\ nodes sh EMPTY <> None /\ forall p, 3 <= p -> nodes sh p = None) (shards st).
