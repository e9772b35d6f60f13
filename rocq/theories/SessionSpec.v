(* What a program that switches tracking on and off has, and what it may do. *)
From Verif Require Import SessionModel.

(* whether tracking is on, the blocks allocated while it was off, the blocks not freed
   of earlier sessions, the session there is now, and the most it had *)
Record book := mkBook { on : bool; plain : list Z; old : list block; now : ledger; peak : Z }.
Definition noBlocks : ledger := mkLedger [] [] [].
Definition opened : book := mkBook false [] [] noBlocks 0.
(* the bytes not freed of a session *)
Definition bytes (l : ledger) : Z := (sumOf (map fst (live l)) + sumOf (frees l))%Z.
(* a new session, with or without tracking *)
Definition restart (b : bool) (k : book) : book := mkBook b (plain k) (live (now k) ++ old k) noBlocks 0.
(* the session is n *)
Definition count (k : book) (n : ledger) : book := mkBook (on k) (plain k) (old k) n (Z.max (peak k) (bytes n)).
Definition oldPointers (k : book) : list Z := map (fun b => fst (fst b)) (old k).
Definition fresh (k : book) (p : Z) : Prop :=
  (0 <= p < 2 ^ 64)%Z /\ ~ In p (plain k) /\ ~ In p (pointers (now k)) /\ ~ In p (oldPointers k).
Definition freshRecord (k : book) (record : ptr) : Prop := 3 <= record /\ ~ In record (records (now k)) /\ ~ In record (map snd (old k)).
(* room for size bytes more *)
Definition room (k : book) (size : Z) : Prop :=
  (0 <= size < 2 ^ 32 /\ sumOf (map fst (live (now k) ++ mallocs (now k))) + sumOf (frees (now k)) + sumOf (map fst (old k)) + size < 2 ^ 64)%Z.
Definition atRest (k : book) : Prop := mallocs (now k) = [] /\ frees (now k) = [].
Definition mallocOf (k : book) (p size : Z) (record : ptr) : book :=
  count k (mkLedger (live (now k)) (((p, size), record) :: mallocs (now k)) (frees (now k))).
(* what a call is for the program, and what Unset should return: tracking is
   switched when no call is in progress, and a block is freed in the session it was
   allocated in, or with tracking off if it was allocated so *)
Inductive may : book -> call -> book -> list Z -> Prop :=
| m_setup k : atRest k -> may k SetUp (restart true k) []
| m_unset k : atRest k -> may k Unset (restart false k) [sumOf (map fst (live (now k)))]
| m_reset k : atRest k -> may k Reset (restart (on k) k) []
| m_plain k p size record garbage : on k = false -> fresh k p -> may k (Malloc p size record garbage) (mkBook false (p :: plain k) (old k) (now k) (peak k)) []
| m_plain_aligned k alignment p size record garbage : on k = false -> fresh k p ->
    may k (MallocAligned alignment p size record garbage) (mkBook false (p :: plain k) (old k) (now k) (peak k)) []
| m_plain_free k p a b : on k = false -> plain k = a ++ p :: b -> may k (Free p) (mkBook false (a ++ b) (old k) (now k) (peak k)) []
| m_plain_free_aligned k p a b : on k = false -> plain k = a ++ p :: b -> may k (FreeAligned p) (mkBook false (a ++ b) (old k) (now k) (peak k)) []
| m_malloc k p size record garbage : on k = true -> fresh k p -> freshRecord k record -> room k size ->
    may k (Malloc p size record garbage) (mallocOf k p size record) []
| m_malloc_aligned k alignment p size record garbage : on k = true -> fresh k p -> freshRecord k record ->
    (0 < alignment)%Z -> room k (size + size mod alignment) ->
    may k (MallocAligned alignment p size record garbage) (mallocOf k p (size + size mod alignment) record) []
| m_malloced k p size record a b : mallocs (now k) = a ++ ((p, size), record) :: b ->
    may k (Malloced p) (count k (mkLedger (((p, size), record) :: live (now k)) (a ++ b) (frees (now k)))) []
| m_free k p size record a b : on k = true -> live (now k) = a ++ ((p, size), record) :: b ->
    may k (Free p) (count k (mkLedger (a ++ b) (mallocs (now k)) ((p, size) :: frees (now k)))) []
| m_free_aligned k p size record a b : on k = true -> live (now k) = a ++ ((p, size), record) :: b ->
    may k (FreeAligned p) (count k (mkLedger (a ++ b) (mallocs (now k)) ((p, size) :: frees (now k)))) []
| m_freed k p size a b : frees (now k) = a ++ (p, size) :: b ->
    may k (Freed p) (count k (mkLedger (live (now k)) (mallocs (now k)) (a ++ b))) [].
Inductive mayAll : book -> list call -> book -> list Z -> Prop :=
| ma_nil k : mayAll k [] k []
| ma_cons k c k' out calls k'' outs : may k c k' out -> mayAll k' calls k'' outs -> mayAll k (c :: calls) k'' (out ++ outs).

(* the static variables at the start: 20 roots and zeros *)
Definition untouched (st : Tracker) : Prop := unused st /\ allocatedTotal st = 0%Z /\ maxTotal st = 0%Z.
Definition begin (st : Tracker) : world := mkWorld initialPointers (mkMachine st [] []).
