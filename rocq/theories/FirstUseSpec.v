(* Threads of which one sets up the tracker. *)
From Verif Require Import FirstUseModel.

Definition outset (st : Tracker) : scene := mkScene (mkMachine st [] []) (fun _ => Outside).
(* a thread is in the set-up *)
Definition inSetUp (x : place) : Prop := x <> Outside /\ x <> Past.
(* what the threads and the allocator may do: a thread calls tryInit when the tracker is
   set up or no other thread has called it *)
Inductive orderly (s : scene) : ledger -> move -> ledger -> Prop :=
| o_enter l t : places s t = Outside -> initialised (tracker (engine s)) = true \/ (forall u, places s u = Outside) -> orderly s l (Enter t) l
| o_advance l t : inSetUp (places s t) -> orderly s l (Advance t) l
| o_track l t p size record garbage l' : places s t = Past -> allowed l (MallocBegin p size record garbage) l' -> orderly s l (Track t p size record garbage) l'
| o_other l e l' : (forall p size record garbage, e <> MallocBegin p size record garbage) -> allowed l e l' -> orderly s l (Other e) l'.
(* executions of which every step is orderly *)
Inductive execution (fuel : nat) (st : Tracker) : list move -> scene -> ledger -> Prop :=
| e_start : execution fuel st [] (outset st) (mkLedger [] [] [])
| e_more l s k v s' k' : execution fuel st l s k -> orderly s k v k' -> moveStep fuel s v = Some s' -> execution fuel st (l ++ [v]) s' k'.
(* what of it is tracked *)
Definition eventOf (v : move) : list event :=
  match v with
  | Enter _ | Advance _ => []
  | Track _ p size record garbage => [MallocBegin p size record garbage]
  | Other e => [e]
  end.
Definition eventsOf (l : list move) : list event := flat_map eventOf l.
