(* Specification of the tree as a finite map, and histories of calls.
   Nothing here mentions links, colours or the shape of the tree. *)
From Verif Require Import TreeModel.

(* A history of calls on one tree.  [Insert p k] is the caller idiom
   "node->key = k; TreeInsert(node)" (cache.c 285-287, memory.c 118-131). *)
Inductive op :=
| Insert (p : ptr) (k : Z)
| Delete (p : ptr)
| Remove (p : ptr).   (* TreeNodeRemove *)

(* present: which node is stored under which key; clean: nodes that have been
   initialised or removed since they were last in the tree *)
Record spec := mkspec { present : list (Z * ptr); clean : list ptr }.

Definition hasKey (k : Z) (s : spec) : bool := existsb (fun e => Z.eqb k (fst e)) (present s).
Definition hasNode (p : ptr) (s : spec) : bool := existsb (fun e => Nat.eqb p (snd e)) (present s).
Definition isClean (p : ptr) (s : spec) : bool := existsb (Nat.eqb p) (clean s).
Definition lookup (k : Z) (s : spec) : option ptr :=
  option_map snd (find (fun e => Z.eqb k (fst e)) (present s)).

(* None: the call is outside the documented use (key already present, node
   already in the tree, deleting a node that is neither in the tree nor
   clean, unknown node) *)
Definition step (ns : list ptr) (s : spec) (o : op) : option spec :=
  match o with
  | Insert p k =>
    if existsb (Nat.eqb p) ns && negb (hasKey k s) && negb (hasNode p s)
    then Some (mkspec ((k, p) :: present s)
                      (filter (fun q => negb (Nat.eqb p q)) (clean s)))
    else None
  | Delete p =>
    if hasNode p s
    then Some (mkspec (filter (fun e => negb (Nat.eqb p (snd e))) (present s)) (clean s))
    else if isClean p s then Some s else None
  | Remove p =>
    if existsb (Nat.eqb p) ns && negb (hasNode p s)
    then Some (mkspec (present s) (p :: clean s))
    else None
  end.
Fixpoint steps (ns : list ptr) (s : spec) (os : list op) : option spec :=
  match os with
  | [] => Some s
  | o :: os' => match step ns s o with Some s' => steps ns s' os' | None => None end
  end.

(* the same history run on the code *)
Definition runOp (fuel : nat) (o : op) : M unit :=
  match o with
  | Insert p k => set_key k p ;;; TreeInsert fuel p
  | Delete p => TreeDelete fuel p
  | Remove p => TreeNodeRemove p
  end.
Fixpoint runOps (fuel : nat) (os : list op) : M unit :=
  match os with [] => ret tt | o :: os' => runOp fuel o ;;; runOps fuel os' end.
Fixpoint initNodes (ns : list ptr) : M unit :=
  match ns with [] => ret tt | p :: ns' => TreeNodeInit p ;;; initNodes ns' end.
(* TreeRootInit then TreeNodeInit of each node (cache.c 94-113) *)
Definition initTree (ns : list ptr) : M unit := TreeRootInit ;;; initNodes ns.

(* memory in which the root record and the nodes ns are allocated, with any
   content *)
Definition allocated (ns : list ptr) (h : heap) : Prop :=
  NoDup ns /\ (forall p, In p ns -> 3 <= p) /\
  (forall p, In p ns \/ p = ROOT \/ p = EMPTY -> h p <> None).

(* memory cut down to the given nodes and the root record *)
Definition only (ps : list ptr) (h : heap) : heap :=
  fun q => if Nat.eqb q ROOT || Nat.eqb q EMPTY || existsb (Nat.eqb q) ps then h q else None.

(* enough loop iterations for a tree of at most n nodes *)
Definition bound (n : nat) : nat := 2 * Nat.log2 (n + 1) + 2.

(* the node an operation is called with *)
Definition opNode (o : op) : ptr :=
  match o with Insert p _ => p | Delete p => p | Remove p => p end.

(* follow left (true) and right (false) links from p *)
Fixpoint descend (ds : list bool) (p : ptr) : M ptr :=
  match ds with
  | [] => ret p
  | d :: ds' => q <- (if d then ld left p else ld right p) ;; descend ds' q
  end.
