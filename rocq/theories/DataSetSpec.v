(* What users of a manager see *)
From Verif Require Export DataSetModel.

(* operations of any number of users and of reloads, which have names *)
Inductive op := Get | Release (i : nat) | Begin (t : nat) | End (t : nat) (fromFile : bool) (o : outcome).
Inductive answer := IsSet (i : nat) | IsStatus (ok : bool) | NoAnswer.

(* the model with the reloads in progress and the data set each of them refers to *)
Record machine := mkMachine { world : World; reloads : list (nat * nat) }.
Fixpoint lookup (t : nat) (l : list (nat * nat)) : option nat :=
  match l with
  | [] => None
  | (u, e) :: l' => if Nat.eqb t u then Some e else lookup t l'
  end.
Definition without (t : nat) (l : list (nat * nat)) : list (nat * nat) := filter (fun r => negb (Nat.eqb t (fst r))) l.
Definition perform (o : op) (m : machine) : option (answer * machine) :=
  match o with
  | Get => option_map (fun '(i, w) => (IsSet i, mkMachine w (reloads m))) (DataSetGet (world m))
  | Release i => option_map (fun w => (NoAnswer, mkMachine w (reloads m))) (DataSetRelease i (world m))
  | Begin t => option_map (fun e => (NoAnswer, mkMachine (world m) ((t, e) :: reloads m))) (reloadBegin (world m))
  | End t fromFile o =>
    match lookup t (reloads m) with
    | None => None
    | Some e => option_map (fun '(ok, w) => (IsStatus ok, mkMachine w (without t (reloads m)))) (reloadEnd fromFile e o (world m))
    end
  end.
Fixpoint performAll (ops : list op) (m : machine) : option (list answer * machine) :=
  match ops with
  | [] => Some ([], m)
  | o :: ops' =>
    match perform o m with
    | None => None
    | Some (a, m') => option_map (fun '(l, m'') => (a :: l, m'')) (performAll ops' m')
    end
  end.

(* what is there: the current data set, the data sets users hold (one entry for each
   Get), the data sets there have been with their temp files, and the reloads in
   progress *)
Record view := mkView { current : nat; held : list nat; made : list (option nat); inProgress : list nat }.
Inductive sees : view -> op -> answer -> view -> Prop :=
| sees_get c h n p : sees (mkView c h n p) Get (IsSet c) (mkView c (c :: h) n p)
| sees_release c h1 i h2 n p : sees (mkView c (h1 ++ i :: h2) n p) (Release i) NoAnswer (mkView c (h1 ++ h2) n p)
| sees_begin c h n p t : ~ In t p -> sees (mkView c h n p) (Begin t) NoAnswer (mkView c h n (t :: p))
| sees_memory c h n p1 t p2 b : sees (mkView c h n (p1 ++ t :: p2)) (End t b NoMemory) (IsStatus false) (mkView c h n (p1 ++ p2))
| sees_fails c h n p1 t p2 b : sees (mkView c h n (p1 ++ t :: p2)) (End t b InitFails) (IsStatus false) (mkView c h (n ++ [None]) (p1 ++ p2))
| sees_ok c h n p1 t p2 b f k : sees (mkView c h n (p1 ++ t :: p2)) (End t b (InitOk f k)) (IsStatus true) (mkView (length n) h (n ++ [f]) (p1 ++ p2)).
Inductive seesAll : view -> list op -> list answer -> view -> Prop :=
| sees_none v : seesAll v [] [] v
| sees_more v o a v1 ops as_ v2 : sees v o a v1 -> seesAll v1 ops as_ v2 -> seesAll v (o :: ops) (a :: as_) v2.
Definition view0 (file : option nat) : view := mkView 0 [] [file] [].

(* reloads do not overlap, and handles can be allocated *)
Fixpoint oneReload (busy : bool) (ops : list op) : Prop :=
  match ops with
  | [] => True
  | Begin _ :: ops' => busy = false /\ oneReload true ops'
  | End _ _ o :: ops' => match o with InitOk _ false => False | _ => oneReload false ops' end
  | _ :: ops' => oneReload busy ops'
  end.
(* a data set in use: the current one or one that is held *)
Definition inUseBy (v : view) (i : nat) : Prop := i = current v \/ In i (held v).
(* the temp files of the data sets are different *)
Definition ownFiles (v : view) : Prop := forall i j f, nth_error (made v) i = Some (Some f) -> nth_error (made v) j = Some (Some f) -> i = j.
Definition start (file : option nat) : machine := mkMachine (managerInit file) [].
