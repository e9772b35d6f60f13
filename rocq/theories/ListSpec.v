(* What a list is: closed, or open with a capacity and the items added *)
From Verif Require Export ListModel.

Inductive op := Init (c : Z) | Add (x : Item) | Get (i : Z) | Reset | Release | Close.
Inductive state := Closed | Open (c : Z) (held : list Item).
(* an operation used as list.h says, what it releases and what it returns *)
Inductive uses : state -> op -> state -> list Item -> option Z -> Prop :=
| uses_init c : (0 <= c < 2 ^ 32)%Z -> uses Closed (Init c) (Open c []) [] None
| uses_add c held x : (Z.of_nat (length held) < c)%Z -> collection x <> None -> uses (Open c held) (Add x) (Open c (held ++ [x])) [] None
| uses_get c held i x : (0 <= i)%Z -> nth_error held (Z.to_nat i) = Some x -> uses (Open c held) (Get i) (Open c held) [] (Some (dataPtr x))
| uses_reset : uses Closed Reset Closed [] None
| uses_release_closed : uses Closed Release Closed [] None
| uses_release c held : uses (Open c held) Release (Open c []) held None
| uses_close_closed : uses Closed Close Closed [] None
| uses_close c held : uses (Open c held) Close Closed held None.
Inductive usesAll : state -> list op -> state -> list Item -> list (option Z) -> Prop :=
| uses_none s : usesAll s [] s [] []
| uses_more s o s1 rel res ops s2 rels ress : uses s o s1 rel res -> usesAll s1 ops s2 rels ress -> usesAll s (o :: ops) s2 (rel ++ rels) (res :: ress).

Definition heldBy (s : state) : list Item := match s with Closed => [] | Open _ h => h end.
(* the operation in the model *)
Definition perform (o : op) (w : World) : option (option Z * World) :=
  match o with
  | Init c => match ListInit true c w with (true, w') => Some (None, w') | _ => None end
  | Add x => option_map (pair None) (ListAdd x w)
  | Get i => option_map (fun p => (Some p, w)) (ListGetAsString i w)
  | Reset => Some (None, ListReset w)
  | Release => option_map (pair None) (ListRelease w)
  | Close => option_map (pair None) (ListFree w)
  end.
Fixpoint performAll (ops : list op) (w : World) : option (list (option Z) * World) :=
  match ops with
  | [] => Some ([], w)
  | o :: ops' =>
    match perform o w with
    | None => None
    | Some (r, w') => option_map (fun '(rs, w'') => (r :: rs, w'')) (performAll ops' w')
    end
  end.

(* the items added *)
Definition added (ops : list op) : list Item := flat_map (fun o => match o with Add x => [x] | _ => [] end) ops.
(* blocks not freed *)
Definition liveBlocks {A} (l : list (option A)) : list A := flat_map (fun b => match b with Some x => [x] | None => [] end) l.

(* a list before its first use: closed *)
Definition closed0 : World := mkWorld (mkList None 0 0) [] [].

(* calls of DataMalloc: bytes needed, whether Malloc succeeds *)
Fixpoint mallocs (calls : list (Z * bool)) (s : Data * list (option Z)) : option (list (option nat) * (Data * list (option Z))) :=
  match calls with
  | [] => Some ([], s)
  | (n, ok) :: calls' =>
    match DataMalloc ok n s with
    | None => None
    | Some (p, s') => option_map (fun '(ps, s'') => (p :: ps, s'')) (mallocs calls' s')
    end
  end.
