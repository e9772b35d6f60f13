(* Specification of the pool: what a history of events says about an item. *)
From Verif Require Import CacheModel PoolModel.

Inductive stat := Free | Held | Releasing (t : nat).

(* newest event first *)
Fixpoint status (tr : list event) (i : nat) : stat :=
  match tr with
  | [] => Free
  | Got _ j :: tr' => if Nat.eqb i j then Held else status tr' i
  | RelBegin t j :: tr' => if Nat.eqb i j then Releasing t else status tr' i
  | RelEnd _ j :: tr' => if Nat.eqb i j then Free else status tr' i
  | _ :: tr' => status tr' i
  end.

(* users release only items they hold *)
Definition wellUsed (tr : list event) (a : action) : Prop :=
  match a with CallRelease i => status tr i = Held | _ => True end.

(* fewer than 2^16 exchanges since the thread read the head *)
Definition window (p : pool) (t : nat) : Prop :=
  match nth_error (threads p) t with
  | Some (TGetNext _ v _) | Some (TRelNext _ _ v) => ver p - v < 2 ^ 16
  | _ => True
  end.

(* every interleaving: any thread may take the next step.  [W] restricts the
   steps considered. *)
Inductive exec (W : pool -> nat -> Prop) (p0 : pool) : list event -> pool -> Prop :=
| exec_nil : exec W p0 [] p0
| exec_cons tr p t a p' evs :
    exec W p0 tr p -> wellUsed tr a -> W p t -> pstep t a p = Some (p', evs) ->
    exec W p0 (evs ++ tr) p'.

Definition anyWindow (p : pool) (t : nat) : Prop := True.

(* a freshly initialised pool of n items used by any number of threads *)
Definition fresh (n nthreads : nat) (p0 : pool) : Prop :=
  PoolInit n (fun _ => (true, true)) nthreads = Some (p0, n).

(* one thread gets an item with no other thread running *)
Definition soloGet (t : nat) (p : pool) : option (pool * list event) :=
  match pstep t CallGet p with
  | Some (p1, _) =>
    match pstep t Continue p1 with
    | Some (p2, _) =>
      match pstep t Continue p2 with
      | Some (p3, [Exhausted t']) => Some (p3, [Exhausted t'])
      | Some (p3, _) =>
        match pstep t Continue p3 with
        | Some (p4, e) => Some (p4, e)
        | None => None
        end
      | None => None
      end
    | None => None
    end
  | None => None
  end.
Fixpoint soloGets (t : nat) (k : nat) (p : pool) : option (list event) :=
  match k with
  | 0 => Some []
  | S k' =>
    match soloGet t p with
    | Some (p', e) => match soloGets t k' p' with Some es => Some (e ++ es) | None => None end
    | None => None
    end
  end.
