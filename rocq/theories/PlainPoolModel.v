(* pool.c built with FIFTYONE_DEGREES_NO_THREADING: get and release change the head without
   an exchange and leave its ABA value.  The events of a call are newest first and are of
   thread 0. *)
From Verif Require Export CacheModel PoolModel.

(* pool.h:187-210: the stack, its resources and the index of the head *)
Record plain := mkPlain { pnexts : list nat; presources : list bool; phead : nat }.
(* pool.c:24-74: PoolInit is the same in both builds *)
Definition plainOf (p : pool) : plain := mkPlain (nexts p) (resources p) (idx (hd_ p)).

(* pool.c:76-92, 101-105 *)
Definition plainGet (q : plain) : option (plain * list event) :=
  match nth_error (presources q) (phead q) with
  | None => None
  | Some false => Some (q, [Exhausted 0; Read 0; GetBegin 0])
  | Some true =>
    match nth_error (pnexts q) (phead q) with
    | None => None
    | Some nx => Some (mkPlain (pnexts q) (presources q) nx, [Got 0 (phead q); Read 0; GetBegin 0])
    end
  end.
(* pool.c:107, 119-123 *)
Definition plainRelease (i : nat) (q : plain) : option (plain * list event) :=
  if Nat.ltb i (length (pnexts q)) then Some (mkPlain (lupd (pnexts q) i (phead q)) (presources q) i, [RelEnd 0 i; RelBegin 0 i])
  else None.
(* pool.c:76-124: a call *)
Definition plainCall (a : action) (q : plain) : option (plain * list event) :=
  match a with CallGet => plainGet q | CallRelease i => plainRelease i q | Continue => None end.
