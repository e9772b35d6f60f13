(* Model of /repo/resource.c on a heap that hands out freed blocks again.
   The steps are those of ResourceModel.v, on blocks; what is new is the block
   that MallocAligned gives a new handle (resource.c 136-139), any block that
   is free, and which resource each block's handle is for (156). *)
From Verif Require Import CacheModel ResourceModel.

(* core: the blocks, manager->active (a block) and the threads; res: the resource of each block's
   handle; made: resources so far *)
Record rmanager := mkR { core : manager; res : list nat; made : nat }.
(* handle->resource of a block *)
Definition resOf (m : rmanager) (h : nat) : nat := nth h (res m) 0.

(* what a thread does: calls, where Release is of the handle in block h that the user got with the
   resource r, and steps, with the block p that MallocAligned gives if the step allocates one *)
Inductive raction := Get | Release (h r : nat) | Replace | FreeManager | Go (p : nat).

(* the block an event is about *)
Definition blockOf (e : event) : nat :=
  match e with
  | Got _ h | RelBegin _ h | Created h | Activated h | Lost h | Freed h | HandleFreed h => h
  | _ => 0
  end.
(* events with the resource of the block *)
Definition note (m : rmanager) (evs : list event) : list (event * nat) := map (fun e => (e, resOf m (blockOf e))) evs.
(* a step that does not allocate *)
Definition lift (m : rmanager) (r : option (manager * list event)) : option (rmanager * list (event * nat)) :=
  match r with
  | None => None
  | Some (c, evs) => Some (mkR c (res m) (made m), note m evs)
  end.
(* a block that can be given: a freed one or a new one *)
Definition freeBlock (m : rmanager) (p : nat) : bool :=
  match nth_error (hs (core m)) p with
  | Some hd => negb (alive hd)
  | None => Nat.eqb p (length (hs (core m)))
  end.
(* a block is set *)
Definition put {A} (l : list A) (p : nat) (x : A) : list A := if Nat.ltb p (length l) then lupd l p x else l ++ [x].

(* one step of a thread *)
Definition reuseStep (t : nat) (a : raction) (m : rmanager) : option (rmanager * list (event * nat)) :=
  match a with
  | Get => lift m (rstep t CallGet (core m))
  | Replace => lift m (rstep t CallReplace (core m))
  | FreeManager => lift m (rstep t CallFree (core m))
  | Release h r =>
    match rstep t (CallRelease h) (core m) with
    | None => None
    | Some (c, _) => Some (mkR c (res m) (made m), [(RelBegin t h, r)])
    end
  | Go p =>
    match nth_error (thr (core m)) t with
    | Some (RepRead fin a) =>
      (* 327-334, 125-160 *)
      match nth_error (hs (core m)) a with
      | None => None
      | Some hd =>
        if freeBlock m p then
          Some (mkR (setT t (Inc (ForReplace p fin))
                      (touch hd (mkM (put (hs (core m)) p (mkH 0 true true)) (active (core m)) (touched (core m)) (thr (core m)))))
                  (put (res m) p (made m)) (S (made m)),
                [(Created p, made m)])
        else None
      end
    | _ => lift m (rstep t Continue (core m))
    end
  end.

(* resource.c 167-177 *)
Definition reuseInit (nthreads : nat) : rmanager * list (event * nat) :=
  (mkR (fst (ManagerInit nthreads)) [0] 1, [(Activated 0, 0)]).
