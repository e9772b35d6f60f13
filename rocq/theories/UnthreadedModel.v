(* resource.c built with FIFTYONE_DEGREES_NO_THREADING: no exchanges, each call runs to
   its end.  Handles and events are those of ResourceModel; the events of a call are newest
   first and are of thread 0.  Assertions are off (NDEBUG). *)
From Verif Require Export CacheModel ResourceModel.

(* resource.h:157-182 *)
Record umanager := mkU { uhs : list handle; uactive : nat; utouched : bool }.

(* resource.c:272-275, 300-304: IncUse and the handle it returns, None for NULL *)
Definition uIncUse (u : umanager) : option (umanager * option nat) :=
  match nth_error (uhs u) (uactive u) with
  | None => None
  | Some hd => Some (mkU (lupd (uhs u) (uactive u) (mkH (inUse hd + 1) (self hd) (alive hd))) (uactive u) (utouched u || negb (alive hd)),
                     if self hd then Some (uactive u) else None)
  end.
(* resource.c:198-200, 230-236, 267-269, 162-165: DecUse; the pointer of the counter is
   what is compared and freed, and NULL there is undefined *)
Definition uDecUse (h : nat) (u : umanager) : option (umanager * list event) :=
  match nth_error (uhs u) h with
  | None => None
  | Some hd =>
    let touched' := utouched u || negb (alive hd) in
    if Z.eqb (inUse hd - 1) 0 && negb (self hd && Nat.eqb (uactive u) h) then
      if self hd then Some (mkU (lupd (uhs u) h (mkH (inUse hd - 1) true false)) (uactive u) touched', [Freed h]) else None
    else Some (mkU (lupd (uhs u) h (mkH (inUse hd - 1) (self hd) (alive hd))) (uactive u) touched', [])
  end.
(* resource.c:323-336, 349-355: Replace: the new handle, the active one counted, changed and released *)
Definition uReplace (u : umanager) : option (umanager * list event) :=
  match nth_error (uhs u) (uactive u) with
  | None => None
  | Some hd =>
    let nh := length (uhs u) in
    match uIncUse (mkU (uhs u ++ [mkH 0 true true]) (uactive u) (utouched u || negb (alive hd))) with
    | Some (u1, Some old) =>
      option_map (fun r => (fst r, snd r ++ [Activated nh; Created nh])) (uDecUse old (mkU (uhs u1) nh (utouched u1)))
    | _ => None
    end
  end.
(* resource.c:179-196: ManagerFree: a replace by NULL, whose handle is then freed *)
Definition uFree (u : umanager) : option (umanager * list event) :=
  match uReplace u with
  | None => None
  | Some (u1, evs) =>
    let nh := uactive u1 in
    match nth_error (uhs u1) nh with
    | None => None
    | Some hd => Some (mkU (lupd (uhs u1) nh (mkH (inUse hd) (self hd) false)) nh (utouched u1 || negb (alive hd)), HandleFreed nh :: evs)
    end
  end.
(* resource.c:179-355: a call *)
Definition ucall (a : action) (u : umanager) : option (umanager * list event) :=
  match a with
  | CallGet =>
    option_map (fun r => (fst r, [match snd r with Some h => Got 0 h | None => GotNull 0 end; GetBegin 0])) (uIncUse u)
  | CallRelease h => option_map (fun r => (fst r, Done 0 :: snd r ++ [RelBegin 0 h])) (uDecUse h u)
  | CallReplace => option_map (fun r => (fst r, Done 0 :: snd r)) (uReplace u)
  | CallFree => option_map (fun r => (fst r, Done 0 :: snd r ++ [FreeBegin 0])) (uFree u)
  | Continue => None
  end.
(* resource.c:167-177: ManagerInit *)
Definition uInit : umanager := mkU [mkH 0 true true] 0 false.
