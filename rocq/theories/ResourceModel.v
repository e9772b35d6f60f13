(* Model of /repo/resource.c: reference counted handles swapped by double
   width compare and exchange, with any number of threads.

   Every access to shared memory is one step.  Simplifications: a counter read
   ("compare = handle->counter", 16 bytes) is one access; memory is
   sequentially consistent; in-use counts do not overflow int32_t; handle
   blocks are numbered in order of allocation and a freed block keeps its
   contents and is not handed out again by malloc - instead [touched] records
   that a step accessed a block after it was freed, which is undefined
   behaviour in C.  Assertions are off (NDEBUG). *)
From Coq Require Export List Arith ZArith Lia Bool.
Export ListNotations.
From Verif Require Import CacheModel.

(* resource.h 157-169; self: the counter's handle pointer is the handle's own
   address (true) or NULL (false); alive: not yet passed to FreeAligned *)
Record handle := mkH { inUse : Z; self : bool; alive : bool }.

(* the value of a counter: count and self pointer (resource.c 37-41) *)
Definition counter := (Z * option nat)%type.
(* the counter of a handle, resource.h *)
Definition counterOf (h : nat) (hd : handle) : counter := (inUse hd, if self hd then Some h else None).
(* the comparison of the exchange *)
Definition counter_eqb (a b : counter) : bool :=
  Z.eqb (fst a) (fst b) &&
  match snd a, snd b with
  | Some x, Some y => Nat.eqb x y
  | None, None => true
  | _, _ => false
  end.

(* what an increment is for: a user's get, or a replace installing the handle
   nh; fin: the replace made by ManagerFree *)
Inductive incFor := ForUser | ForReplace (nh : nat) (fin : bool).

(* where a thread is in resource.c *)
Inductive tstate :=
| Idle
| Crashed                                          (* used a NULL handle *)
| RepStart (fin : bool)                            (* 334: manager->active *)
| RepRead (fin : bool) (a : nat)                   (* 334: ->freeResource *)
| Inc (k : incFor)                                 (* 279: manager->active *)
| IncRead (k : incFor) (a : nat)                   (* 279: ->counter *)
| IncAgain (k : incFor) (c : counter)              (* 293: manager->active *)
| IncCas (k : incFor) (c : counter) (a : nat)      (* 292-295 *)
| RepCas (nh : nat) (fin : bool) (old : nat)       (* 344-347 *)
| Dec (h : nat) (k : option nat)                   (* 210 *)
| DecCas (h : nat) (k : option nat) (c : counter)  (* 223-226 *)
| DecZero (h : nat) (k : option nat)               (* 236: manager->active *)
| DecEmpty (h : nat) (k : option nat)              (* 257-260 *)
| DecFree (h : nat) (k : option nat)               (* 265, 162-165 *)
| FreeNew (nh : nat).                              (* 194 *)

Record manager := mkM { hs : list handle; active : nat; touched : bool; thr : list tstate }.

(* what users see *)
Inductive event :=
| GetBegin (t : nat)
| Got (t h : nat)          (* IncUse returns handle h to a user *)
| GotNull (t : nat)        (* IncUse returns NULL to a user *)
| RelBegin (t h : nat)     (* a user calls DecUse for h *)
| Created (h : nat)        (* a replace set up handle h *)
| Activated (h : nat)      (* h became the manager's active handle *)
| Lost (h : nat)           (* a replace gave up installing h *)
| Freed (h : nat)          (* h's resource was freed *)
| HandleFreed (h : nat)    (* ManagerFree freed the block of its NULL resource *)
| Crash (t : nat)
| FreeBegin (t : nat)      (* ManagerFree called *)
| Done (t : nat).          (* a release, replace or manager free returns *)

Inductive action := CallGet | CallRelease (h : nat) | CallReplace | CallFree | Continue.

(* the state of a thread is changed *)
Definition setT (t : nat) (x : tstate) (m : manager) : manager :=
  mkM (hs m) (active m) (touched m) (lupd (thr m) t x).
(* access the block of handle h *)
Definition touch (hd : handle) (m : manager) : manager :=
  mkM (hs m) (active m) (touched m || negb (alive hd)) (thr m).
(* a handle is changed *)
Definition setH (h : nat) (hd : handle) (m : manager) : manager :=
  mkM (lupd (hs m) h hd) (active m) (touched m) (thr m).
(* the active handle is changed *)
Definition setActive (a : nat) (m : manager) : manager :=
  mkM (hs m) a (touched m) (thr m).

(* the end of DecUse: return to the caller *)
Definition afterDec (t : nat) (k : option nat) (m : manager) : manager * list event :=
  match k with
  | None => (setT t Idle m, [Done t])
  | Some nh => (setT t (FreeNew nh) m, [])
  end.

(* one step of a thread; the lines are with each case *)
Definition rstep (t : nat) (a : action) (m : manager) : option (manager * list event) :=
  match nth_error (thr m) t with
  | None => None
  | Some Idle =>
    match a with
    | CallGet => Some (setT t (Inc ForUser) m, [GetBegin t])
    | CallRelease h => Some (setT t (Dec h None) m, [RelBegin t h])
    | CallReplace => Some (setT t (RepStart false) m, [])
    | CallFree => Some (setT t (RepStart true) m, [FreeBegin t])
    | Continue => None
    end
  | Some x =>
    match a with
    | Continue =>
      match x with
      | Idle | Crashed => None
      (* 327-334 *)
      | RepStart fin => Some (setT t (RepRead fin (active m)) m, [])
      (* 334, 125-160: the new handle; 343 *)
      | RepRead fin a =>
        match nth_error (hs m) a with
        | None => None
        | Some hd =>
          let nh := length (hs m) in
          Some (setT t (Inc (ForReplace nh fin))
                 (touch hd (mkM (hs m ++ [mkH 0 true true]) (active m) (touched m) (thr m))),
                [Created nh])
        end
      (* 279 *)
      | Inc k => Some (setT t (IncRead k (active m)) m, [])
      | IncRead k a =>
        match nth_error (hs m) a with
        | None => None
        | Some hd => Some (setT t (IncAgain k (counterOf a hd)) (touch hd m), [])
        end
      (* 292-295 *)
      | IncAgain k c => Some (setT t (IncCas k c (active m)) m, [])
      | IncCas k c a =>
        match nth_error (hs m) a with
        | None => None
        | Some hd =>
          if counter_eqb (counterOf a hd) c then
            let m := setH a (mkH (inUse hd + 1) (self hd) (alive hd)) (touch hd m) in
            match snd c, k with
            (* 304 *)
            | Some h, ForUser => Some (setT t Idle m, [Got t h])
            | None, ForUser => Some (setT t Idle m, [GotNull t])
            (* 343-347 *)
            | Some h, ForReplace nh fin => Some (setT t (RepCas nh fin h) m, [])
            (* the exchange fails since active is not NULL, then DecUse(NULL) *)
            | None, ForReplace nh fin => Some (setT t Crashed m, [Crash t; Lost nh])
            end
          else Some (setT t (Inc k) (touch hd m), [])
        end
      (* 344-347, 354.  The macro returns the previous pointer, never false,
         so the loop ends whether or not the exchange was made. *)
      | RepCas nh fin old =>
        let k := if fin then Some nh else None in
        if Nat.eqb (active m) old
        then Some (setT t (Dec old k) (setActive nh m), [Activated nh])
        else Some (setT t (Dec old k) m, [Lost nh])
      (* 210 *)
      | Dec h k =>
        match nth_error (hs m) h with
        | None => None
        | Some hd => Some (setT t (DecCas h k (counterOf h hd)) (touch hd m), [])
        end
      (* 223-226, 235 *)
      | DecCas h k c =>
        match nth_error (hs m) h with
        | None => None
        | Some hd =>
          if counter_eqb (counterOf h hd) c then
            let m := setH h (mkH (inUse hd - 1) (self hd) (alive hd)) (touch hd m) in
            if Z.eqb (inUse hd - 1) 0 then Some (setT t (DecZero h k) m, [])
            else Some (afterDec t k m)
          else Some (setT t (Dec h k) (touch hd m), [])
        end
      (* 236.  The self pointer of the copy is h here: a counter with a user is
         never emptied (ResourceProofs.HInv) *)
      | DecZero h k =>
        match nth_error (hs m) h with
        | None => None
        | Some hd =>
          let m := touch hd m in
          if Nat.eqb (active m) h then Some (afterDec t k m)
          else Some (setT t (DecEmpty h k) m, [])
        end
      (* 257-260 *)
      | DecEmpty h k =>
        match nth_error (hs m) h with
        | None => None
        | Some hd =>
          let m := touch hd m in
          if counter_eqb (counterOf h hd) (0%Z, Some h)
          then Some (setT t (DecFree h k) (setH h (mkH 0 false (alive hd)) m), [])
          else Some (afterDec t k m)
        end
      (* 265, 162-165 *)
      | DecFree h k =>
        match nth_error (hs m) h with
        | None => None
        | Some hd =>
          let m := setH h (mkH (inUse hd) (self hd) false) (touch hd m) in
          let (m', evs) := afterDec t k m in
          Some (m', evs ++ [Freed h])
        end
      (* 194 *)
      | FreeNew nh =>
        match nth_error (hs m) nh with
        | None => None
        | Some hd =>
          Some (setT t Idle (setH nh (mkH (inUse hd) (self hd) false) (touch hd m)), [Done t; HandleFreed nh])
        end
      end
    | _ => None
    end
  end.

(* 167-177 *)
Definition ManagerInit (nthreads : nat) : manager * list event :=
  (mkM [mkH 0 true true] 0 false (repeat Idle nthreads), [Activated 0]).
