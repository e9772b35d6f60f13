(* Model of /repo/file.c 60-97 and 961-1003: the pool of file handles, over
   the model of pool.c (PoolModel).

   A file handle is named by the number of the pool item it was opened for;
   opening is fopen, once for each item, and each call may succeed or fail on
   its own ([opens]).  The calling thread is thread 0 and runs alone while
   the pool is initialised; afterwards the pool is the one of PoolModel, used
   by any number of threads.  None is undefined behaviour. *)
From Verif Require Import CacheModel PoolModel.

(* status.h: the codes that these functions return or set; [OPEN c] is any of
   the codes that fileOpen (file.c 99-168) gives for a file that could not be
   opened, told apart by c *)
Inductive code := SUCCESS | INVALID_COLLECTION_CONFIG | INSUFFICIENT_MEMORY
  | INSUFFICIENT_HANDLES | FILE_FAILURE | OPEN (c : nat).

(* the exception of the caller: NULL, or a status, None being
   STATUS_NOT_SET (exceptions.h) *)
Definition exc := option (option code).

(* exceptions.h 122-133: EXCEPTION_SET *)
Definition exceptionSet (e : exc) (c : code) : exc :=
  match e with None => None | Some _ => Some (Some c) end.

(* exceptions.h 142-143: EXCEPTION_OKAY *)
Definition okay (e : exc) : bool :=
  match e with Some (Some _) => false | _ => true end.

(* file.h 227-230: fiftyoneDegreesFilePool; count is pool.count *)
Record filePool := mkFilePool { pl : pool; cnt : nat; length_ : Z }.

(* file.c 60-70: createFileHandle for item i, as PoolModel wants it: whether
   there is a resource and whether EXCEPTION_OKAY holds afterwards (it holds
   before) *)
Definition createFileHandle (e : exc) (opens : nat -> option nat) (i : nat) : bool * bool :=
  match opens i with
  | None => (true, true)
  | Some c => (false, okay (exceptionSet e (OPEN c)))
  end.

(* the exception after PoolInit created [count] resources: only the last can
   have set it, pool.c 56 *)
Definition excAfter (e : exc) (opens : nat -> option nat) (count : nat) : exc :=
  match count with
  | 0 => e
  | S _ => match opens count with None => e | Some c => exceptionSet e (OPEN c) end
  end.

(* pool.c 76-105: a get by thread 0 running alone; the item, or None and
   INSUFFICIENT_HANDLES *)
Definition getAlone (p : pool) : option (pool * option nat) :=
  match pstep 0 CallGet p with
  | None => None
  | Some (p1, _) =>
    match pstep 0 Continue p1 with
    | None => None
    | Some (p2, _) =>
      match pstep 0 Continue p2 with
      | None => None
      | Some (p3, [Exhausted _]) => Some (p3, None)
      | Some (p3, _) =>
        match pstep 0 Continue p3 with
        | Some (p4, [Got _ i]) => Some (p4, Some i)
        | _ => None
        end
      end
    end
  end.

(* pool.c 107-124: a release of item i by thread 0 running alone *)
Definition releaseAlone (i : nat) (p : pool) : option pool :=
  match pstep 0 (CallRelease i) p with
  | None => None
  | Some (p1, _) =>
    match pstep 0 Continue p1 with
    | None => None
    | Some (p2, _) =>
      match pstep 0 Continue p2 with
      | None => None
      | Some (p3, _) =>
        match pstep 0 Continue p3 with
        | Some (p4, _) => Some p4
        | None => None
        end
      end
    end
  end.

(* file.c 80-85: fileGetSize; [seek] is whether fseek succeeds, [tell] what
   ftell answers (-1 when it fails) *)
Definition fileGetSize (seek : bool) (tell : Z) : Z := if seek then tell else (-1)%Z.

(* file.c 87-96: setLength *)
Definition setLength (e : exc) (p : pool) (count : nat) (seek : bool) (tell : Z) : option (filePool * exc) :=
  match getAlone p with
  | None => None
  | Some (p', None) => Some (mkFilePool p' count 0, exceptionSet e INSUFFICIENT_HANDLES)
  | Some (p', Some i) =>
    match releaseAlone i p' with
    | None => None
    | Some p'' => Some (mkFilePool p'' count (fileGetSize seek tell), e)
    end
  end.

(* what the caller of FilePoolInit is left with.  The pool is None if it was
   not written, or if it holds no memory. *)
Record initResult := mkInit { ret : code; fp : option filePool; except : exc }.

(* file.c 961-989: fiftyoneDegreesFilePoolInit.  [malloc] is whether the
   stack of the pool (pool.c 47) can be allocated.  Length is indeterminate
   until setLength, here 0.  The last branch of the source (984-986,
   INSUFFICIENT_MEMORY) needs PoolInit to return NULL, which it never does
   (pool.c 73). *)
Definition FilePoolInit (concurrency : nat) (e : exc) (malloc : bool) (opens : nat -> option nat)
  (seek : bool) (tell : Z) (nthreads : nat) : option initResult :=
  if Nat.leb concurrency 0 then Some (mkInit INVALID_COLLECTION_CONFIG None e)
  else if negb malloc then
    (* pool.c 69-71; with no exception EXCEPTION_OKAY holds and FileHandleGet
       reads through the NULL stack, pool.c 89 *)
    match e with
    | None => None
    | Some _ => Some (mkInit INSUFFICIENT_MEMORY None (exceptionSet e INSUFFICIENT_MEMORY))
    end
  else
    (* pool.c 56: nothing is created if the exception was set before *)
    match PoolInit concurrency (fun i => if okay e then createFileHandle e opens i else (false, false)) nthreads with
    | None => None
    | Some (p, count) =>
      match e with
      | Some (Some c) =>
        let n := List.length (nexts p) in
        Some (mkInit c (Some (mkFilePool (mkpool (repeat 0 n) (repeat false n) (mkhead 0 0) 0 (threads p)) 0 0)) e)
      | _ =>
        let e' := excAfter e opens count in
        match e' with
        | Some (Some c) => Some (mkInit c (Some (mkFilePool p count 0)) e')
        | _ =>
          match setLength e' p count seek tell with
          | None => None
          | Some (f, e'') => Some (mkInit (if Z.eqb (length_ f) 0 then FILE_FAILURE else SUCCESS) (Some f) e'')
          end
        end
      end
    end.

(* file.c 1001-1003, 72-74: fiftyoneDegreesFilePoolRelease; the handles
   closed, in order *)
Definition FilePoolRelease (f : filePool) : list nat := PoolFree (pl f) (cnt f).
