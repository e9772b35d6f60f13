(* threading.c 97-137: what a signal takes when it is created and gives back when it
   is closed, on POSIX systems.  The heap is that of ItemModel; a condition variable
   or mutex that was initialised and not destroyed is known by the block of its
   signal.  Malloc and the two init functions succeed or fail as an input says.  None:
   undefined behaviour - a block that is not live, or a condition variable or mutex
   that is not initialised, is used. *)
From Verif Require Export LifeModel.
Local Open Scope Z_scope.

(* the heap, the condition variables and the mutexes *)
Record signals := mkSignals { heap : mem; conds : list nat; mutexes : list nat }.
(* a condition variable or mutex of the list *)
Definition has (l : list nat) (p : nat) : bool := existsb (Nat.eqb p) l.
(* pthread_cond_destroy, pthread_mutex_destroy *)
Definition destroy (l : list nat) (p : nat) : option (list nat) :=
  if has l p then Some (filter (fun q => negb (Nat.eqb p q)) l) else None.
(* threading.h 121-125: memory size of the structure, with the sizes of Linux *)
Definition sizeofSignal : Z := 96.

(* threading.c:97-108 fiftyoneDegreesSignalCreate *)
Definition SignalCreate (s : signals) (okMalloc okCond okMutex : bool) : option (signals * option nat) :=
  if okMalloc then
    let (m, p) := alloc (heap s) sizeofSignal in
    match write m p 1 with
    | Some m =>
      let cs := if okCond then p :: conds s else conds s in
      if okCond && okMutex then Some (mkSignals m cs (p :: mutexes s), Some p)
      else match free m p with Some m => Some (mkSignals m cs (mutexes s), None) | None => None end
    | None => None
    end
  else Some (s, None).

(* threading.c:110-115 fiftyoneDegreesSignalClose *)
Definition SignalClose (s : signals) (signal : option nat) : option signals :=
  match signal with
  | None => Some s
  | Some p =>
    match sizeOf (live (heap s)) p with
    | None => None
    | Some _ =>
      match destroy (mutexes s) p with
      | None => None
      | Some ms => match destroy (conds s) p with None => None | Some cs => Some (mkSignals (heap s) cs ms) end
      end
    end
  end.

(* threading.c:117-137 fiftyoneDegreesSignalSet and SignalWait: what they need of the
   signal (SignalModel has what they do) *)
Definition SignalUse (s : signals) (p : nat) : option signals :=
  match write (heap s) p 1 with
  | Some m => if has (mutexes s) p && has (conds s) p then Some s else None
  | None => None
  end.
