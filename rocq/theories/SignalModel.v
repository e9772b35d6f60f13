(* threading.c: signals on POSIX systems, with any number of threads.  Each call of a
   pthread function and each access to the signal is one step.  A mutex is locked by
   at most one thread; pthread_cond_wait unlocks it and joins the waiting threads in
   one step, and locks it again before it returns; pthread_cond_signal ends the wait
   of one or more of them if there are any; a wait may also end without (IEEE 1003.1).
   The calls of pthread functions succeed. *)
From Coq Require Export List Arith Lia Bool.
Export ListNotations.

(* where a thread is *)
Inductive tstate :=
| Idle
| SetLock | SetStore | SetSignal | SetUnlock     (* threading.c:116-122 *)
| WaitLock | WaitTest | Sleep | Relock | WaitStore | WaitUnlock. (* threading.c:124-137 *)

(* threading.h:121-125 fiftyoneDegreesSignal *)
Record Signal := mkSignal { wait : bool; mutex : option nat; threads : list tstate }.

(* what a thread does next *)
Inductive action :=
| CallSet | CallWait
| Continue (woken : list nat) (* the threads whose wait ends, if the step is pthread_cond_signal *)
| Spurious.                   (* the wait of the thread ends without a signal *)
Inductive event := SetDone (t : nat) | Returned (t : nat).

(* the state of a thread in a list is changed *)
Fixpoint put (t : nat) (x : tstate) (l : list tstate) : list tstate :=
  match l, t with
  | [], _ => []
  | _ :: l', O => x :: l'
  | y :: l', S u => y :: put u x l'
  end.
(* the thread is now at x *)
Definition at_ (t : nat) (x : tstate) (s : Signal) : Signal := mkSignal (wait s) (mutex s) (put t x (threads s)).
(* pthread_mutex_lock, if the mutex is free *)
Definition lock (t : nat) (x : tstate) (s : Signal) : option (Signal * list event) :=
  match mutex s with
  | None => Some (mkSignal (wait s) (Some t) (put t x (threads s)), [])
  | Some _ => None
  end.
(* pthread_mutex_unlock *)
Definition unlock (t : nat) (x : tstate) (s : Signal) : Signal := mkSignal (wait s) None (put t x (threads s)).
(* the thread is in pthread_cond_wait *)
Definition isSleep (x : option tstate) : bool := match x with Some Sleep => true | _ => false end.
(* the thread is in pthread_cond_wait *)
Definition sleeps (s : Signal) (t : nat) : bool := isSleep (nth_error (threads s) t).
(* the threads that pthread_cond_signal lets go on *)
Definition wakeable (s : Signal) (woken : list nat) : bool :=
  forallb (sleeps s) woken && (negb (existsb (fun x => isSleep (Some x)) (threads s)) || negb (Nat.eqb (length woken) 0)).
(* the threads that go on to lock the mutex again *)
Definition wake (woken : list nat) (s : Signal) : Signal :=
  mkSignal (wait s) (mutex s) (fold_right (fun t l => put t Relock l) (threads s) woken).

(* one step of a thread; the lines are with each case *)
Definition step (t : nat) (a : action) (s : Signal) : option (Signal * list event) :=
  match nth_error (threads s) t with
  | None => None
  | Some x =>
    match x, a with
    | Idle, CallSet => Some (at_ t SetLock s, [])
    | Idle, CallWait => Some (at_ t WaitLock s, [])
    (* threading.c:116-122 fiftyoneDegreesSignalSet *)
    | SetLock, Continue [] => lock t SetStore s
    | SetStore, Continue [] => Some (mkSignal false (mutex s) (put t SetSignal (threads s)), [SetDone t])
    | SetSignal, Continue woken => if wakeable s woken then Some (at_ t SetUnlock (wake woken s), []) else None
    | SetUnlock, Continue [] => Some (unlock t Idle s, [])
    (* threading.c:124-137 fiftyoneDegreesSignalWait *)
    | WaitLock, Continue [] => lock t WaitTest s
    | WaitTest, Continue [] => if wait s then Some (unlock t Sleep s, []) else Some (at_ t WaitStore s, [])
    | Sleep, Spurious => Some (at_ t Relock s, [])
    | Relock, Continue [] => lock t WaitTest s
    | WaitStore, Continue [] => Some (mkSignal true (mutex s) (put t WaitUnlock (threads s)), [Returned t])
    | WaitUnlock, Continue [] => Some (unlock t Idle s, [])
    | _, _ => None
    end
  end.

(* threading.c:97-108 fiftyoneDegreesSignalCreate *)
Definition SignalCreate (n : nat) : Signal := mkSignal false None (repeat Idle n).
