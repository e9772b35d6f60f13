(* What signals are for *)
From Verif Require Export SignalModel.

(* every interleaving; events, newest first *)
Inductive exec (n : nat) : list event -> Signal -> Prop :=
| exec_start : exec n [] (SignalCreate n)
| exec_step tr s t a s' evs : exec n tr s -> step t a s = Some (s', evs) -> exec n (evs ++ tr) s'.

(* nothing happens unless a method is called, or a wait ends without a signal *)
Definition stuck (s : Signal) : Prop := forall t woken, step t (Continue woken) s = None.
(* a thread is in SignalWait and has not got the signal *)
Definition waiting (s : Signal) (t : nat) : Prop :=
  match nth_error (threads s) t with Some (WaitLock | WaitTest | Sleep | Relock | WaitStore) => True | _ => False end.
(* the signal was set, or created, and no wait has returned since *)
Definition isSet (tr : list event) : Prop := match tr with Returned _ :: _ => False | _ => True end.

(* steps of the threads alone *)
Inductive goesOn : nat -> Signal -> list event -> Signal -> Prop :=
| goes_none s : goesOn 0 s [] s
| goes_more k s t woken s1 evs tr s2 : step t (Continue woken) s = Some (s1, evs) -> goesOn k s1 tr s2 -> goesOn (S k) s (tr ++ evs) s2.
