(* What a user of signals does and what there should be at any time *)
From Verif Require Export SignalLifeModel LifeSpec.
Local Open Scope Z_scope.

(* what the user does; the signals are known by the number of their creation *)
Inductive use := Create (okMalloc okCond okMutex : bool) | Use (k : nat) | Close (k : nat).
(* a signal the user was given: none, open or closed *)
Inductive given := NoSignal | Open (p : nat) | Closed (p : nat).
(* a signal is closed *)
Fixpoint shut (k : nat) (l : list given) : list given :=
  match l, k with
  | Open p :: l', O => Closed p :: l'
  | g :: l', S k => g :: shut k l'
  | l, _ => l
  end.
(* what the user was given, newest last, after some uses: closed signals are not
   used, and there may be calls to close NULL *)
Inductive used (s0 : signals) : signals -> list given -> Prop :=
| used_none : used s0 s0 []
| used_create s l a b c s' r : used s0 s l -> SignalCreate s a b c = Some (s', r) ->
    used s0 s' (l ++ [match r with Some p => Open p | None => NoSignal end])
| used_use s l k p s' : used s0 s l -> nth_error l k = Some (Open p) -> SignalUse s p = Some s' -> used s0 s' l
| used_close s l k p s' : used s0 s l -> nth_error l k = Some (Open p) -> SignalClose s (Some p) = Some s' -> used s0 s' (shut k l)
| used_null s l s' : used s0 s l -> SignalClose s None = Some s' -> used s0 s' l.

(* the signals that are open *)
Fixpoint opened (l : list given) : list nat := match l with [] => [] | Open p :: l' => p :: opened l' | _ :: l' => opened l' end.
(* all signals that were given, open or closed *)
Fixpoint allGiven (l : list given) : list nat := match l with [] => [] | (Open p | Closed p) :: l' => p :: allGiven l' | NoSignal :: l' => allGiven l' end.
(* no two live blocks have one address, and the condition variables and mutexes are in
   live blocks or were left in blocks given back *)
Definition started (s : signals) : Prop :=
  older (heap s) /\ NoDup (conds s) /\ NoDup (mutexes s) /\
  (forall p, In p (conds s) \/ In p (mutexes s) -> (p < fresh (heap s))%nat).
