(* Specification of the resource manager over histories of events, newest
   first. *)
From Verif Require Import CacheModel ResourceModel.

Definition count (f : event -> nat) (tr : list event) : nat := list_sum (map f tr).
Definition isGot (h : nat) (e : event) : nat := match e with Got _ j => if Nat.eqb j h then 1 else 0 | _ => 0 end.
Definition isRel (h : nat) (e : event) : nat := match e with RelBegin _ j => if Nat.eqb j h then 1 else 0 | _ => 0 end.
Definition isAct (h : nat) (e : event) : nat := match e with Activated j => if Nat.eqb j h then 1 else 0 | _ => 0 end.
Definition isLost (h : nat) (e : event) : nat := match e with Lost j => if Nat.eqb j h then 1 else 0 | _ => 0 end.
Definition isFreed (h : nat) (e : event) : nat := match e with Freed j => if Nat.eqb j h then 1 else 0 | _ => 0 end.
Definition isHFreed (h : nat) (e : event) : nat := match e with HandleFreed j => if Nat.eqb j h then 1 else 0 | _ => 0 end.

(* users who got h and have not yet called release *)
Definition users (tr : list event) (h : nat) : nat := count (isGot h) tr - count (isRel h) tr.
Definition timesFreed (tr : list event) (h : nat) : nat := count (isFreed h) tr.
(* the active handle *)
Fixpoint activeOf (tr : list event) : nat :=
  match tr with
  | [] => 0
  | Activated h :: _ => h
  | _ :: tr' => activeOf tr'
  end.
Definition wasActivated (tr : list event) (h : nat) : Prop := In (Activated h) tr.

(* threads between entering a get or replace and having swapped *)
Definition replacing (x : tstate) : bool :=
  match x with
  | RepStart _ | RepRead _ _ | Inc (ForReplace _ _) | IncRead (ForReplace _ _) _
  | IncAgain (ForReplace _ _) _ | IncCas (ForReplace _ _) _ _ | RepCas _ _ _ => true
  | _ => false
  end.
Definition getting (x : tstate) : bool :=
  match x with Inc ForUser | IncRead ForUser _ | IncAgain ForUser _ | IncCas ForUser _ _ => true | _ => false end.

(* users release only what they hold; the manager is freed once, with no get
   or replace under way, and not used for gets or replaces afterwards *)
Definition wellUsed (tr : list event) (m : manager) (a : action) : Prop :=
  match a with
  | CallRelease h => users tr h > 0
  | CallGet | CallReplace => forall t, ~ In (FreeBegin t) tr
  | CallFree => (forall t, ~ In (FreeBegin t) tr) /\
      forall t x, nth_error (thr m) t = Some x -> replacing x = false /\ getting x = false
  | Continue => True
  end.

(* every interleaving; [W] restricts the steps considered *)
Inductive exec (W : manager -> nat -> action -> Prop) (nthreads : nat) : list event -> manager -> Prop :=
| exec_init : exec W nthreads (snd (ManagerInit nthreads)) (fst (ManagerInit nthreads))
| exec_step tr m t a m' evs :
    exec W nthreads tr m -> wellUsed tr m a -> W m t a -> rstep t a m = Some (m', evs) ->
    exec W nthreads (evs ++ tr) m'.

Definition anyOrder (m : manager) (t : nat) (a : action) : Prop := True.
(* replaces do not overlap (up to their exchange) *)
Definition oneReplace (m : manager) (t : nat) (a : action) : Prop :=
  (a = CallReplace \/ a = CallFree) -> forall t' x, nth_error (thr m) t' = Some x -> replacing x = false.
(* one thread at a time: a thread steps only while all others are idle *)
Definition sequential (m : manager) (t : nat) (a : action) : Prop :=
  forall t' x, t' <> t -> nth_error (thr m) t' = Some x -> x = Idle.

Definition quiescent (m : manager) : Prop := forall t x, nth_error (thr m) t = Some x -> x = Idle.
