(* Histories of the resource manager on a heap that hands out freed blocks again *)
From Verif Require Import CacheModel ResourceModel ResourceSpec ReuseModel.

(* an event with the resource for the block *)
Definition byResource (x : event * nat) : event :=
  match fst x with
  | Got t _ => Got t (snd x)
  | RelBegin t _ => RelBegin t (snd x)
  | Created _ => Created (snd x)
  | Activated _ => Activated (snd x)
  | Lost _ => Lost (snd x)
  | Freed _ => Freed (snd x)
  | HandleFreed _ => HandleFreed (snd x)
  | e => e
  end.
(* what happened to the resources *)
Definition view (tr : list (event * nat)) : list event := map byResource tr.

(* gets of the handle in block h with resource r *)
Definition isGotAt (h r : nat) (x : event * nat) : nat :=
  match x with (Got _ j, s) => if Nat.eqb j h && Nat.eqb s r then 1 else 0 | _ => 0 end.
Definition isRelAt (h r : nat) (x : event * nat) : nat :=
  match x with (RelBegin _ j, s) => if Nat.eqb j h && Nat.eqb s r then 1 else 0 | _ => 0 end.
Definition holders (tr : list (event * nat)) (h r : nat) : nat := list_sum (map (isGotAt h r) tr) - list_sum (map (isRelAt h r) tr).

(* users release only what they hold; the manager is freed once, with no get
   or replace under way, and not used for gets or replaces afterwards *)
Definition reuseUsed (tr : list (event * nat)) (m : rmanager) (a : raction) : Prop :=
  match a with
  | Release h r => holders tr h r > 0
  | Get | Replace => forall t, ~ In (FreeBegin t) (view tr)
  | FreeManager => (forall t, ~ In (FreeBegin t) (view tr)) /\
      forall t x, nth_error (thr (core m)) t = Some x -> replacing x = false /\ getting x = false
  | Go _ => True
  end.

(* every interleaving; [W] restricts the steps considered *)
Inductive rexec (W : rmanager -> nat -> raction -> Prop) (nthreads : nat) : list (event * nat) -> rmanager -> Prop :=
| rexec_init : rexec W nthreads (snd (reuseInit nthreads)) (fst (reuseInit nthreads))
| rexec_step tr m t a m' evs :
    rexec W nthreads tr m -> reuseUsed tr m a -> W m t a -> reuseStep t a m = Some (m', evs) ->
    rexec W nthreads (evs ++ tr) m'.

(* the blocks a thread has a pointer to *)
Definition inCounter (c : counter) (h : nat) : Prop := snd c = Some h.
Definition inFor (k : incFor) (h : nat) : Prop := match k with ForUser => False | ForReplace nh _ => h = nh end.
Definition refersTo (x : tstate) (h : nat) : Prop :=
  match x with
  | Idle | Crashed | RepStart _ => False
  | RepRead _ a => h = a
  | Inc k => inFor k h
  | IncRead k a => inFor k h \/ h = a
  | IncAgain k c => inFor k h \/ inCounter c h
  | IncCas k c a => inFor k h \/ inCounter c h \/ h = a
  | RepCas nh _ old => h = nh \/ h = old
  | Dec j k | DecZero j k | DecEmpty j k | DecFree j k => h = j \/ k = Some h
  | DecCas j k c => h = j \/ k = Some h \/ inCounter c h
  | FreeNew nh => h = nh
  end.
(* freed blocks are handed out again, but not while a thread or the manager has a pointer to them *)
Definition quarantine (m : rmanager) (t : nat) (a : raction) : Prop :=
  match a with
  | Go p => forall fin b, nth_error (thr (core m)) t = Some (RepRead fin b) ->
      p <> active (core m) /\ forall t' x, nth_error (thr (core m)) t' = Some x -> ~ refersTo x p
  | _ => True
  end.
(* replaces do not overlap (up to their exchange) *)
Definition reuseOneReplace (m : rmanager) (t : nat) (a : raction) : Prop :=
  (a = Replace \/ a = FreeManager) -> forall t' x, nth_error (thr (core m)) t' = Some x -> replacing x = false.
(* one thread at a time *)
Definition reuseSequential (m : rmanager) (t : nat) (a : raction) : Prop := sequential (core m) t Continue.
