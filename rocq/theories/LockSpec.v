(* Histories of a cache used by threads, step by step *)
From Coq Require Import List Arith ZArith Lia Bool.
Import ListNotations.
From Verif Require Import TreeModel CacheModel CacheSpec LockModel.

Section Spec.
  Context {D : Type}.
  Variable hash : Z -> Z.
  Variable fuel : nat.

  (* the calls as if each was done at its unlock; newest first *)
  Fixpoint ended (tr : list (levent D)) : trace D :=
    match tr with
    | [] => []
    | Ended _ e :: tr => e :: ended tr
    | _ :: tr => ended tr
    end.
  (* gets under way (to the unlock) *)
  Definition getting (x : tstate D) : nat :=
    match x with Want (Get _ _ _) _ | Inside (Get _ _ _) _ _ => 1 | _ => 0 end.
  (* releases of the slot under way, and gets of it that did not return yet *)
  Definition tied (s : slot) (x : tstate D) : nat :=
    match x with
    | Want (Release s') _ | Inside (Release s') _ _ => if slot_eqb s s' then 1 else 0
    | Assert j i => if slot_eqb s (j, i) then 1 else 0
    | _ => 0
    end.
  Definition sum (f : tstate D -> nat) (l : list (tstate D)) : nat := list_sum (map f l).

  (* the documented use: a slot is released by who has it; the int counter of users does not
     overflow; the hash is not one for which abs is undefined *)
  Definition lockUsed (tr : list (levent D)) (m : machine D) (a : laction D) : Prop :=
    match a with
    | Call (Get k _ _) =>
      toInt32 (hash k) <> (- 2 ^ 31)%Z /\
      forall s, (Z.of_nat (held (ended tr) s + sum getting (threads m)) < 2 ^ 31 - 1)%Z
    | Call (Release s) => sum (tied s) (threads m) < held (ended tr) s
    | Go => True
    end.
  (* every interleaving *)
  Inductive lexec (c0 : cache D) (nthreads : nat) : list (levent D) -> machine D -> Prop :=
  | lexec_init : lexec c0 nthreads [] (machineInit c0 nthreads)
  | lexec_step tr m t a m' evs :
      lexec c0 nthreads tr m -> lockUsed tr m a -> lstep hash fuel t a m = Some (m', evs) -> lexec c0 nthreads (evs ++ tr) m'.

  (* a thread is waiting for a lock that another has *)
  Definition blocked (m : machine D) (t : nat) : Prop :=
    exists o j w, nth_error (threads m) t = Some (Want o j) /\ nth_error (owner m) j = Some (Some w).
  (* the thread is in a call *)
  Definition busy (m : machine D) (t : nat) : Prop := exists x, nth_error (threads m) t = Some x /\ x <> Idle.
  (* a thread uses the memory of shard j with its lock *)
  Definition inside (m : machine D) (t j : nat) : Prop := exists o p, nth_error (threads m) t = Some (Inside o j p).
  (* the thread of an event *)
  Definition threadOf (e : levent D) : nat := match e with Began t _ | Ended t _ | Returned t => t end.
  (* an event is one of a call of o *)
  Definition eventFor (o : cop D) (e : event D) : Prop :=
    match o, e with
    | Get k _ _, Hit k' _ _ | Get k _ _, Refused k' => k = k'
    | Get k ok d, Load k' _ ok' d' => k = k' /\ ok = ok' /\ d = d'
    | Release s, Rel s' => s = s'
    | _, _ => False
    end.
  Definition isBegan (e : levent D) : bool := match e with Began _ _ => true | _ => false end.
End Spec.

Section Calls.
  Context {D : Type}.
  (* the events of one thread, newest first: calls one after the other, each with one effect of its own
     between its begin and its return *)
  Inductive status := Out | Called (o : cop D) | Done.
  Inductive proper : list (levent D) -> status -> Prop :=
  | proper_nil : proper [] Out
  | proper_began l t o : proper l Out -> proper (Began t o :: l) (Called o)
  | proper_ended l t o e : proper l (Called o) -> eventFor o e -> proper (Ended t e :: l) Done
  | proper_returned l t : proper l Done -> proper (Returned t :: l) Out.
  Definition ofThread (t : nat) (tr : list (levent D)) : list (levent D) := filter (fun e => Nat.eqb (threadOf e) t) tr.
  (* n steps of threads in their calls, none begins *)
  Inductive goes (hash : Z -> Z) (fuel : nat) : nat -> machine D -> machine D -> Prop :=
  | goes_none m : goes hash fuel 0 m m
  | goes_step n m t m1 evs m2 : lstep hash fuel t Go m = Some (m1, evs) -> goes hash fuel n m1 m2 -> goes hash fuel (S n) m m2.
  (* threads in a call *)
  Definition working (x : tstate D) : nat := match x with Idle => 0 | _ => 1 end.
End Calls.
Arguments status : clear implicits.
