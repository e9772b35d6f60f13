(* Specification of the cache: histories of calls and what can be read off
   them.  Nothing here mentions lists, trees or counters. *)
From Coq Require Import List Arith ZArith Lia Bool.
Import ListNotations.
From Verif Require Import TreeModel CacheModel TreeSpec.

Definition slot := (nat * nat)%type.   (* shard, index in the shard *)
Definition slot_eqb (a b : slot) := Nat.eqb (fst a) (fst b) && Nat.eqb (snd a) (snd b).

Section Spec.
  Context {D : Type}.

  (* one completed call.  Hit: entry returned without calling the loader;
     Load: the loader was called and left data d, ok says if it succeeded;
     Refused: NULL returned. *)
  Inductive event :=
  | Hit (k : Z) (s : slot) (d : D)
  | Load (k : Z) (s : slot) (ok : bool) (d : D)
  | Refused (k : Z)
  | Rel (s : slot).

  (* newest first *)
  Definition trace := list event.

  (* gets that returned the slot minus releases of it *)
  Fixpoint held (tr : trace) (s : slot) : nat :=
    match tr with
    | [] => 0
    | Hit _ s' _ :: tr' | Load _ s' _ _ :: tr' =>
      if slot_eqb s s' then S (held tr' s) else held tr' s
    | Refused _ :: tr' => held tr' s
    | Rel s' :: tr' => if slot_eqb s s' then pred (held tr' s) else held tr' s
    end.

  (* key and data stored in the slot: those of the last load into it *)
  Fixpoint occupant (tr : trace) (s : slot) : option (Z * D) :=
    match tr with
    | [] => None
    | Load k s' ok d :: tr' =>
      if slot_eqb s s' then (if ok then Some (k, d) else None) else occupant tr' s
    | _ :: tr' => occupant tr' s
    end.

  Fixpoint everLoaded (tr : trace) (s : slot) : bool :=
    match tr with
    | [] => false
    | Load _ s' _ _ :: tr' => slot_eqb s s' || everLoaded tr' s
    | _ :: tr' => everLoaded tr' s
    end.

  (* number of calls since the last release of the slot *)
  Fixpoint sinceRelease (tr : trace) (s : slot) : nat :=
    match tr with
    | [] => 0
    | Rel s' :: tr' => if slot_eqb s s' then 0 else S (sinceRelease tr' s)
    | _ :: tr' => S (sinceRelease tr' s)
    end.

  (* the last successful load of the key *)
  Fixpoint lastLoad (tr : trace) (k : Z) : option (slot * D) :=
    match tr with
    | [] => None
    | Load k' s true d :: tr' => if Z.eqb k k' then Some (s, d) else lastLoad tr' k
    | _ :: tr' => lastLoad tr' k
    end.

  Definition cached (tr : trace) (k : Z) : Prop := exists s d, occupant tr s = Some (k, d).

  (* entries currently held by callers, counted over the whole cache *)
  Fixpoint holds (tr : trace) : nat :=
    match tr with
    | [] => 0
    | Hit _ _ _ :: tr' | Load _ _ _ _ :: tr' => S (holds tr')
    | Refused _ :: tr' => holds tr'
    | Rel _ :: tr' => pred (holds tr')
    end.

  Definition countEv (f : event -> bool) (tr : trace) : nat := length (filter f tr).
  Definition isHit (e : event) := match e with Hit _ _ _ => true | _ => false end.
  Definition isLoad (e : event) := match e with Load _ _ _ _ => true | _ => false end.
  Definition isRefused (e : event) := match e with Refused _ => true | _ => false end.
  Definition isGet (e : event) := match e with Rel _ => false | _ => true end.

  Inductive cop :=
  | Get (k : Z) (ok : bool) (d : D)   (* ok, d: what the loader does if called *)
  | Release (s : slot).

  Variable hash : Z -> Z.
  Variable fuel : nat.

  Definition eventOf (k : Z) (j : nat) (o : out D) : event :=
    match o with
    | ONull => Refused k
    | OHit i d => Hit k (j, i) d
    | OLoaded i d => Load k (j, i) true d
    | OFailed i d => Load k (j, i) false d
    end.

  Definition runCop (o : cop) (c : cache D) : option (event * cache D) :=
    match o with
    | Get k ok d =>
      match cacheGet fuel (hash k) ok d c with
      | Some ((j, o), c') => Some (eventOf k j o, c')
      | None => None
      end
    | Release (j, i) =>
      match cacheRelease j i c with Some c' => Some (Rel (j, i), c') | None => None end
    end.

  (* the documented use: only entries that are held are released; the int
     counter of users does not overflow; the hash is not one for which abs is
     undefined *)
  Definition wellUsed (tr : trace) (o : cop) : Prop :=
    match o with
    | Get k _ _ =>
      toInt32 (hash k) <> (- 2 ^ 31)%Z /\
      (forall s, (Z.of_nat (held tr s) < 2 ^ 31 - 1)%Z)
    | Release s => 0 < held tr s
    end.

  (* the calls made so far (any interleaving of threads, as each call runs
     under its shard's mutex) and the cache they lead to *)
  Inductive exec (c0 : cache D) : trace -> cache D -> Prop :=
  | exec_nil : exec c0 [] c0
  | exec_cons tr c o e c' :
      exec c0 tr c -> wellUsed tr o -> runCop o c = Some (e, c') -> exec c0 (e :: tr) c'.
End Spec.
Arguments event : clear implicits.
Arguments trace : clear implicits.
Arguments cop : clear implicits.

(* the tree memory of a shard of cap nodes, with any content *)
Definition shardMemory (cap : nat) (h : heap) : Prop :=
  forall p, p = ROOT \/ p = EMPTY \/ (exists i, i < cap /\ p = tp i) -> h p <> None.

(* a cache as CacheCreate makes it: requested capacity and concurrency, slots
   per shard, a collision free hash, and enough loop iterations for the trees *)
Definition setup {D} (capacity conc : Z) (slots : nat) (hash : Z -> Z) (fuel : nat) (c0 : cache D) : Prop :=
  (0 <= capacity < 2 ^ 32)%Z /\ (0 <= conc < 2 ^ 16)%Z /\
  (forall k k', hash k = hash k' -> k = k') /\
  createShardCapacity capacity conc = Some (Z.of_nat slots) /\
  (exists h d0, shardMemory slots h /\ cacheCreate h capacity conc d0 = Some (Some c0)) /\
  bound slots <= fuel.

(* the shard a key belongs to *)
Definition keyShard (conc : Z) (hash : Z -> Z) (k : Z) (j : nat) : Prop :=
  shardIndex conc (hash k) = Some (Z.of_nat j).
