(* Model of /repo/cache.c 382-434 with the mutex of each shard.  A call of
   CacheGet or CacheRelease is a program whose steps are single uses of the
   memory of its shard, between the lock and the unlock; between two steps of
   one thread the others may do any number of theirs.  The statements are those
   of CacheModel.v, one after the other.  The counters of the cache are shared
   by all shards: "cache->hits++" is a load and a store.
   Simplifications: a call into tree.c, the move of a node in or out of the list and the run of the loader
   are single steps; memory is sequentially consistent (a mutex gives that for
   what is used with the lock held). *)
From Verif Require Import TreeModel CacheModel CacheSpec.

Section Lock.
  Context {D : Type}.
  Variable hash : Z -> Z.
  Variable fuel : nat.

  (* the rest of a call, from some point after the lock on: the unlock, with what get returns
     (nothing for a release), a use of the shard, or a use of a counter *)
  Inductive prog :=
  | Unlock (o : option (out D))
  | Access (f : shard D -> option (prog * shard D))
  | LoadCounter (hit : bool) (k : Z -> prog)
  | StoreCounter (hit : bool) (v : Z) (k : prog).

  (* cache.c 400, 406: hits++ or misses++ *)
  Definition count (hit : bool) (k : prog) : prog :=
    LoadCounter hit (fun z => StoreCounter hit ((z + 1) mod 2 ^ 64)%Z k).
  (* cache.c 400, 409-416: node i is returned *)
  Definition hitDone (i : nat) : prog := count true (Access (fun s => Some (Unlock (Some (OHit i (data s i))), s))).
  (* cache.c 399, 176-181 *)
  Definition hitProg (i : nat) : prog :=
    Access (fun s =>
      if Z.ltb (active s i) INT_MAX then
        let s := set_active i (active s i + 1)%Z s in
        Some (if Z.eqb (active s i) 1 then Access (fun s => Some (hitDone i, cacheRemoveFromList i s)) else hitDone i, s)
      else None).
  (* cache.c 406-416 after a load into node i *)
  Definition loadDone (ok : bool) (i : nat) : prog :=
    count false (Access (fun s => Some (Unlock (Some (if ok then OLoaded i (data s i) else OFailed i (data s i))), s))).
  (* cache.c 273-289: activeCount, the loader, the key and the insert *)
  Definition fillProg (hk : Z) (ok : bool) (d : D) (i : nat) : prog :=
    Access (fun s => Some (
      Access (fun s => Some (
        (if ok then
          Access (fun s =>
            match onTree (set_key hk (tp i)) s with
            | None => None
            | Some (_, s) => Some (Access (fun s =>
                match onTree (TreeInsert fuel (tp i)) s with
                | Some (_, s) => Some (loadDone ok i, s)
                | None => None
                end), s)
            end)
         else loadDone ok i), set_data i d s)),
      set_active i 1%Z s)).
  (* cache.c 255 *)
  Definition removeProg (hk : Z) (ok : bool) (d : D) (i : nat) : prog :=
    Access (fun s =>
      match onTree (TreeNodeRemove (tp i)) s with
      | Some (_, s) => Some (fillProg hk ok d i, s)
      | None => None
      end).
  (* cache.c 239, 245: the last of the list is taken out of the list and the tree *)
  Definition evictProg (hk : Z) (ok : bool) (d : D) (i : nat) : prog :=
    Access (fun s => Some (
      Access (fun s =>
        match onTree (TreeDelete fuel (tp i)) s with
        | Some (_, s) => Some (removeProg hk ok d i, s)
        | None => None
        end), cacheRemoveFromList i s)).
  (* cache.c 222-238 *)
  Definition loadProg (hk : Z) (ok : bool) (d : D) : prog :=
    Access (fun s =>
      if Nat.ltb (allocated s) (capacity s)
      then Some (removeProg hk ok d (allocated s), set_allocated (S (allocated s)) s)
      else
        match last s with
        | None => Some (count false (Unlock (Some ONull)), s)
        | Some i => if Z.eqb (active s i) 0 then Some (evictProg hk ok d i, s) else None
        end).
  (* cache.c 393-407 *)
  Definition getProg (hk : Z) (ok : bool) (d : D) : prog :=
    Access (fun s =>
      match TreeFind fuel hk (tree s) with
      | Some (Some p, h) => Some (hitProg (p - 3), set_tree h s)
      | Some (None, h) => Some (loadProg hk ok d, set_tree h s)
      | None => None
      end).
  (* cache.c 426-430 *)
  Definition releaseProg (i : nat) : prog :=
    Access (fun s =>
      if Z.eqb (active s i) 0 then None
      else
        let s := set_active i (active s i - 1)%Z s in
        Some (if Z.eqb (active s i) 0
              then Access (fun s => match cacheAddToHead i s with Some s => Some (Unlock None, s) | None => None end)
              else Unlock None, s)).
  Definition callProg (o : cop D) : prog :=
    match o with Get k ok d => getProg (hash k) ok d | Release (_, i) => releaseProg i end.

  (* a thread: in no call; waiting for the lock of shard j; holding it; after the unlock of a get,
     before the assert of 413 *)
  Inductive tstate :=
  | Idle
  | Want (o : cop D) (j : nat)
  | Inside (o : cop D) (j : nat) (p : prog)
  | Assert (j i : nat).
  (* shared: the cache; owner: who has the lock of each shard *)
  Record machine := mkMachine { shared : cache D; owner : list (option nat); threads : list tstate }.

  (* what is seen: a call begins; the effect of one, with its result, at its unlock; a call returns *)
  Inductive levent := Began (t : nat) (o : cop D) | Ended (t : nat) (e : event D) | Returned (t : nat).
  Inductive laction := Call (o : cop D) | Go.

  (* the event of a call (CacheSpec) *)
  Definition endOf (o : cop D) (j : nat) (r : option (out D)) : option (event D) :=
    match o, r with
    | Get k _ _, Some x => Some (eventOf k j x)
    | Release s, None => Some (Rel s)
    | _, _ => None
    end.
  (* the node a get returned *)
  Definition nodeOf (r : option (out D)) : option nat :=
    match r with Some (OHit i _) | Some (OLoaded i _) | Some (OFailed i _) => Some i | _ => None end.

  Definition setT (t : nat) (x : tstate) (m : machine) : machine := mkMachine (shared m) (owner m) (lupd (threads m) t x).
  Definition setShard (j : nat) (s : shard D) (m : machine) : machine :=
    mkMachine (mkcache (lupd (shards (shared m)) j s) (hits (shared m)) (misses (shared m))) (owner m) (threads m).
  Definition setCounter (hit : bool) (v : Z) (m : machine) : machine :=
    mkMachine (mkcache (shards (shared m)) (if hit then v else hits (shared m)) (if hit then misses (shared m) else v)) (owner m) (threads m).
  Definition setOwner (j : nat) (w : option nat) (m : machine) : machine := mkMachine (shared m) (lupd (owner m) j w) (threads m).

  (* the shard of a call: cache.c 387; the node of a release knows its own *)
  Definition shardOf (o : cop D) (c : cache D) : option nat :=
    match o with
    | Get k _ _ => match shardIndex (Z.of_nat (length (shards c))) (hash k) with Some z => Some (Z.to_nat z) | None => None end
    | Release (j, _) => Some j
    end.

  (* one step of thread t: None if it is undefined, an assert fails, or the lock is not free *)
  Definition lstep (t : nat) (a : laction) (m : machine) : option (machine * list levent) :=
    match nth_error (threads m) t with
    | None => None
    | Some x =>
      match a, x with
      | Call o, Idle => match shardOf o (shared m) with Some j => Some (setT t (Want o j) m, [Began t o]) | None => None end
      (* 389-391, 423-425 *)
      | Go, Want o j =>
        match nth_error (owner m) j with
        | Some None => Some (setT t (Inside o j (callProg o)) (setOwner j (Some t) m), [])
        | _ => None
        end
      | Go, Inside o j (Access f) =>
        match nth_error (shards (shared m)) j with
        | None => None
        | Some s => match f s with Some (p, s) => Some (setT t (Inside o j p) (setShard j s m), []) | None => None end
        end
      | Go, Inside o j (LoadCounter hit k) =>
        Some (setT t (Inside o j (k (if hit then hits (shared m) else misses (shared m)))) m, [])
      | Go, Inside o j (StoreCounter hit v p) => Some (setT t (Inside o j p) (setCounter hit v m), [])
      (* 409-411, 431-433 *)
      | Go, Inside o j (Unlock r) =>
        match endOf o j r with
        | None => None
        | Some e =>
          match nodeOf r with
          | Some i => Some (setT t (Assert j i) (setOwner j None m), [Ended t e])
          | None => Some (setT t Idle (setOwner j None m), [Returned t; Ended t e])
          end
        end
      (* 413 *)
      | Go, Assert j i =>
        match nth_error (shards (shared m)) j with
        | Some s => if Z.ltb 0 (active s i) then Some (setT t Idle m, [Returned t]) else None
        | None => None
        end
      | _, _ => None
      end
    end.
  (* a created cache, before any call *)
  Definition machineInit (c0 : cache D) (n : nat) : machine := mkMachine c0 (repeat None (length (shards c0))) (repeat Idle n).
End Lock.
Arguments prog : clear implicits.
Arguments tstate : clear implicits.
Arguments machine : clear implicits.
Arguments levent : clear implicits.
Arguments laction : clear implicits.
