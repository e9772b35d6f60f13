(* Model of /repo/cache.c: a sharded loading cache.  Each shard holds a red
   black tree (the model of tree.c in TreeModel.v, run step by step), a doubly
   linked list of idle entries and an array of nodes.

   Node i of a shard is the index i; its embedded tree node (cache.h 132-139)
   has address [tp i] in the shard's tree memory.  A failed assert, signed
   overflow of activeCount, or a call outside the contract is [None].

   The loader callback (cache.h 169-173) is an input of each get: [ok] is the
   value of EXCEPTION_OKAY after it ran and [d] the data it left in the node.
   Each get and release runs under the shard's mutex (cache.c 389-410,
   423-433), so an execution of many threads is a sequence of whole calls. *)
From Verif Require Import TreeModel.

(* the address of the tree node of node i (cache.h 132-139) *)
Definition tp (i : nat) : ptr := i + 3.
(* limits.h *)
Definition INT_MAX : Z := (2 ^ 31 - 1)%Z.

(* an array element is assigned *)
Definition fupd {A} (f : nat -> A) (i : nat) (v : A) : nat -> A :=
  fun j => if Nat.eqb j i then v else f j.

Section Cache.
  Context {D : Type}.

  (* cache.h 132-163 *)
  Record shard := mkshard {
    tree : heap;
    nxt : nat -> option nat;
    prv : nat -> option nat;
    first : option nat;
    last : option nat;
    active : nat -> Z;
    data : nat -> D;
    allocated : nat;
    capacity : nat }.

  (* assignments to one field of a shard or of node i (C: node->field = v) *)
  Definition set_tree v s := mkshard v (nxt s) (prv s) (first s) (last s) (active s) (data s) (allocated s) (capacity s).
  Definition set_nxt i v s := mkshard (tree s) (fupd (nxt s) i v) (prv s) (first s) (last s) (active s) (data s) (allocated s) (capacity s).
  Definition set_prv i v s := mkshard (tree s) (nxt s) (fupd (prv s) i v) (first s) (last s) (active s) (data s) (allocated s) (capacity s).
  Definition set_first v s := mkshard (tree s) (nxt s) (prv s) v (last s) (active s) (data s) (allocated s) (capacity s).
  Definition set_last v s := mkshard (tree s) (nxt s) (prv s) (first s) v (active s) (data s) (allocated s) (capacity s).
  Definition set_active i v s := mkshard (tree s) (nxt s) (prv s) (first s) (last s) (fupd (active s) i v) (data s) (allocated s) (capacity s).
  Definition set_data i v s := mkshard (tree s) (nxt s) (prv s) (first s) (last s) (active s) (fupd (data s) i v) (allocated s) (capacity s).
  Definition set_allocated v s := mkshard (tree s) (nxt s) (prv s) (first s) (last s) (active s) (data s) v (capacity s).

  (* a call into tree.c *)
  Definition onTree {A} (m : M A) (s : shard) : option (A * shard) :=
    match m (tree s) with Some (a, h) => Some (a, set_tree h s) | None => None end.

  (* cache.c 89-114; TreeRootInit and TreeNodeInit write tree memory [h] *)
  Fixpoint initNodes (ns : list nat) : M unit :=
    match ns with [] => ret tt | i :: ns' => TreeNodeInit (tp i) ;;; initNodes ns' end.
  Definition cacheInitShard (h : heap) (cap : nat) (d0 : D) : option shard :=
    match (TreeRootInit ;;; initNodes (seq 0 cap)) h with
    | Some (_, h') =>
      Some (mkshard h' (fun _ => None) (fun _ => None) None None (fun _ => 0%Z) (fun _ => d0) 0 cap)
    | None => None
    end.

  (* cache.c 151-166 *)
  Definition cacheRemoveFromList (i : nat) (s : shard) : shard :=
    let s := match nxt s i with
             | Some n => set_prv n (prv s i) s
             | None => set_last (prv s i) s
             end in
    let s := match prv s i with
             | Some p => set_nxt p (nxt s i) s
             | None => set_first (nxt s i) s
             end in
    set_prv i None (set_nxt i None s).

  (* cache.c 176-181 *)
  Definition cacheIncremenetCheckAndRemove (i : nat) (s : shard) : option shard :=
    if Z.ltb (active s i) INT_MAX then
      let s := set_active i (active s i + 1)%Z s in
      Some (if Z.eqb (active s i) 1 then cacheRemoveFromList i s else s)
    else None.

  (* cache.c 188-207 *)
  Definition cacheAddToHead (i : nat) (s : shard) : option shard :=
    match nxt s i, prv s i with
    | None, None =>
      let s := set_nxt i (first s) s in
      let s := match first s with Some f => set_prv f (Some i) s | None => s end in
      let s := set_first (Some i) s in
      let s := match last s with None => set_last (first s) s | Some _ => s end in
      match prv s i, last s with
      | None, Some l => match nxt s l with None => Some s | Some _ => None end
      | _, _ => None
      end
    | _, _ => None
    end.

  (* cache.c 217-258 *)
  Definition cacheGetNextFree (fuel : nat) (s : shard) : option (option nat * shard) :=
    let pick :=
      if Nat.ltb (allocated s) (capacity s) then
        Some (Some (allocated s), set_allocated (S (allocated s)) s)
      else
        match last s with
        | None => Some (None, s)
        | Some i =>
          if Z.eqb (active s i) 0 then
            match onTree (TreeDelete fuel (tp i)) (cacheRemoveFromList i s) with
            | Some (_, s') => Some (Some i, s')
            | None => None
            end
          else None
        end in
    match pick with
    | Some (Some i, s') =>
      match onTree (TreeNodeRemove (tp i)) s' with
      | Some (_, s'') => Some (Some i, s'')
      | None => None
      end
    | other => other
    end.

  (* cache.c 268-291; the key's hash is stored in the tree node *)
  Definition cacheLoad (fuel : nat) (hash : Z) (ok : bool) (d : D) (s : shard)
    : option (option nat * shard) :=
    match cacheGetNextFree fuel s with
    | Some (Some i, s) =>
      let s := set_active i 1%Z s in
      let s := set_data i d s in
      if ok then
        match onTree (set_key hash (tp i) ;;; TreeInsert fuel (tp i)) s with
        | Some (_, s') => Some (Some i, s')
        | None => None
        end
      else Some (Some i, s)
    | other => other
    end.

  (* what the caller of get can observe: no node; the node, its data, and
     whether the loader was called and succeeded *)
  Inductive out :=
  | ONull
  | OHit (i : nat) (d : D)
  | OLoaded (i : nat) (d : D)
  | OFailed (i : nat) (d : D).

  (* cache.c 394-414 for one shard (the counters are in [cacheGet] below) *)
  Definition shardGet (fuel : nat) (hash : Z) (ok : bool) (d : D) (s : shard)
    : option (out * shard) :=
    match TreeFind fuel hash (tree s) with
    | Some (Some p, h) =>
      let i := p - 3 in
      match cacheIncremenetCheckAndRemove i (set_tree h s) with
      | Some s' => Some (OHit i (data s' i), s')
      | None => None
      end
    | Some (None, h) =>
      match cacheLoad fuel hash ok d (set_tree h s) with
      | Some (Some i, s') =>
        if Z.ltb 0 (active s' i)
        then Some (if ok then OLoaded i (data s' i) else OFailed i (data s' i), s')
        else None
      | Some (None, s') => Some (ONull, s')
      | None => None
      end
    | None => None
    end.

  (* cache.c 419-434 *)
  Definition shardRelease (i : nat) (s : shard) : option shard :=
    if Z.eqb (active s i) 0 then None
    else
      let s := set_active i (active s i - 1)%Z s in
      if Z.eqb (active s i) 0 then cacheAddToHead i s else Some s.

  (* ------- the whole cache *)
  Record cache := mkcache {
    shards : list shard;
    hits : Z;    (* unsigned long, cache.h 192-193: 64 bit *)
    misses : Z }.

  Definition toInt32 (z : Z) : Z :=
    let m := (z mod 2 ^ 32)%Z in if Z.ltb m (2 ^ 31) then m else (m - 2 ^ 32)%Z.

  (* cache.c 387: abs((int)keyHash) % concurrency.  abs(INT_MIN) is undefined
     behaviour: None. *)
  Definition shardIndex (conc hash : Z) : option Z :=
    let i := toInt32 hash in
    if Z.eqb i (- 2 ^ 31) then None else Some (Z.modulo (Z.abs i) conc).

  Fixpoint lupd {A} (l : list A) (i : nat) (v : A) : list A :=
    match l, i with
    | [], _ => []
    | _ :: l', 0 => v :: l'
    | a :: l', S i' => a :: lupd l' i' v
    end.

  (* cache.c 382-417 *)
  Definition cacheGet (fuel : nat) (hash : Z) (ok : bool) (d : D) (c : cache)
    : option ((nat * out) * cache) :=
    match shardIndex (Z.of_nat (length (shards c))) hash with
    | None => None
    | Some z =>
      let j := Z.to_nat z in
      match nth_error (shards c) j with
      | None => None
      | Some s =>
        match shardGet fuel hash ok d s with
        | None => None
        | Some (o, s') =>
          let hit := match o with OHit _ _ => true | _ => false end in
          Some ((j, o), mkcache (lupd (shards c) j s')
            (if hit then (hits c + 1) mod 2 ^ 64 else hits c)%Z
            (if hit then misses c else (misses c + 1) mod 2 ^ 64)%Z)
        end
      end
    end.

  (* cache.c 419-434; the node knows its shard *)
  Definition cacheRelease (j i : nat) (c : cache) : option cache :=
    match nth_error (shards c) j with
    | None => None
    | Some s =>
      match shardRelease i s with
      | None => None
      | Some s' => Some (mkcache (lupd (shards c) j s') (hits c) (misses c))
      end
    end.

  (* ------- construction *)
  (* cache.c 121-123: uint32_t arithmetic (no overflow is possible here) *)
  Definition cacheShardCapacity (cap conc : Z) : Z :=
    ((cap mod conc + cap / conc) mod 2 ^ 32)%Z.

  (* cache.c 327-329, 352-353 and 135: number of slots given to each shard.
     cache->capacity is an int32_t; the division is in int and the result is
     converted to uint32_t. None: creation refused. *)
  Definition createShardCapacity (cap conc : Z) : option Z :=
    if Z.eqb conc 0 || Z.ltb (cap / conc) conc then None
    else
      let capacity := toInt32 (cacheShardCapacity cap conc * conc) in
      Some ((Z.quot capacity conc) mod 2 ^ 32)%Z.

  (* cache.c 334-335: number of nodes allocated (size_t arithmetic) *)
  Definition createNodes (cap conc : Z) : Z := (cacheShardCapacity cap conc * conc)%Z.

  (* cache.c 316-367 with the memory obtained and loader state left out: the
     shards' tree memory is [h] (arbitrary content) *)
  Fixpoint initShards (h : heap) (n : nat) (cap : nat) (d0 : D) : option (list shard) :=
    match n with
    | 0 => Some []
    | S n' =>
      match cacheInitShard h cap d0, initShards h n' cap d0 with
      | Some s, Some l => Some (s :: l)
      | _, _ => None
      end
    end.
  (* None: cacheInit would use nodes outside the allocated array (undefined
     behaviour); Some None: creation refused *)
  Definition cacheCreate (h : heap) (cap conc : Z) (d0 : D) : option (option cache) :=
    match createShardCapacity cap conc with
    | None => Some None
    | Some sc =>
      if Z.ltb (createNodes cap conc) (sc * conc) then None else
      match initShards h (Z.to_nat conc) (Z.to_nat sc) d0 with
      | Some l => Some (Some (mkcache l 0 0))
      | None => None
      end
    end.
End Cache.
Arguments shard : clear implicits.
Arguments cache : clear implicits.
Arguments out : clear implicits.

(* cache.c 436-442 *)
Definition cacheHash32 (key : Z) : Z := key.
(* cache.c 440-442 fiftyoneDegreesCacheHash64 *)
Definition cacheHash64 (key : Z) : Z := key.

(* cache.c 387 as compiled where abs wraps: abs(INT_MIN) = INT_MIN and % is
   C's truncating remainder (concurrency is promoted to int) *)
Definition shardIndexWrapping (conc hash : Z) : Z :=
  Z.rem (toInt32 (Z.abs (toInt32 hash))) conc.

(* cache.c 400 and 406, "cache->hits++", executed by threads holding the locks
   of different shards: each increment is a load followed by a store *)
Inductive incStep := IncLoad (thread : nat) | IncStore (thread : nat).
(* the same for a sequence of steps of the threads *)
Fixpoint runInc (l : list incStep) (reg : nat -> Z) (counter : Z) : Z :=
  match l with
  | [] => counter
  | IncLoad t :: l' => runInc l' (fupd reg t counter) counter
  | IncStore t :: l' => runInc l' reg ((reg t + 1) mod 2 ^ 64)%Z
  end.
