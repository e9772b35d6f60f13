(* The threads of ThreadsModel.v with gets that take time: while a thread reads from the
   file it holds a file handle and, when it fills a node of a cache, the mutex of the
   shard.  Gets that need no read, releases and counts are one step, as in
   ThreadsModel.v; a get or release that needs a mutex held by another thread cannot be
   done until it is free (cache.c:390-411, 424-432). *)
From Verif Require Import TreeModel CacheModel CacheSpec CollectionModel.
From Verif Require ItemModel.
From Verif Require Import DbModel CallsModel ThreadsModel.
Local Open Scope Z_scope.

(* cache.c:388-390: the shard whose mutex a get of an index takes *)
Fixpoint shardFor (c : coll) (i : Z) : option nat :=
  match c with
  | Cached _ _ cc => match shardIndex (Z.of_nat (length (shards cc))) (toInt32 i) with Some z => Some (Z.to_nat z) | None => None end
  | Partial ci b (Some n) => match getMemory ci b i with Some _ => None | None => shardFor n i end
  | _ => None
  end.
(* collection.c:945-1010, 1112-1140 and cache.c:382-411: a get of an index takes a file
   handle, for the cache when the key is not in the tree and there is a node for it *)
Fixpoint willRead (k : kind) (fl : nat) (c : coll) (i : Z) : bool :=
  match c with
  | Mem _ _ => false
  | File ci _ => inRange k ci i
  | Cached ci _ cc => inRange k ci i && match cacheGet fl (toInt32 i) false [] cc with Some ((_, OFailed _ _), _) => true | _ => false end
  | Partial ci b (Some n) => match getMemory ci b i with Some _ => false | None => willRead k fl n i end
  | Partial _ _ None => false
  end.
(* a mutex: of a collection, of a shard *)
Definition lock : Type := src * nat.
(* two mutexes are the same *)
Definition lock_eqb (a b : lock) : bool := src_eqb (fst a) (fst b) && Nat.eqb (snd a) (snd b).
(* the mutex a get takes *)
Definition lockOfGet (w : world) (s : src) (i : Z) : option lock := match shardFor (colls w s) i with Some j => Some (s, j) | None => None end.
(* cache.c:419-434: the mutex a release takes; only releaseNothing does not look at the handle *)
Definition lockOfRelease (w : world) (s : src) (it : item) : option lock :=
  match methodIn w s, ihandle it with
  | Nothing, _ => None
  | _, Node x n => Some (x, fst n)
  | _, _ => None
  end.

(* what the threads share and each of them, and the threads that are reading with the mutex they hold *)
Record ostate := mkO { inner : state; reading : list (nat * option lock) }.
(* the mutex is held *)
Definition isHeld (l : option lock) (r : list (nat * option lock)) : bool :=
  match l with
  | None => false
  | Some l => existsb (fun x => match snd x with Some m => lock_eqb l m | None => false end) r
  end.
(* the thread is reading *)
Definition isReading (t : nat) (r : list (nat * option lock)) : bool := existsb (fun x => Nat.eqb (fst x) t) r.
(* the thread is no longer reading *)
Definition finished (t : nat) (r : list (nat * option lock)) : list (nat * option lock) := filter (fun x => negb (Nat.eqb (fst x) t)) r.
(* file.c:991-999: a file handle is taken, or given back *)
Definition takeHandle (w : world) : world := mkWorld (colls w) (heap w) (pred (handles w)) (ios w).
Definition giveHandle (w : world) : world := mkWorld (colls w) (heap w) (S (handles w)) (ios w).

Section Overlap.
  Variable file : list Z.
  Variable fuel : src -> nat.
  Variable compareOther : list Z -> list Z -> Z.

  (* a step of ThreadsModel.v *)
  Definition plainStep (t : nat) (a : action) (st : state) (r : list (nat * option lock)) : option (ostate * list event) :=
    match step file fuel compareOther t a st with Some (st', e) => Some (mkO st' r, e) | None => None end.
  (* one step of a thread; None: it cannot be done, has to wait, or is undefined *)
  Definition ostep (t : nat) (a : action) (os : ostate) : option (ostate * list event) :=
    let st := inner os in
    let w := shared st in
    match nth_error (threads st) t with
    | None => None
    | Some th =>
      match a, running th with
      | Go, Some (_, GetIt s i okay _ _) =>
        if isReading t (reading os) then
          (* the bytes are there: the handle is given back, the mutex is released *)
          plainStep t a (mkState (giveHandle w) (threads st)) (finished t (reading os))
        else if isHeld (lockOfGet w s i) (reading os) then None
        else if okay && willRead (kindOf s) (fuel s) (colls w s) i && negb (io_eqb (nextIo w) IoHandle) then
          Some (mkO (mkState (takeHandle w) (threads st)) ((t, lockOfGet w s i) :: reading os), [])
        else plainStep t a st (reading os)
      | Go, Some (_, Release s it _) => if isHeld (lockOfRelease w s it) (reading os) then None else plainStep t a st (reading os)
      | GiveBack k, None =>
        match nth_error (items th) k with
        | Some (s, it) => if isHeld (lockOfRelease w s it) (reading os) then None else plainStep t a st (reading os)
        | None => None
        end
      | _, _ => plainStep t a st (reading os)
      end
    end.
End Overlap.
