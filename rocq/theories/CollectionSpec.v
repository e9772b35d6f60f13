(* Specification of collections: the items stored in a file and histories of
   gets and releases. *)
From Verif Require Import TreeModel CacheModel CacheSpec CollectionModel.

(* A region of a file holding the items one after the other.  Items of a
   fixed size collection have the same positive size; a variable size item
   starts with at least [init] bytes from which [final] gives its size. *)
Definition itemsOK (k : kind) (items : list (list Z)) : Prop :=
  match k with
  | Fixed => exists es, 0 < es /\ forall it, In it items -> length it = es
  | VarSize init final => 0 < init /\ forall it, In it items ->
      init <= length it /\ final (firstn init it) = Z.of_nat (length it)
  end.

(* how clients address the n-th item: by index or by byte offset *)
Definition position (k : kind) (items : list (list Z)) (n : nat) : Z :=
  match k with
  | Fixed => Z.of_nat n
  | VarSize _ _ => Z.of_nat (length (concat (firstn n items)))
  end.

Definition regionOK (file : list Z) (k : kind) (items : list (list Z)) (h : header) : Prop :=
  itemsOK k items /\
  hlength h = Z.of_nat (length (concat items)) /\ (hlength h < 2 ^ 32)%Z /\
  hcount h = match k with Fixed => Z.of_nat (length items) | VarSize _ _ => 0%Z end /\
  hstart h + length (concat items) <= length file /\
  slice file (hstart h) (length (concat items)) = concat items.

(* the configurations *)
Inductive config := InMemory | FromFile (loaded capacity conc : Z).
Definition created (file : list Z) (k : kind) (treeMem : heap) (h : header) (cfg : config) (c : coll) : Prop :=
  match cfg with
  | InMemory => CreateFromMemory h (skipn (hstart h) file) = Some c
  | FromFile loaded capacity conc => CreateFromFile file k treeMem h loaded capacity conc = Some (Some c)
  end.

(* arguments within their types, memory for the cache's nodes *)
Definition configOK (treeMem : heap) (fuel : nat) (cfg : config) : Prop :=
  match cfg with
  | InMemory => True
  | FromFile loaded capacity conc =>
    (0 <= loaded < 2 ^ 32)%Z /\ (0 <= capacity < 2 ^ 32)%Z /\ (0 <= conc < 2 ^ 16)%Z /\
    forall slots, createShardCapacity capacity conc = Some (Z.of_nat slots) -> shardMemory slots treeMem /\ TreeSpec.bound slots <= fuel
  end.

(* nodes of the cache held by clients, and kept in use by failed gets *)
Fixpoint holding (tr : list cev) (s : slot) : nat :=
  match tr with
  | [] => 0
  | EGot _ _ (Some s') :: tr' => if slot_eqb s s' then S (holding tr' s) else holding tr' s
  | ERel s' :: tr' => if slot_eqb s s' then pred (holding tr' s) else holding tr' s
  | _ :: tr' => holding tr' s
  end.
Fixpoint leaked (tr : list cev) (s : slot) : nat :=
  match tr with
  | [] => 0
  | ENull _ _ (Some s') :: tr' => if slot_eqb s s' then S (leaked tr' s) else leaked tr' s
  | _ :: tr' => leaked tr' s
  end.

Fixpoint hasCache (c : coll) : bool :=
  match c with Cached _ _ _ => true | Partial _ _ (Some n) => hasCache n | _ => false end.

Inductive op := Get (i : Z) (f : io) | Release (s : slot).
Definition cstep (file : list Z) (k : kind) (fuel : nat) (o : op) (c : coll) : option (cev * coll) :=
  match o with
  | Get i f => collGet file k fuel c f i
  | Release s => match collRelease c s with Some c' => Some (ERel s, c') | None => None end
  end.

(* any 32 bit index or offset - with a cache, not 2^31, for which the cache's
   shard selection is undefined (C10), and fewer than 2^31 - 1 users of a node;
   only items that were handed out are released *)
Definition wellUsed (tr : list cev) (c : coll) (o : op) : Prop :=
  match o with
  | Get i _ => (0 <= i < 2 ^ 32)%Z /\
      (hasCache c = true -> i <> (2 ^ 31)%Z /\ forall s, (Z.of_nat (holding tr s + leaked tr s) < 2 ^ 31 - 1)%Z)
  | Release s => 0 < holding tr s
  end.

Inductive exec (file : list Z) (k : kind) (fuel : nat) (c0 : coll) : list cev -> coll -> Prop :=
| exec_nil : exec file k fuel c0 [] c0
| exec_cons tr c o e c' : exec file k fuel c0 tr c -> wellUsed tr c o ->
    cstep file k fuel o c = Some (e, c') -> exec file k fuel c0 (e :: tr) c'.

(* slots per shard of the configured cache, and the cache's shard of an index
   or offset having every slot in use *)
Definition capOf (cfg : config) : Z := match cfg with FromFile _ c _ => c | InMemory => 0 end.
Definition concOf (cfg : config) : Z := match cfg with FromFile _ _ c => c | InMemory => 0 end.
Definition slotsOf (cfg : config) : nat :=
  match createShardCapacity (capOf cfg) (concOf cfg) with Some z => Z.to_nat z | None => 0 end.
Definition shardFull (conc : Z) (slots : nat) (tr : list cev) (i : Z) : Prop :=
  exists j, keyShard conc (fun z => z) (toInt32 i) j /\ forall n, n < slots -> 0 < holding tr (j, n) + leaked tr (j, n).

(* nodes in use, by clients or left by failed gets *)
Fixpoint outstanding (tr : list cev) : nat :=
  match tr with
  | [] => 0
  | EGot _ _ (Some _) :: tr' | ENull _ _ (Some _) :: tr' => S (outstanding tr')
  | ERel _ :: tr' => pred (outstanding tr')
  | _ :: tr' => outstanding tr'
  end.

(* the status for an index or an offset that is out of range *)
Definition rangeCode (k : kind) : CollectionModel.status := match k with Fixed => INDEX_RANGE | VarSize _ _ => OFFSET_RANGE end.

(* contiguous part of the collection's region *)
Definition inside (items : list (list Z)) (acc : list Z) : Prop := exists a b, concat items = a ++ acc ++ b.
Definition outOfRange (k : kind) (items : list (list Z)) (i : Z) : Prop :=
  match k with
  | Fixed => (Z.of_nat (length items) <= i)%Z
  | VarSize _ _ => (Z.of_nat (length (concat items)) <= i)%Z
  end.
