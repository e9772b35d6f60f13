(* Calls on the collections of a data set: what is to be given back, and which
   collections' items can be released with which method *)
From Verif Require Import TreeModel CacheModel CacheSpec CollectionModel CollectionSpec ProfileModel DbModel DbSpec.
From Verif Require ItemModel.
From Verif Require Import CallsModel.
Local Open Scope Z_scope.

Definition useOf (u : uses) (s : src) : use :=
  match s with Texts => tuse u | Props => puse u | Vals => vuse u | Profs => fuse u | Offs => ouse u end.
Definition fuelOf (u : uses) (s : src) : nat := ufuel (useOf u s).
Definition itemsOf (d : db) (s : src) : list (list Z) :=
  match s with
  | Texts => map encText (texts d) | Props => map (encProp d) (props d) | Vals => map (encVal d) (vals d)
  | Profs => map encProf (profs d) | Offs => map (encOffset d) (order d)
  end.

(* how many use a node of a collection's cache *)
Fixpoint usersOf (c : coll) (n : slot) : Z :=
  match c with
  | Cached _ _ cc => match nth_error (shards cc) (fst n) with Some s => active s (snd n) | None => 0 end
  | Partial _ _ (Some next) => usersOf next n
  | _ => 0
  end.
(* nothing is kept: neither memory nor file handles nor nodes of caches *)
Definition restored (w w' : world) : Prop :=
  ItemModel.live (heap w') = ItemModel.live (heap w) /\ handles w' = handles w /\ forall s n, usersOf (colls w' s) n = usersOf (colls w s) n.

(* the collections were created, then used in any way, with fewer nodes of each cache in use
   than it was made for; offsets into cached collections are below 2^31; a file handle is
   free; nothing fails *)
Definition ready (file : list Z) (d : db) (u : uses) (w : world) : Prop :=
  (forall s, exists tr, exec file (kindOf s) (fuelOf u s) (ucoll (useOf u s)) tr (colls w s) /\
     (hasCache (ucoll (useOf u s)) = true -> Z.of_nat (outstanding tr) < concOf (ucfg (useOf u s)) /\ Z.of_nat (length (concat (itemsOf d s))) <= 2 ^ 31)) /\
  (forall p n, In (p, n) (ItemModel.live (heap w)) -> (p < ItemModel.fresh (heap w))%nat) /\ (0 < handles w)%nat /\ ios w = [].

(* the release methods of a collection and of the ones after it *)
Fixpoint layers (c : coll) : list method :=
  match c with
  | Partial _ _ (Some n) => ByItem :: layers n
  | c => [methodOf c]
  end.
(* the method gives back the items of a collection: an item is of the first collection of the
   chain that has it, and what it holds is a block, a node or nothing *)
Definition fits_method (m : method) (c : coll) : bool :=
  match m, layers c with
  | ByItem, _ => true
  | Nothing, [Nothing] | Nothing, [ByItem] => true
  | ByFile, [ByFile] | ByFile, [ByItem] | ByFile, [ByItem; ByFile] => true
  | ByCache, [ByCache] | ByCache, [ByItem] | ByCache, [ByItem; ByCache] => true
  | _, _ => false
  end.
(* the item comes from the last collection of the chain *)
Fixpoint fromLast (c : coll) (i : Z) : bool :=
  match c with
  | Partial ci b (Some n) => match getMemory ci b i with Some _ => false | None => fromLast n i end
  | _ => true
  end.
(* PropertyGetByName releases strings with the method of the properties, and
   ProfileIterateProfilesForPropertyAndValue profiles with that of the profile offsets *)
Definition compatible (u : uses) : Prop :=
  fits_method (methodOf (ucoll (puse u))) (ucoll (tuse u)) = true /\ fits_method (methodOf (ucoll (ouse u))) (ucoll (fuse u)) = true.
(* the item of a collection can be released, and then all is as in w *)
Definition givesBack (w : world) (s : src) (it : item) (w' : world) : Prop :=
  exists it2 w2, release (methodIn w' s) it w' = Some (it2, w2) /\ restored w w2.

(* ---- failures ---- *)
(* the same, and nothing fails any more *)
Definition clean (w : world) : world := mkWorld (colls w) (heap w) (handles w) [].
(* blocks of w' that were not in w: at most n, and those of w are all there *)
Definition keepsBlocks (n : nat) (w w' : world) : Prop :=
  exists ps : list nat, (length ps <= n)%nat /\ filter (fun b => negb (existsb (Nat.eqb (fst b)) ps)) (ItemModel.live (heap w')) = ItemModel.live (heap w).
(* after a call that failed: of its memory at most n blocks are kept, file handles are not
   gained, and the collections can be used *)
Definition afterFailure (n : nat) (file : list Z) (u : uses) (w w' : world) : Prop :=
  keepsBlocks n w w' /\ (handles w' <= handles w)%nat /\
  forall s, exists tr, exec file (kindOf s) (fuelOf u s) (ucoll (useOf u s)) tr (colls w' s).
