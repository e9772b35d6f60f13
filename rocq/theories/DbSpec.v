(* A data set and the file it is stored in: what the functions of profile.c,
   property.c and value.c are to find in the bytes.  The file is defined here by
   how it is written; nothing of the reading is used. *)
From Verif Require Import TreeModel CollectionModel CollectionSpec ProfileModel ProfileSpec.
From Verif Require Import DbModel.
Local Open Scope Z_scope.

(* a number of n bytes, little endian *)
Fixpoint enc (n : nat) (z : Z) : list Z := match n with O => [] | S n' => z mod 256 :: enc n' (z / 256) end.
Definition fits (n : nat) (z : Z) : Prop := 0 <= z < 256 ^ Z.of_nat n.

(* strings are referred to by their number in the data set *)
Record prop := mkProp { flags : list Z; ptype : Z; pdefault : Z; pname : nat; pdesc : nat; pcat : nat; purl : nat; pfirst : Z; plast : Z; pmaps : Z; pmap : Z }.
Record val := mkVal { vproperty : Z; vname : nat; vdesc : nat; vurl : nat }.
Record prof := mkProf { prcomponent : Z; prid : Z; prvalues : list Z }.
(* [order]: the profiles by id *)
Record db := mkDb { texts : list (list Z); props : list prop; vals : list val; profs : list prof; order : list nat }.

(* how they are written *)
Definition encText (s : list Z) : list Z := enc 2 (Z.of_nat (length s) + 1) ++ s ++ [0].
Definition startOf (items : list (list Z)) (n : nat) : Z := Z.of_nat (length (concat (firstn n items))).
Definition textAt (d : db) (n : nat) : Z := startOf (map encText (texts d)) n.
Definition encProp (d : db) (p : prop) : list Z :=
  flags p ++ enc 1 (ptype p) ++ enc 4 (pdefault p) ++ enc 4 (textAt d (pname p)) ++ enc 4 (textAt d (pdesc p)) ++ enc 4 (textAt d (pcat p)) ++
  enc 4 (textAt d (purl p)) ++ enc 4 (pfirst p) ++ enc 4 (plast p) ++ enc 4 (pmaps p) ++ enc 4 (pmap p).
Definition encVal (d : db) (v : val) : list Z := enc 2 (vproperty v) ++ enc 4 (textAt d (vname v)) ++ enc 4 (textAt d (vdesc v)) ++ enc 4 (textAt d (vurl v)).
Definition encProf (p : prof) : list Z := enc 1 (prcomponent p) ++ enc 4 (prid p) ++ enc 4 (Z.of_nat (length (prvalues p))) ++ concat (map (enc 4) (prvalues p)).
Definition noProf : prof := mkProf 0 0 [].
Definition encOffset (d : db) (n : nat) : list Z := enc 4 (prid (nth n (profs d) noProf)) ++ enc 4 (startOf (map encProf (profs d)) n).

(* a collection in a file: its size in bytes or the count of its items, and the items *)
Definition storedAt (file : list Z) (pos : nat) (isCount : bool) (items : list (list Z)) : Prop :=
  Z.of_nat pos + 4 < 2 ^ 32 /\ exists rest, skipn pos file = enc 4 (if isCount then Z.of_nat (length items) else Z.of_nat (length (concat items))) ++ concat items ++ rest.
(* the items a collection is for: of one size, or each telling its size *)
Definition sizesOK (k : kind) (items : list (list Z)) (elementSize : Z) (isCount : bool) : Prop :=
  match k with
  | Fixed => 0 < elementSize /\ forall it, In it items -> Z.of_nat (length it) = elementSize
  | VarSize _ _ => elementSize = 0 /\ isCount = false /\ itemsOK k items
  end.
(* where the collections of a data set are, and whether their headers are counts *)
Record places := mkPlaces { tpos : nat; ppos : nat; vpos : nat; fpos : nat; opos : nat; pcount : bool; vcount : bool; ocount : bool }.
Definition stored (file : list Z) (w : places) (d : db) : Prop :=
  storedAt file (tpos w) false (map encText (texts d)) /\ storedAt file (ppos w) (pcount w) (map (encProp d) (props d)) /\
  storedAt file (vpos w) (vcount w) (map (encVal d) (vals d)) /\ storedAt file (fpos w) false (map encProf (profs d)) /\
  storedAt file (opos w) (ocount w) (map (encOffset d) (order d)).

(* a data set that can be stored: strings are bytes and not too long, members fit
   their types, references are to what exists *)
Definition isText (s : list Z) : Prop := Forall (fun c => 0 < c < 256) s /\ Z.of_nat (length s) + 1 < 2 ^ 15.
Definition propOK (d : db) (p : prop) : Prop :=
  length (flags p) = 7%nat /\ fits 1 (ptype p) /\ fits 4 (pdefault p) /\ fits 4 (pfirst p) /\ fits 4 (plast p) /\
  (pname p < length (texts d) /\ pdesc p < length (texts d) /\ pcat p < length (texts d) /\ purl p < length (texts d))%nat.
Definition valOK (d : db) (v : val) : Prop := (vname v < length (texts d) /\ vdesc v < length (texts d) /\ vurl v < length (texts d))%nat.
Definition profOK (p : prof) : Prop := fits 4 (prid p) /\ Forall (fits 4) (prvalues p) /\ StronglySorted Z.le (prvalues p).
Definition small (items : list (list Z)) : Prop := Z.of_nat (length (concat items)) < 2 ^ 32.
Definition dbOK (d : db) : Prop :=
  Forall isText (texts d) /\ Forall (propOK d) (props d) /\ Forall (valOK d) (vals d) /\ Forall profOK (profs d) /\ Forall (fun n => n < length (profs d))%nat (order d) /\
  small (map encText (texts d)) /\ small (map (encProp d) (props d)) /\ small (map (encVal d) (vals d)) /\ small (map encProf (profs d)) /\ small (map (encOffset d) (order d)).

(* a collection created from its header, with what its cache needs *)
Record use := mkUse { umem : heap; ufuel : nat; ucfg : config; ucoll : coll }.
Definition opened (file : list Z) (k : kind) (pos : nat) (elementSize : Z) (isCount : bool) (u : use) : Prop :=
  exists h, HeaderFrom file pos elementSize isCount = Some h /\ configOK (umem u) (ufuel u) (ucfg u) /\ created file k (umem u) h (ucfg u) (ucoll u) /\
  (hasCache (ucoll u) = true -> 0 < concOf (ucfg u) <= Z.of_nat (slotsOf (ucfg u))).
(* r is what a get gives at some time: after any gets and releases, with fewer items of
   a cache in use than it was made for *)
Definition answers {A} (file : list Z) (k : kind) (u : use) (decode : list Z -> option A) (i : Z) (r : option A * bool) : Prop :=
  exists tr c, exec file k (ufuel u) (ucoll u) tr c /\ wellUsed tr c (Get i IoOk) /\ (hasCache (ucoll u) = true -> Z.of_nat (outstanding tr) < concOf (ucfg u)) /\
  forall e c', cstep file k (ufuel u) (Get i IoOk) c = Some (e, c') ->
    match e with
    | EGot _ bytes _ => forall a, decode bytes = Some a -> r = (Some a, true)
    | ENull _ st _ => r = (None, match st with None => true | Some _ => false end)
    | ERel _ => True
    end.
(* the collections of a data set *)
Record uses := mkUses { tuse : use; puse : use; vuse : use; fuse : use; ouse : use }.
Definition allOpened (file : list Z) (w : places) (u : uses) : Prop :=
  opened file stringKind (tpos w) 0 false (tuse u) /\ opened file Fixed (ppos w) sizeofProperty (pcount w) (puse u) /\
  opened file Fixed (vpos w) sizeofValue (vcount w) (vuse u) /\ opened file profileKind (fpos w) 0 false (fuse u) /\
  opened file Fixed (opos w) sizeofOffset (ocount w) (ouse u).
(* gets of all items of the data set *)
Definition readers (file : list Z) (d : db) (u : uses) (getString : Z -> option (list Z) * bool) (getProperty : Z -> option Property * bool)
  (getValue : Z -> option Z * bool) (getOffset : Z -> option ProfileOffset * bool) (getProfile : Z -> option Profile * bool) : Prop :=
  (forall n, n < length (texts d) -> answers file stringKind (tuse u) textOf (textAt d n) (getString (textAt d n)))%nat /\
  (forall n, n < length (props d) -> answers file Fixed (puse u) propertyOf (Z.of_nat n) (getProperty (Z.of_nat n)))%nat /\
  (forall n, n < length (vals d) -> answers file Fixed (vuse u) valueNameOffset (Z.of_nat n) (getValue (Z.of_nat n)))%nat /\
  (forall n, n < length (order d) -> answers file Fixed (ouse u) offsetOf (Z.of_nat n) (getOffset (Z.of_nat n)))%nat /\
  (forall n, n < length (profs d) -> answers file profileKind (fuse u) profileOf (startOf (map encProf (profs d)) n) (getProfile (startOf (map encProf (profs d)) n)))%nat.

(* names *)
Definition nameOfProp (d : db) (j : nat) (s : list Z) : Prop := exists p, nth_error (props d) j = Some p /\ nth_error (texts d) (pname p) = Some s.
Definition nameOfVal (d : db) (v : Z) (s : list Z) : Prop := 0 <= v /\ exists x, nth_error (vals d) (Z.to_nat v) = Some x /\ nth_error (texts d) (vname x) = Some s.
(* the values of a property exist and their names are in order, without doubles *)
Definition namesSorted (d : db) (p : prop) : Prop :=
  (pfirst p <= plast p + 1 /\ plast p < Z.of_nat (length (vals d)) /\ plast p < 2 ^ 32 - 1) /\
  (forall v s, pfirst p <= v <= plast p -> nameOfVal d v s -> forall c r, s = c :: r -> c <> 1 /\ c <> 2) /\
  (forall v w s t, pfirst p <= v -> v < w -> w <= plast p -> nameOfVal d v s -> nameOfVal d w t -> before s t).
(* the values of no profile end with one of the property *)
Definition notLast (d : db) (p : prop) : Prop := forall n f l v, nth_error (profs d) n = Some f -> prvalues f = l ++ [v] -> ~ pfirst p <= v <= plast p.
(* a property as profile.c uses it *)
Definition decoded (d : db) (p : prop) : Property := mkProperty (textAt d (pname p)) (pfirst p) (plast p).
