(* Threads that search a data set: what they may ask, what is right, and every
   interleaving of their steps *)
From Verif Require Import TreeModel CacheModel CacheSpec CollectionModel CollectionSpec ProfileModel ProfileSpec DbModel DbSpec.
From Verif Require ItemModel.
From Verif Require Import CallsModel CallsSpec.
From Verif Require Import ThreadsModel.
Local Open Scope Z_scope.

(* the first property of a name *)
Definition firstNamed (d : db) (name : list Z) (j : nat) (p : prop) : Prop :=
  nth_error (props d) j = Some p /\ nth_error (texts d) (pname p) = Some name /\ forall i, (i < j)%nat -> ~ nameOfProp d i name.
(* the values of a property can be searched *)
Definition searchable (d : db) (u : uses) (p : prop) : Prop := namesSorted d p /\ (pfirst p <= plast p \/ methodOf (ucoll (vuse u)) = Nothing).
(* what may be asked *)
Definition allowed (d : db) (u : uses) (q : query) : Prop :=
  match q with
  | QProperty name => bytes name
  | QType index => 0 <= index < Z.of_nat (length (props d))
  | QIndex property name => bytes name /\ exists j p, nth_error (props d) j = Some p /\ property = decoded d p /\ searchable d u p
  | QValue property name => bytes name /\ exists j p, nth_error (props d) j = Some p /\ property = decoded d p /\ namesSorted d p /\ pfirst p <> 2 ^ 32 - 1
  | QProfiles a b => bytes a /\ bytes b /\ forall j p, firstNamed d a j p -> searchable d u p /\ notLast d p
  | QProfileIndex index => 0 <= index < Z.of_nat (length (order d))
  | QProfileId id => id <> 0 /\ order d <> [] /\
      forall i j n m f g, (i < j)%nat -> nth_error (order d) i = Some n -> nth_error (order d) j = Some m -> nth_error (profs d) n = Some f -> nth_error (profs d) m = Some g -> prid f < prid g
  end.
(* the bytes are those of a profile *)
Definition profileBytes (b : list Z) (f : prof) : Prop := exists after, profileOf b = Some (mkProfile (prvalues f) after).
(* what is to be answered *)
Definition correct (d : db) (q : query) (a : answer) : Prop :=
  match q, a with
  | QProperty name, AProperty (Some (i, property)) => exists j p, i = Z.of_nat j /\ property = decoded d p /\ firstNamed d name j p
  | QProperty name, AProperty None => forall i, ~ nameOfProp d i name
  | QType index, AType t => exists p, nth_error (props d) (Z.to_nat index) = Some p /\ t = ptype p
  | QIndex property name, AIndex r =>
      (r = -1 /\ forall v, firstValueIndex property <= v <= lastValueIndex property -> ~ nameOfVal d v name) \/
      (firstValueIndex property <= r <= lastValueIndex property /\ nameOfVal d r name)
  | QValue property name, ABytes (Some b) =>
      exists v x rest, firstValueIndex property <= v <= lastValueIndex property /\ nameOfVal d v name /\ nth_error (vals d) (Z.to_nat v) = Some x /\ b = encVal d x ++ rest
  | QValue property name, ABytes None => forall v, firstValueIndex property <= v <= lastValueIndex property -> ~ nameOfVal d v name
  | QProfiles a b, AProfiles l => StronglySorted Z.lt l /\
      forall i, In i l <-> 0 <= i /\ exists j p n f v, firstNamed d a j p /\ nth_error (order d) (Z.to_nat i) = Some n /\ nth_error (profs d) n = Some f /\
        In v (prvalues f) /\ pfirst p <= v <= plast p /\ nameOfVal d v b
  | QProfileIndex index, ABytes (Some b) => exists n f, nth_error (order d) (Z.to_nat index) = Some n /\ nth_error (profs d) n = Some f /\ profileBytes b f
  | QProfileId id, ABytes (Some b) => exists i n f, nth_error (order d) i = Some n /\ nth_error (profs d) n = Some f /\ prid f = id /\ profileBytes b f
  | QProfileId id, ABytes None => forall i n f, nth_error (order d) i = Some n -> nth_error (profs d) n = Some f -> prid f <> id
  | _, _ => False
  end.

(* calls in progress and items not released *)
Definition busyThread (th : thread) : nat := ((match running th with Some _ => 1 | None => 0 end) + length (items th))%nat.
Definition busy (st : state) : nat := list_sum (map busyThread (threads st)).
(* the caches have nodes for that many more *)
Definition readyFor (cap : nat) (file : list Z) (d : db) (u : uses) (w : world) : Prop :=
  (0 < cap)%nat /\
  (forall s, exists tr, CollectionSpec.exec file (kindOf s) (fuelOf u s) (ucoll (useOf u s)) tr (colls w s) /\
     (hasCache (ucoll (useOf u s)) = true -> Z.of_nat (outstanding tr + cap) <= concOf (ucfg (useOf u s)) /\ Z.of_nat (length (concat (itemsOf d s))) <= 2 ^ 31)) /\
  (forall p n, In (p, n) (ItemModel.live (heap w)) -> (p < ItemModel.fresh (heap w))%nat) /\ (0 < handles w)%nat /\ ios w = [].
(* a call is started if there are nodes for it *)
Definition admissible (d : db) (u : uses) (cap : nat) (st : state) (a : action) : Prop :=
  match a with Call q => allowed d u q /\ (busy st < cap)%nat | _ => True end.
(* the steps of the call a thread is in *)
Definition counted (t : nat) (a : action) (n : nat -> nat) : nat -> nat :=
  fun x => if Nat.eqb x t then match a with Call _ => O | Go => S (n t) | GiveBack _ => n t end else n x.
(* every interleaving of any number of threads; events, newest first *)
Inductive exec (file : list Z) (d : db) (u : uses) (compareOther : list Z -> list Z -> Z) (cap count : nat) (w : world) : list event -> (nat -> nat) -> state -> Prop :=
| exec_start : exec file d u compareOther cap count w [] (fun _ => O) (mkState w (repeat (mkThread None []) count))
| exec_step tr n st t a st' evs : exec file d u compareOther cap count w tr n st -> admissible d u cap st a ->
    step file (fuelOf u) compareOther t a st = Some (st', evs) -> exec file d u compareOther cap count w (evs ++ tr) (counted t a n) st'.
(* what a thread can be asked to do *)
Definition possible (st : state) (t : nat) (a : action) : Prop :=
  exists th, nth_error (threads st) t = Some th /\
  match a with Call _ => running th = None | Go => running th <> None | GiveBack k => running th = None /\ (k < length (items th))%nat end.
(* a thread goes on alone until its call returns, in that many steps *)
Inductive returns (file : list Z) (u : uses) (compareOther : list Z -> list Z -> Z) (t : nat) : nat -> state -> query -> result -> Prop :=
| returns_now st st' q r : step file (fuelOf u) compareOther t Go st = Some (st', [Returned t q r]) -> returns file u compareOther t 1 st q r
| returns_later k st st' q r : step file (fuelOf u) compareOther t Go st = Some (st', []) -> returns file u compareOther t k st' q r -> returns file u compareOther t (S k) st q r.
(* a bound for the steps of a call *)
Definition most (d : db) : nat := (4 * (length (props d) + length (order d)) + 140)%nat.
