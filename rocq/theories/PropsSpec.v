(* What asking for properties is. *)
From Coq Require Import Permutation.
From Verif Require Import StringSpec PropsModel.

(* l is the sequence of the parts of s between separators *)
Definition separator (c : Z) : Prop := c = 124%Z \/ c = 44%Z \/ c = 32%Z. (* | , space *)
Inductive parts : list Z -> list (list Z) -> Prop :=
| parts_last a : Forall (fun c => ~ separator c) a -> parts a [a]
| parts_more a c s l : Forall (fun c => ~ separator c) a -> separator c -> parts s l -> parts (a ++ c :: s) (a :: l).

(* the place of a character in the order, upper and lower case the same *)
Definition rank (c : Z) : Z := if (Z.leb 65 c && Z.leb c 90)%bool then (c + 32)%Z else if Z.ltb c 0 then (c + 256)%Z else c.
(* a comes before b *)
Inductive before : list Z -> list Z -> Prop :=
| before_end y b : before [] (y :: b)
| before_char x a y b : (rank x < rank y)%Z -> before (x :: a) (y :: b)
| before_rest x a y b : sameLetter x y -> before a b -> before (x :: a) (y :: b).

(* the characters of a text: a char that is not zero *)
Definition textChar (c : Z) : Prop := (-128 <= c <= 127)%Z /\ c <> 0%Z.
(* names of a data set: no two the same ignoring case *)
Definition goodNames (names : list (list Z)) : Prop :=
  Forall (Forall textChar) names /\
  forall i j a b, nth_error names i = Some a -> nth_error names j = Some b -> sameText a b -> i = j.

(* the function of the C library: a permutation in order, if the comparison is an
   order *)
Definition sorts (qsort : (PropertyAvailable -> PropertyAvailable -> Z) -> list PropertyAvailable -> list PropertyAvailable) : Prop :=
  forall cmp l,
    (forall x y, In x l -> In y l -> (0 < cmp x y <-> cmp y x < 0)%Z) ->
    (forall x y z, In x l -> In y l -> In z l -> (cmp x y <= 0 -> cmp y z <= 0 -> cmp x z <= 0)%Z) ->
    Permutation l (qsort cmp l) /\
    forall b x m y a, qsort cmp l = b ++ x :: m ++ y :: a -> (cmp x y <= 0)%Z.

(* the available properties are those of the data set that are wanted, each once
   and in the order of the names, with their evidence properties and a reference to
   their names *)
Definition availableAre (names : list (list Z)) (evidence : nat -> list nat) (wanted : list Z -> Prop) (items : list PropertyAvailable) : Prop :=
  (forall x, In x items -> exists i, propertyIndex x = Z.of_nat i /\ reference x = i /\ nth_error names i = Some (name x) /\ wanted (name x)) /\
  (forall i n, nth_error names i = Some n -> wanted n -> exists x, In x items /\ propertyIndex x = Z.of_nat i) /\
  NoDup (map propertyIndex items) /\
  (forall b x m y a, items = b ++ x :: m ++ y :: a -> before (name x) (name y)) /\
  (forall x, In x items -> evidenceProperties x = evidence (Z.to_nat (propertyIndex x))).

(* references to the name at index i that are held after the events *)
Definition held (events : list Event) (i : nat) : Z :=
  fold_left (fun n e => match e with Got j => if Nat.eqb i j then n + 1 else n | Released j => if Nat.eqb i j then n - 1 else n end)%Z events 0%Z.
