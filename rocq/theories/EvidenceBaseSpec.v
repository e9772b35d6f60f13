(* Evidence objects: maps with an order, and the evidence they give *)
From Verif Require Export EvidenceSpec.
From Verif Require Export EvidenceBaseModel.

(* a text up to the first zero *)
Definition isText (s t : list Z) : Prop := ~ In 0%Z t /\ (s = t \/ exists rest, s = t ++ 0%Z :: rest).
(* the order of strings: at the first difference, or a beginning *)
Inductive before : list Z -> list Z -> Prop :=
| before_shorter a c b : before a (a ++ c :: b)
| before_smaller a x b y c : (x < y)%Z -> before (a ++ x :: b) (a ++ y :: c).
(* keys in order, each once *)
Fixpoint inOrder (m : list (list Z * list Z)) : Prop :=
  match m with [] => True | (k, v) :: m' => Forall (fun p => before k (fst p)) m' /\ inOrder m' end.
(* m' is m with the value of one key set *)
Definition assigned (key value : list Z) (m m' : list (list Z * list Z)) : Prop :=
  inOrder m' /\ forall x, In x m' <-> x = (key, value) \/ (In x m /\ fst x <> key).

(* the evidence an entry is: prefix, field and value *)
Definition evidenceOf (relevant : Z -> bool) (k v : list Z) (p : Pair) : Prop :=
  exists text t value, isText k text /\ keyPrefix t (prefix p) /\ text = t ++ field p /\ field p <> [] /\ relevant (prefix p) = true /\
    isText v value /\ originalValue p = Some value /\ parsedValue p = None.
(* the evidence of the entries, in their order *)
Inductive given (relevant : Z -> bool) : list (list Z * list Z) -> list Pair -> Prop :=
| given_nil : given relevant [] []
| given_in k v m p l : evidenceOf relevant k v p -> given relevant m l -> given relevant ((k, v) :: m) (p :: l)
| given_out k v m l : (forall p, ~ evidenceOf relevant k v p) -> given relevant m l -> given relevant ((k, v) :: m) l.

(* The objects: None after the end of its life *)
Definition state := list (option (list (list Z * list Z))).
(* what a call does to them, and what it returns.  Copies are not allowed. *)
Inductive uses (relevant : Z -> bool) : state -> op -> state -> returned -> Prop :=
| uses_new s : uses relevant s New (s ++ [Some []]) Nothing
| uses_assign a m b k v m' : assigned k v m m' -> uses relevant (a ++ Some m :: b) (Assign (length a) k v) (a ++ Some m' :: b) Nothing
| uses_get a m b l : given relevant m l -> (Z.of_nat (length m) < 2 ^ 32)%Z ->
    uses relevant (a ++ Some m :: b) (Get (length a) true) (a ++ Some m :: b) (Array (Some (mkEvidence (length m) l None)))
| uses_get_fails a m b : uses relevant (a ++ Some m :: b) (Get (length a) false) (a ++ Some m :: b) (Array None)
| uses_clear a m b : uses relevant (a ++ Some m :: b) (Clear (length a)) (a ++ Some [] :: b) Nothing
| uses_erase a m x m' b : uses relevant (a ++ Some (m ++ x :: m') :: b) (Erase (length a) (length m)) (a ++ Some (m ++ m') :: b) Nothing
| uses_erase_range a m x m' b : uses relevant (a ++ Some (m ++ x ++ m') :: b) (EraseRange (length a) (length m) (length m + length x)) (a ++ Some (m ++ m') :: b) Nothing
| uses_delete a m b : uses relevant (a ++ Some m :: b) (Delete (length a)) (a ++ None :: b) Nothing.
Inductive usesAll (relevant : Z -> bool) : state -> list op -> state -> list returned -> Prop :=
| uses_nil s : usesAll relevant s [] s []
| uses_more s o s1 r ops s2 rs : uses relevant s o s1 r -> usesAll relevant s1 ops s2 rs -> usesAll relevant s (o :: ops) s2 (r :: rs).
(* no object, no array *)
Definition nothing : World := mkWorld [] [].
