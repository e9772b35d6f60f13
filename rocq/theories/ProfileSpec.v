(* Profiles: sorted value indexes of one component. *)
From Coq Require Export Sorting.Sorted.
From Verif Require Export ProfileModel SearchSpec.

Definition inRange (property : Property) (v : Z) : bool := Z.leb (firstValueIndex property) v && Z.leb v (lastValueIndex property).
Definition valuesFor (p : Profile) (property : Property) : list Z := filter (inRange property) (values p).
Definition sortedProfile (p : Profile) : Prop := StronglySorted Z.le (values p).
(* there is something to read after the profile, or its last value is not one of the
   property *)
Definition readable (p : Profile) (property : Property) : Prop :=
  after p <> [] \/ forall l v, values p = l ++ [v] -> inRange property v = false.

(* the items of the values up to the first exception; NULL without an exception is
   passed over *)
Fixpoint fetched {A} (get : Z -> option A * bool) (vs : list Z) : list A :=
  match vs with
  | [] => []
  | v :: rest =>
    match get v with
    | (Some a, true) => a :: fetched get rest
    | (_, true) => fetched get rest
    | (_, false) => []
    end
  end.
(* all items in order, or up to the first that callback answers with false *)
Definition upToFalse {A} (callback : list A -> bool) (items called : list A) : Prop :=
  exists rest, items = called ++ rest /\
    (forall a b x, called = a ++ x :: b -> b <> [] -> callback (a ++ [x]) = true) /\
    (rest = [] \/ (called <> [] /\ callback called = false)).

(* every item that is got is released once, after it was got *)
Definition sameSource (a b : source) : bool :=
  match a, b with Properties, Properties | Strings, Strings | Offsets, Offsets | Profiles, Profiles => true | _, _ => false end.
Fixpoint removeItem (c : source) (i : Z) (held : list (source * Z)) : option (list (source * Z)) :=
  match held with
  | [] => None
  | (c', i') :: rest => if sameSource c c' && Z.eqb i i' then Some rest else option_map (cons (c', i')) (removeItem c i rest)
  end.
Fixpoint releases (t : list ev) (held : list (source * Z)) : option (list (source * Z)) :=
  match t with
  | [] => Some held
  | Got c i :: rest => releases rest ((c, i) :: held)
  | Released _ c i :: rest => match removeItem c i held with Some held' => releases rest held' | None => None end
  end.
Definition balanced (t : list ev) : Prop := releases t [] = Some [].

(* strings in the order of their bytes *)
Definition before (a b : list Z) : Prop :=
  exists c a' b', a = c ++ a' /\ b = c ++ b' /\ ((a' = [] /\ b' <> []) \/ exists x y a2 b2, a' = x :: a2 /\ b' = y :: b2 /\ (x < y)%Z).
Definition bytes (s : list Z) : Prop := Forall (fun c => 0 < c < 256)%Z s.
(* not a coordinate or an IP address *)
Definition plainName (s : list Z) : Prop := bytes s /\ forall c r, s = c :: r -> c <> 1%Z /\ c <> 2%Z.

Section DataSetSpec.
  Variable getString : Z -> option (list Z) * bool.
  Variable getProperty : Z -> option Property * bool.
  Variable getValue : Z -> option Z * bool.
  Variable getOffset : Z -> option ProfileOffset * bool.
  Variable getProfile : Z -> option Profile * bool.
  (* item i can be read and has the name s *)
  Definition propertyNamed (i : Z) (p : Property) (s : list Z) : Prop := getProperty i = (Some p, true) /\ getString (nameOffset p) = (Some s, true).
  Definition valueNamed (v : Z) (s : list Z) : Prop := exists o, getValue v = (Some o, true) /\ getString o = (Some s, true).
  Definition profileAt (i : Z) (p : Profile) : Prop := exists o, getOffset i = (Some o, true) /\ getProfile (offset o) = (Some p, true).
  (* the names of the property's values can be read and are sorted *)
  Definition valuesSorted (property : Property) : Prop :=
    (0 <= firstValueIndex property <= lastValueIndex property + 1 /\ lastValueIndex property < 2 ^ 32 - 1)%Z /\
    (forall v, firstValueIndex property <= v <= lastValueIndex property -> exists s, valueNamed v s /\ plainName s)%Z /\
    (forall v w s t, firstValueIndex property <= v -> v < w -> w <= lastValueIndex property -> valueNamed v s -> valueNamed w t -> s = t \/ before s t)%Z.
End DataSetSpec.
