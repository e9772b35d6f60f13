(* What the order of keys and the texts of strings are: independent of the model
   apart from its records. *)
From Verif Require Import MetaModel.
Local Open Scope Z_scope.

(* a comes before b in a dictionary *)
Definition comesBefore (a b : list Z) : Prop :=
  (exists y r, b = a ++ y :: r) \/
  (exists p x y r s, a = p ++ x :: r /\ b = p ++ y :: s /\ x < y).
(* by property, then by value *)
Definition keyBefore (a b : key) : Prop :=
  comesBefore (propertyName a) (propertyName b) \/
  (propertyName a = propertyName b /\ comesBefore (valueName a) (valueName b)).
(* what std::map and std::sort need, and no two that are not the same are equivalent *)
Definition strictTotal {A} (less : A -> A -> bool) : Prop :=
  (forall a, less a a = false) /\
  (forall a b c, less a b = true -> less b c = true -> less a c = true) /\
  (forall a b, less a b = true \/ a = b \/ less b a = true).
(* eq says whether two are the same *)
Definition decides {A} (eq : A -> A -> bool) : Prop := forall a b, eq a b = true <-> a = b.
(* a stored string: two bytes of size, the text, a zero and anything *)
Definition storedText (content t : list Z) : Prop :=
  ~ In 0 t /\ exists a b rest, content = a :: b :: t ++ 0 :: rest.
(* the calls made with an address that set the same *)
Definition sameSetting (a b : setting) : Prop :=
  match a, b with
  | SetCapacity _, SetCapacity _ | SetConcurrency _, SetConcurrency _ | SetLoaded _, SetLoaded _ => True
  | _, _ => False
  end.
(* what a getter says of a structure *)
Definition settingOf (o : setting) (s : settings) : Z :=
  match o with SetCapacity _ => capacity s | SetConcurrency _ => concurrency s | SetLoaded _ => loaded s end.
(* the number given and the numbers allowed *)
Definition given (o : setting) : Z := match o with SetCapacity z | SetConcurrency z | SetLoaded z => z end.
Definition allowed (o : setting) : Prop :=
  match o with SetConcurrency z => 0 <= z < 2 ^ 16 | SetCapacity z | SetLoaded z => 0 <= z < 2 ^ 32 end.
