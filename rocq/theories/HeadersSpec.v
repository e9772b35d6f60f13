(* What the headers of a data set are. *)
From Verif Require Import StringSpec.
From Coq Require Import List ZArith Arith.
Import ListNotations.

Definition separator : Z := 31.
Definition noSep (w : list Z) : Prop := ~ In separator w.
(* the non empty parts between separators *)
Inductive parts : list Z -> list (list Z) -> Prop :=
| parts_nil : parts [] []
| parts_sep s l : parts s l -> parts (separator :: s) l
| parts_last w : w <> [] -> noSep w -> parts w [w]
| parts_word w s l : w <> [] -> noSep w -> parts s l -> parts (w ++ separator :: s) (w :: l).
(* a name with one part has no separators around it *)
Definition tidy (n : list Z) : Prop := forall w, parts n [w] -> n = w.
Definition hasPart (n : list Z) : Prop := exists w l, parts n (w :: l).
(* l is obtained from l' by leaving out elements *)
Inductive sublist {A} : list A -> list A -> Prop :=
| sub_nil : sublist [] []
| sub_keep x l l' : sublist l l' -> sublist (x :: l) (x :: l')
| sub_drop x l l' : sublist l l' -> sublist l (x :: l').
(* no two texts of the list are the same ignoring case *)
Definition distinctTexts (l : list (list Z)) : Prop :=
  forall i j a b, nth_error l i = Some a -> nth_error l j = Some b -> sameText a b -> i = j.
