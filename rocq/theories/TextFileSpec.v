(* The lines of a text. *)
From Verif Require Import TextFileModel.

Definition eol (c : Z) : Prop := c = 13%Z \/ c = 10%Z.
(* the text is cut at every end of line character; empty pieces do not count *)
Inductive linesOf : list Z -> list (list Z) -> Prop :=
| lines_nil : linesOf [] []
| lines_eol c text l : eol c -> linesOf text l -> linesOf (c :: text) l
| lines_last line : line <> [] -> Forall (fun c => ~ eol c) line -> linesOf line [line]
| lines_more line c text l : line <> [] -> Forall (fun c => ~ eol c) line -> eol c -> linesOf text l -> linesOf (line ++ c :: text) (line :: l).
(* the text fits: lines with their end of line character are not longer *)
Definition fits (n : nat) (text : list Z) : Prop :=
  forall a line b, text = a ++ line ++ b -> Forall (fun c => ~ eol c) line -> length line < n.
(* no text up to the end that begins with the text or after an end of line
   character has exactly the length n *)
Definition unaligned (n : nat) (text : list Z) : Prop :=
  forall a b, text = a ++ b -> a = [] \/ (exists a' c, a = a' ++ [c] /\ eol c) -> length b <> n.
Definition endsInEol (text : list Z) : Prop := exists a c, text = a ++ [c] /\ eol c.
Definition nonEmpty (l : list (list Z)) : list (list Z) := filter (fun s => match s with [] => false | _ => true end) l.
(* no two end of line characters next to each other and none at the beginning *)
Definition singleEols (text : list Z) : Prop :=
  (forall c b, text = c :: b -> ~ eol c) /\ (forall a c d b, text = a ++ c :: d :: b -> eol c -> ~ eol d).
