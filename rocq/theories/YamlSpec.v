(* Simple YAML files. *)
From Verif Require Export TextFileSpec.
From Verif Require Import TextFileModel.

Inductive scalar := Plain (v : list Z) | Quoted (v : list Z).
Definition valueOf (s : scalar) : list Z := match s with Plain v => v | Quoted v => v end.
Definition document : Type := list (list Z * scalar).
(* characters of a line: not '\0', no end of line *)
Definition lineChars (l : list Z) : Prop := Forall (fun c => c <> 0%Z /\ ~ eol c) l.
(* a key has no colon and does not begin with '-' or '.' *)
Definition keyOk (k : list Z) : Prop := lineChars k /\ ~ In 58%Z k /\ (forall c r, k = c :: r -> c <> 45%Z /\ c <> 46%Z).
(* a value without quotes does not begin with a quote *)
Definition scalarOk (s : scalar) : Prop := lineChars (valueOf s) /\ match s with Plain v => forall c r, v = c :: r -> c <> 39%Z | Quoted _ => True end.
Definition pairOk (p : list Z * scalar) : Prop := keyOk (fst p) /\ scalarOk (snd p).

(* key: value, key: 'value' *)
Definition renderPair (p : list Z * scalar) : list Z :=
  fst p ++ [58; 32]%Z ++ match snd p with Plain v => v | Quoted v => 39%Z :: v ++ [39%Z] end.
Definition dashes : list Z := [45; 45; 45]%Z.
Definition dots : list Z := [46; 46; 46]%Z.
Definition documentLines (docs : list document) : list (list Z) := flat_map (fun d => dashes :: map renderPair d) docs.
(* the documents, to the end or to a line with three dots; lines end with any number
   of end of line characters *)
Definition yamlText (docs : list document) (text : list Z) : Prop :=
  text <> [] /\ (forall c r, text = c :: r -> ~ eol c) /\
  exists tail, linesOf text (documentLines docs ++ tail) /\ (tail = [] \/ exists x rest, tail = (dots ++ x) :: rest).

(* a document fits in the pairs: one pair is left over, the strings are shorter than
   the buffers (with a quote also the quote) *)
Definition scalarFits (s : scalar) (n : nat) : Prop := match s with Plain v => length v < n | Quoted v => length v + 1 < n end.
Definition documentFits (pairs : list (list Z * list Z)) (d : document) : Prop :=
  length d < length pairs /\ (Z.of_nat (length d) < 2 ^ 15)%Z /\
  forall i p b, nth_error d i = Some p -> nth_error pairs i = Some b -> length (fst p) < length (fst b) /\ scalarFits (snd p) (length (snd b)).
(* a call shows a document *)
Definition shows (call : list (list Z * list Z)) (d : document) : Prop :=
  Forall2 (fun b p => cstring (fst b) = Some (fst p) /\ cstring (snd b) = Some (valueOf (snd p))) call d.
Definition nonEmptyDocs (docs : list document) : list document := filter (fun d => match d with [] => false | _ => true end) docs.

(* for any content: fewer lines than pairs between the lines that begin with ---, no
   colon on those, and no value that is a single quote *)
Fixpoint startsWith (p l : list Z) : bool :=
  match p, l with
  | [], _ => true
  | a :: p', b :: l' => Z.eqb a b && startsWith p' l'
  | _, [] => false
  end.
Definition loneQuote (l : list Z) : Prop := exists k c, l = k ++ [58%Z; c; 39%Z] /\ ~ In 58%Z k.
Inductive smallDocuments (size : nat) : nat -> list (list Z) -> Prop :=
| s_nil n : smallDocuments size n []
| s_dashes n l rest : startsWith dashes l = true -> ~ In 58%Z l -> smallDocuments size 0 rest -> smallDocuments size n (l :: rest)
| s_dots n l rest : startsWith dots l = true -> smallDocuments size n (l :: rest)
| s_line n l rest : startsWith dashes l = false -> ~ loneQuote l -> S n < size -> (Z.of_nat (S n) < 2 ^ 15)%Z ->
    smallDocuments size (S n) rest -> smallDocuments size n (l :: rest).
(* an empty text and an end of line at the beginning count as a line *)
Definition emptyStart (text : list Z) : nat := match text with [] => 1 | c :: _ => if Z.eqb c 10 || Z.eqb c 13 then 1 else 0 end.
