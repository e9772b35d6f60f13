(* What the values of a property are as a string, a bool, or a number *)
From Coq Require Export String Ascii List ZArith.
Export ListNotations.
Open Scope Z_scope.

(* the characters of a text *)
Definition chars (s : string) : list Z := List.map (fun c => Z.of_nat (nat_of_ascii c)) (list_ascii_of_string s).
(* s is the texts of l with a bar between each two *)
Inductive barred : list (list Z) -> list Z -> Prop :=
| barred_one a : barred [a] a
| barred_more a l s : barred l s -> barred (a :: l) (a ++ chars "|" ++ s).
Definition barFree (a : list Z) : Prop := ~ In 124 a.
(* the text of an integer: an optional sign and digits; what follows is none *)
Fixpoint numeral (digits : list Z) : Z :=
  match digits with [] => 0 | d :: rest => (d - 48) * 10 ^ Z.of_nat (List.length rest) + numeral rest end.
Definition isDigit (c : Z) : Prop := 48 <= c <= 57.
Definition integerText (s : list Z) (n : Z) : Prop :=
  exists spaces digits rest, Forall (fun c => c = 32 \/ 9 <= c <= 13) spaces /\ Forall isDigit digits /\ digits <> [] /\
    (rest = [] \/ exists c r, rest = c :: r /\ ~ isDigit c) /\
    ((s = spaces ++ digits ++ rest \/ s = spaces ++ 43 :: digits ++ rest) /\ n = numeral digits \/ s = spaces ++ 45 :: digits ++ rest /\ n = - numeral digits).
