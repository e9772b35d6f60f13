(* The keys an engine accepts *)
From Coq Require Export String Ascii List ZArith.
Export ListNotations.
Open Scope Z_scope.

(* the bytes of a text *)
Definition bytesOf (s : string) : list Z := List.map (fun c => Z.of_nat (nat_of_ascii c)) (list_ascii_of_string s).
(* the members of l that are not in seen nor earlier in l, in their order *)
Inductive distinct {A} : list A -> list A -> list A -> Prop :=
| distinct_nil seen : distinct seen [] []
| distinct_seen seen x l out : In x seen -> distinct seen l out -> distinct seen (x :: l) out
| distinct_new seen x l out : ~ In x seen -> distinct (seen ++ [x]) l out -> distinct seen (x :: l) (x :: out).
(* the keys of an overriding property, and of a header *)
Definition overrideKeys (prefixed : bool) (name : list Z) : list (list Z) :=
  let n := if prefixed then bytesOf "51D_" ++ name else name in [bytesOf "cookie." ++ n; bytesOf "query." ++ n].
Definition headerKeys (upper : bool) (name : list Z) : list (list Z) :=
  let n := if upper then bytesOf "HTTP_" ++ name else name in [bytesOf "header." ++ n; bytesOf "query." ++ n].
(* a pseudo header has segments *)
Definition isPseudo (name : list Z) : Prop := In 31 name.
