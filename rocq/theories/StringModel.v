(* string.c.  A char is an integer -128..127, a NUL terminated text is the list
   of its non zero characters; where the C code reads memory by a length and not
   up to the terminator the list is the whole readable memory. *)
From Coq Require Export List ZArith Lia Bool Arith.
Export ListNotations.

(* tolower of <ctype.h> in the "C" locale: used in string.c:65,82,94,99.  Only
   A-Z are changed; negative characters, for which the C standard leaves tolower
   undefined, are taken to be unchanged as glibc does. *)
Definition tolower (c : Z) : Z := if (Z.leb 65 c && Z.leb c 90)%bool then (c + 32)%Z else c.

(* string.c:63-74 fiftyoneDegreesStringCompare *)
Fixpoint StringCompare (a b : list Z) : Z :=
  match a, b with
  | x :: a', y :: b' =>
    let d := (tolower x - tolower y)%Z in
    if Z.eqb d 0 then StringCompare a' b' else d
  | [], _ :: _ => (-1)%Z
  | _ :: _, [] => 1%Z
  | [], [] => 0%Z
  end.

(* string.c:76-88 fiftyoneDegreesStringCompareLength.  The loop does not look
   for the terminator.  a and b are the readable memory from the two pointers
   on; None: a read outside it. *)
Fixpoint StringCompareLength (length : nat) (a b : list Z) : option Z :=
  match length with
  | 0 => Some 0%Z
  | S n =>
    match a, b with
    | x :: a', y :: b' =>
      let d := (tolower x - tolower y)%Z in
      if Z.eqb d 0 then StringCompareLength n a' b' else Some d
    | _, _ => None
    end
  end.

(* string.c:97-102: the inner loop of fiftyoneDegreesStringSubString; d is 0
   when it starts and its value when the loop ends decides. *)
Fixpoint subStringInner (a1 b1 : list Z) : bool :=
  match a1, b1 with
  | x :: a', y :: b' => if Z.eqb (tolower x - tolower y) 0 then subStringInner a' b' else false
  | _, _ => true
  end.

(* string.c:90-110 fiftyoneDegreesStringSubString.  The result is the position
   in the first text, None for NULL. *)
Fixpoint StringSubStringFrom (pos : nat) (a b : list Z) : option nat :=
  match a, b with
  | x :: a', y :: b' =>
    if (Z.eqb (tolower x - tolower y) 0 && subStringInner a' b')%bool then Some pos
    else StringSubStringFrom (S pos) a' b
  | _, _ => None
  end.
(* string.c:90-110 fiftyoneDegreesStringSubString *)
Definition StringSubString (a b : list Z) : option nat := StringSubStringFrom 0 a b.

(* The memory of a NUL terminated text. *)
Definition cstr (a : list Z) : list Z := a ++ [0%Z].
