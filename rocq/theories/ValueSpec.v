(* What the text of a value is.  Only the address texts of IpSpec and the
   portable floats of FloatSpec are used. *)
From Coq Require Import List Arith ZArith.
From Coq Require Import Floats.SpecFloat.
From Verif Require Import IpSpec.
Import ListNotations.
Local Open Scope Z_scope.

(* the three kinds of values *)
Inductive form := Plain | Address | Coordinate.

(* dictionary order of byte sequences *)
Fixpoint order (a b : list Z) : comparison :=
  match a, b with
  | [], [] => Eq
  | [], _ :: _ => Lt
  | _ :: _, [] => Gt
  | x :: a', y :: b' => match x ?= y with Eq => order a' b' | c => c end
  end.

(* the four bytes of a number, least significant first *)
Definition littleEndian (w : Z) : list Z := [w mod 256; w / 256 mod 256; w / 65536 mod 256; w / 16777216 mod 256].

(* how a value with a content is stored: the number in its size field and
   the bytes that follow it; more bytes may follow in memory *)
Inductive storedAs : form -> list Z -> Z -> list Z -> Prop :=
| storedPlain text more size :
    Forall (fun c => 1 <= c <= 255) text -> hd 0 text <> 1 -> hd 0 text <> 2 ->
    storedAs Plain text size (text ++ 0 :: more)
| storedAddress bytes more :
    Z.of_nat (length bytes) <= 32766 -> Forall isByte bytes ->
    storedAs Address bytes (1 + Z.of_nat (length bytes)) (2 :: bytes ++ more)
| storedCoordinate lat lon more size :
    storedAs Coordinate (littleEndian lat ++ littleEndian lon) size (1 :: littleEndian lat ++ littleEndian lon ++ more).

(* the content a text asks for; [parse] gives the number a text stands for and
   [portable] its portable form *)
Inductive asks (parse : list Z -> spec_float) (portable : spec_float -> Z) : form -> list Z -> list Z -> Prop :=
| asksPlain text : Forall (fun c => 1 <= c <= 255) text -> asks parse portable Plain text text
| asksAddress text v4 bytes : ipText text (v4, bytes) -> asks parse portable Address text bytes
| asksCoordinate lat lon : ~ In 44 lat ->
    asks parse portable Coordinate (lat ++ 44 :: lon)
      (littleEndian (portable (parse lat)) ++ littleEndian (portable (parse lon))).
(* the number is read up to the comma *)
Definition endsAtComma (parse : list Z -> spec_float) : Prop :=
  forall a b, ~ In 44 a -> parse (a ++ 44 :: b) = parse a.
(* texts that cannot be of a form *)
Inductive foreign : form -> list Z -> Prop :=
| notAddress text : ~ In dot text -> ~ In colon text -> foreign Address text
| notCoordinate text : ~ In 44 text -> foreign Coordinate text.

(* the values from one index to another as read by [value] and [string]: all
   can be read, are of one form and increase *)
Definition sortedValues {V S} (value : Z -> option V * bool) (name : V -> Z) (string : Z -> option S * bool)
  (size : S -> Z) (bytes : S -> list Z) (f : form) (content : Z -> list Z) (first last : Z) : Prop :=
  (forall i, first <= i <= last -> exists v s, value i = (Some v, true) /\ string (name v) = (Some s, true) /\
     storedAs f (content i) (size s) (bytes s)) /\
  (forall i j, first <= i -> i < j -> j <= last -> order (content i) (content j) = Lt).
