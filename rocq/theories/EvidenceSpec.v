(* What iterating evidence is, and what a key is. *)
From Coq Require Import List ZArith Arith.
Import ListNotations.

(* prefixes are the powers of two of the header file; a set is its bits *)
Definition isPrefix (p : Z) : Prop := In p [1; 2; 4; 8; 16; 128]%Z.
Definition inSet (p prefixes : Z) : Prop := exists k, (0 <= k)%Z /\ p = (2 ^ k)%Z /\ Z.testbit prefixes k = true.

Section Visit.
  Context {A B S : Type}.
  (* b are the members of a that are in the set, in order *)
  Inductive selected (P : A -> Prop) (f : A -> B) : list A -> list B -> Prop :=
  | sel_nil : selected P f [] []
  | sel_in x l l' : P x -> selected P f l l' -> selected P f (x :: l) (f x :: l')
  | sel_out x l l' : ~ P x -> selected P f l l' -> selected P f (x :: l) l'.
  (* the callback is called on l one after the other from state s, stopping at
     the first refusal: n calls, and the state after them *)
  Inductive called (callback : S -> B -> bool * S) : list B -> S -> nat -> S -> Prop :=
  | called_nil s : called callback [] s 0 s
  | called_refuse x l s s' : callback s x = (false, s') -> called callback (x :: l) s 1 s'
  | called_accept x l s s' n s'' : callback s x = (true, s') -> called callback l s' n s'' ->
      called callback (x :: l) s (1 + n) s''.
End Visit.

(* the four kinds of keys *)
Inductive keyPrefix : list Z -> Z -> Prop :=
| key_header : keyPrefix [104; 101; 97; 100; 101; 114; 46]%Z 1    (* header. *)
| key_server : keyPrefix [115; 101; 114; 118; 101; 114; 46]%Z 4   (* server. *)
| key_query : keyPrefix [113; 117; 101; 114; 121; 46]%Z 8         (* query. *)
| key_cookie : keyPrefix [99; 111; 111; 107; 105; 101; 46]%Z 16.  (* cookie. *)
