(* What it is to be the same text ignoring the case of ASCII letters, and to
   occur in a text. *)
From Coq Require Import List ZArith Arith.
Import ListNotations.

Definition upperLower (u l : Z) : Prop := (65 <= u <= 90)%Z /\ l = (u + 32)%Z.
Definition sameLetter (c d : Z) : Prop := c = d \/ upperLower c d \/ upperLower d c.
Definition sameText (a b : list Z) : Prop := Forall2 sameLetter a b.
(* b occurs in a at position p *)
Definition occursAt (a b : list Z) (p : nat) : Prop :=
  exists before middle after, a = before ++ middle ++ after /\ length before = p /\ sameText middle b.
(* the end of a, from position p on, is a proper non empty beginning of b *)
Definition endsInside (a b : list Z) (p : nat) : Prop :=
  exists before e b1 b2, a = before ++ e /\ length before = p /\ b = b1 ++ b2 /\
    e <> [] /\ b2 <> [] /\ sameText e b1.
