(* What overriding values is. *)
From Verif Require Import StringSpec EvidenceModel.

(* what is done to an array of values *)
Inductive op := Put (i : Z) (v : list Z) | Clear.
(* v is the value last added for i since the last reset *)
Definition lastAdd (ops : list op) (i : Z) (v : list Z) : Prop :=
  exists before after, ops = before ++ Put i v :: after /\ ~ In Clear after /\ forall w, ~ In (Put i w) after.
(* fewer than cap properties have a value each time one is added *)
Definition roomy (cap : nat) (ops : list op) : Prop :=
  forall before i v after, ops = before ++ Put i v :: after -> (0 <= i)%Z ->
  forall s, NoDup s -> (forall j, In j s -> (0 <= j)%Z /\ exists w, lastAdd before j w) -> length s < cap.
(* the memory of a String with text v: its size with the terminator, low byte
   first, the text and the terminator *)
Definition stringIs (m : list Z) (v : list Z) : Prop :=
  exists tail, m = [Z.of_nat (length v + 1) mod 256; (Z.of_nat (length v + 1) / 256) mod 256]%Z ++ v ++ 0%Z :: tail.

(* the name meant by a field: what follows 51D_ (in any case) if at least two
   characters follow, else the field *)
Inductive meant : bool -> list Z -> list Z -> Prop :=
| meant_plain f : meant false f f
| meant_prefixed p n : sameText p [53; 49; 68; 95]%Z -> 2 <= length n -> meant true (p ++ n) n
| meant_other f : (forall p n, f = p ++ n -> sameText p [53; 49; 68; 95]%Z -> length n < 2) -> meant true f f.

(* l is the sequence of the maximal runs of digits of s *)
Definition digit (c : Z) : Prop := (48 <= c <= 57)%Z.
Inductive digitRuns : list Z -> list (list Z) -> Prop :=
| runs_nil : digitRuns [] []
| runs_other c s l : ~ digit c -> digitRuns s l -> digitRuns (c :: s) l
| runs_end r : r <> [] -> Forall digit r -> digitRuns r [r]
| runs_run r c s l : r <> [] -> Forall digit r -> ~ digit c -> digitRuns s l -> digitRuns (r ++ c :: s) (r :: l).
(* the number a run denotes *)
Definition number (r : list Z) : Z := fold_left (fun n c => 10 * n + (c - 48))%Z r 0%Z.
