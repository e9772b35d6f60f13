(* What components are in a data file *)
From Verif Require Export ListSpec.

(* little endian bytes *)
Fixpoint bytes (n : nat) (z : Z) : list Z :=
  match n with O => [] | S n' => (z mod 256)%Z :: bytes n' (z / 256)%Z end.
(* a component, and how it is written *)
Record Comp := mkComp { cId : Z; cName : Z; cProfile : Z; cPairs : list (Z * Z) }.
Definition encodePair (p : Z * Z) : list Z := bytes 4 (fst p) ++ bytes 4 (snd p).
Definition encode (c : Comp) : list Z :=
  bytes 1 (cId c) ++ bytes 4 (cName c) ++ bytes 4 (cProfile c) ++ bytes 2 (Z.of_nat (length (cPairs c))) ++ flat_map encodePair (cPairs c).
Definition uint (n : nat) (z : Z) : Prop := (0 <= z < 256 ^ Z.of_nat n)%Z.
Definition valid (c : Comp) : Prop :=
  uint 1 (cId c) /\ uint 4 (cName c) /\ uint 4 (cProfile c) /\ uint 2 (Z.of_nat (length (cPairs c))) /\ Forall (fun p => uint 4 (fst p) /\ uint 4 (snd p)) (cPairs c).
(* where each component is, when they are one after the other from offset on *)
Fixpoint places (offset : Z) (l : list Comp) : list Z :=
  match l with [] => [] | c :: l' => offset :: places (offset + Z.of_nat (length (encode c)))%Z l' end.
(* what the list holds: an item for each place *)
Definition itemAt (offset : Z) : Item := mkItem (Some 1%Z) offset 0.
