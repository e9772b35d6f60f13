(* What comparing, finding and deleting files is for *)
From Verif Require Export FilePathSpec FileModel.

(* the files have the same size and the same first n bytes, or the same bytes *)
Definition sameStart (n : Z) (a b : list Z) : Prop :=
  List.length a = List.length b /\ (n < 0 -> a = b) /\ (0 <= n -> firstn (Z.to_nat n) a = firstn (Z.to_nat n) b).

(* the path of a file with a name in a directory *)
Definition joins (dir name p : cstring) : Prop :=
  (exists d sep, dir = d ++ [sep] /\ ((isSep sep /\ p = dir ++ name) \/ (~ isSep sep /\ p = dir ++ 47 :: name))).
Definition inDir (dir p : cstring) : Prop := exists name, name <> [] /\ ~ In 47 name /\ joins dir name p.

(* a file that is a copy of the master file: the same bytes, and another name that
   begins with the name of the master file without its extension *)
Definition isCopy (d : Disk) (n : Z) (master p : cstring) : Prop :=
  exists m c masterName base name rest, find master d = Some m /\ find p d = Some c /\ sameStart n m c /\
    isFileName master masterName /\ isBaseName masterName base /\ isFileName p name /\ name <> masterName /\ name = base ++ rest.

(* no two files of a disk have the same path *)
Definition onePath (d : Disk) : Prop := NoDup (map fst d).
