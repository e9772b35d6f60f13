(* What the parts of a path are *)
From Verif Require Export FilePathModel.

(* a string: no terminator before its end *)
Definition isString (s : cstring) : Prop := ~ In 0 s.
Definition isSep (c : Z) : Prop := c = 47 \/ c = 92.
(* the file name of a path: what is after the last separator, or all of it *)
Definition isFileName (path name : cstring) : Prop :=
  (forall c, In c name -> ~ isSep c) /\
  (path = name \/ exists dir sep, isSep sep /\ path = dir ++ sep :: name).
(* a name without its extension: what is before the last dot, or all of it *)
Definition isBaseName (name base : cstring) : Prop :=
  (~ In 46 name /\ base = name) \/ exists ext, ~ In 46 ext /\ name = base ++ 46 :: ext.
