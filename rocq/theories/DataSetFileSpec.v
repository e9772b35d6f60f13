(* What the files of a data set are *)
From Verif Require Export FileTempSpec DataSetFileModel.

(* the array holds the string *)
Definition holds (buf : list Z) (s : cstring) : Prop := isString s /\ exists rest, buf = s ++ 0 :: rest.
(* every file of d is in d' as it was *)
Definition kept (d d' : Disk) : Prop := forall q, find q d <> None -> find q d' = find q d.
(* an array that was reset *)
Definition cleared (buf : list Z) : Prop := buf <> [] /\ Forall (eq 0) buf.
