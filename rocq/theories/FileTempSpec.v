(* What copies, temporary files and the search for a data file are for *)
From Verif Require Export FileSpec FileTempModel.

(* no error of fseek, fread or fclose *)
Definition noErrors (io : IO) : Prop := seeks io = true /\ reads io = None /\ reaches io = None.
(* a file is made, and nothing else changes *)
Definition made (d d' : Disk) (p : cstring) (b : list Z) : Prop := find p d' = Some b /\ forall q, q <> p -> find q d' = find q d.
Definition unchanged (d d' : Disk) : Prop := forall q, find q d' = find q d.
(* the beginning of the paths of the files in a directory; that of the working
   directory is empty *)
Definition tempDir (path dir : cstring) : Prop := (path = [] /\ dir = []) \/ joins path [] dir.

(* the directories above the working directory and itself, without the root *)
Definition above (cwd a : cstring) : Prop := a <> [] /\ (a = cwd \/ exists sep rest, isSep sep /\ cwd = a ++ sep :: rest).
Definition dataPath (a folder file : cstring) : cstring := a ++ 47 :: folder ++ 47 :: file.

(* the files that were made, one or none in each directory: each is another, was not
   there before and is a copy of the master file, and nothing else changed *)
Definition copies (d d' : Disk) (master : cstring) (dirs : list cstring) (new : list (option cstring)) : Prop :=
  Forall2 (fun dir o => forall p, o = Some p -> exists name, p = dir ++ name) dirs new /\
  (forall i j p, nth_error new i = Some (Some p) -> nth_error new j = Some (Some p) -> i = j) /\
  (forall p, In (Some p) new -> find p d = None /\ find master d <> None /\ find p d' = find master d) /\
  (forall q, ~ In (Some q) new -> find q d' = find q d).
(* a directory where the older method makes no file: its name is too long, or a file
   there is not opened or not written *)
Definition refused (io : cstring -> IO) (dir : cstring) : Prop :=
  4096 <= len dir + 20 \/ exists name, canWrite (io (dir ++ name)) = false \/ accepts (io (dir ++ name)) <> None.
