(* ConfigBase.cpp: the configuration with its temp directories.  A std::string is any list
   of bytes.  A pointer that c_str() gave is good until the vector of strings is assigned
   again or destroyed: version counts these.  Arrays never get the place of another one. *)
From Coq Require Export List ZArith Lia Bool.
Export ListNotations.
Open Scope Z_scope.

(* a pointer from c_str() of string i of the vector *)
Record CharPointer := mkPointer { version : nat; at_ : nat }.
(* config.h:49-66 the members that the class uses *)
Record Config := mkConfig { usesUpperPrefixedHeaders : bool; useTempFile : bool; reuseTempFile : bool; tempDirs : option nat; tempDirCount : Z }.
(* the configuration, the object's vector and its version, the arrays that are allocated,
   the next place *)
Record World := mkWorld { config : Config; strings : list (list Z); now : nat; arrays : list (nat * list CharPointer); next : nat }.

(* ConfigBase.cpp:29-31 the constructor, for a configuration without directories *)
Definition newConfig (upper use reuse : bool) : World := mkWorld (mkConfig upper use reuse None 0) [] 0 [] 0.

(* free of an array that is allocated *)
Fixpoint freeArray (p : nat) (l : list (nat * list CharPointer)) : option (list (nat * list CharPointer)) :=
  match l with
  | [] => None
  | x :: l' => if Nat.eqb (fst x) p then Some l' else option_map (cons x) (freeArray p l')
  end.
(* ConfigBase.cpp:75-81 freeTempDirectories *)
Definition freeTempDirectories (w : World) : option World :=
  let c := config w in
  match tempDirs c with
  | None => Some (mkWorld (mkConfig (usesUpperPrefixedHeaders c) (useTempFile c) (reuseTempFile c) None 0) (strings w) (now w) (arrays w) (next w))
  | Some p => option_map (fun a => mkWorld (mkConfig (usesUpperPrefixedHeaders c) (useTempFile c) (reuseTempFile c) None 0) (strings w) (now w) a (next w)) (freeArray p (arrays w))
  end.
(* ConfigBase.cpp:33-35 the destructor *)
Definition destroy (w : World) : option World := option_map (fun w => mkWorld (config w) [] (S (now w)) (arrays w) (next w)) (freeTempDirectories w).
(* ConfigBase.cpp:83-90 mapTempDirectories; size() is an int.  If memory is not allocated
   any pointer written is to NULL. *)
Definition mapTempDirectories (mallocs : bool) (w : World) : option World :=
  let c := config w in
  let n := List.length (strings w) in
  if mallocs then
    Some (mkWorld (mkConfig (usesUpperPrefixedHeaders c) (useTempFile c) (reuseTempFile c) (Some (next w)) (Z.of_nat n)) (strings w) (now w)
                  ((next w, map (mkPointer (now w)) (seq 0 n)) :: arrays w) (S (next w)))
  else match n with
       | O => Some (mkWorld (mkConfig (usesUpperPrefixedHeaders c) (useTempFile c) (reuseTempFile c) None 0) (strings w) (now w) (arrays w) (next w))
       | S _ => None
       end.
(* ConfigBase.cpp:49-53 setTempDirectories *)
Definition setTempDirectories (mallocs : bool) (dirs : list (list Z)) (w : World) : option World :=
  mapTempDirectories mallocs (mkWorld (config w) dirs (S (now w)) (arrays w) (next w)).
(* ConfigBase.cpp:37-39 setUseUpperPrefixHeaders *)
Definition setUseUpperPrefixHeaders (b : bool) (w : World) : World :=
  let c := config w in mkWorld (mkConfig b (useTempFile c) (reuseTempFile c) (tempDirs c) (tempDirCount c)) (strings w) (now w) (arrays w) (next w).
(* ConfigBase.cpp:41-43 setUseTempFile *)
Definition setUseTempFile (b : bool) (w : World) : World :=
  let c := config w in mkWorld (mkConfig (usesUpperPrefixedHeaders c) b (reuseTempFile c) (tempDirs c) (tempDirCount c)) (strings w) (now w) (arrays w) (next w).
(* ConfigBase.cpp:45-47 setReuseTempFile *)
Definition setReuseTempFile (b : bool) (w : World) : World :=
  let c := config w in mkWorld (mkConfig (usesUpperPrefixedHeaders c) (useTempFile c) b (tempDirs c) (tempDirCount c)) (strings w) (now w) (arrays w) (next w).

(* the calls *)
Inductive call := SetUpper (b : bool) | SetUse (b : bool) | SetReuse (b : bool) | SetDirs (dirs : list (list Z)).
(* a call with memory available or not *)
Definition run (mallocs : bool) (c : call) (w : World) : option World :=
  match c with
  | SetUpper b => Some (setUseUpperPrefixHeaders b w)
  | SetUse b => Some (setUseTempFile b w)
  | SetReuse b => Some (setReuseTempFile b w)
  | SetDirs l => setTempDirectories mallocs l w
  end.
(* calls in order *)
Fixpoint runs (mallocs : bool) (l : list call) (w : World) : option World :=
  match l with [] => Some w | c :: l' => match run mallocs c w with Some w' => runs mallocs l' w' | None => None end end.

(* How the C code reads the temp directories: tempDirs[i] as C string; None if that is
   undefined *)
Fixpoint cText (s : list Z) : list Z := match s with [] => [] | c :: s' => if Z.eqb c 0 then [] else c :: cText s' end.
(* the text at a pointer *)
Definition textAt (w : World) (p : CharPointer) : option (list Z) :=
  if Nat.eqb (version p) (now w) then option_map cText (nth_error (strings w) (at_ p)) else None.
(* tempDirs[i] *)
Definition tempDir (w : World) (i : nat) : option (list Z) :=
  match tempDirs (config w) with
  | None => None
  | Some a => match find (fun x => Nat.eqb (fst x) a) (arrays w) with
              | None => None
              | Some (_, l) => match nth_error l i with Some p => textAt w p | None => None end
              end
  end.
