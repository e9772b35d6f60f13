(* file.c: names in paths.  A C string is the list of its bytes before the
   terminator; a pointer into it is the number of bytes before it. *)
From Coq Require Export List ZArith Lia Bool.
Export ListNotations.
Open Scope Z_scope.

(* the bytes of a string *)
Definition cstring := list Z.
(* a slash *)
Definition slash : Z := 47.
(* a backslash *)
Definition backslash : Z := 92.
(* a dot *)
Definition dotChar : Z := 46.
(* the byte a pointer refers to; 0 is the terminator *)
Definition charAt (s : cstring) (i : nat) : Z := nth i s 0.

(* file.c:315-325 getNameFromPath, with the bytes from current on *)
Fixpoint getNameFromPathFrom (rest : cstring) (current last : nat) : nat :=
  match rest with
  | [] => last
  | c :: rest' =>
    let last := if (c =? slash) || (c =? backslash) then S current else last in
    getNameFromPathFrom rest' (S current) last
  end.
(* file.c:315-325 getNameFromPath *)
Definition getNameFromPath (path : cstring) : nat := getNameFromPathFrom path 0 0.

(* strcmp of two strings is 0 *)
Fixpoint streq (a b : cstring) : bool :=
  match a, b with
  | [], [] => true
  | x :: a', y :: b' => (x =? y) && streq a' b'
  | _, _ => false
  end.
(* file.c:335-339 fileNamesMatch *)
Definition fileNamesMatch (path otherPath : cstring) : bool :=
  streq (skipn (getNameFromPath path) path) (skipn (getNameFromPath otherPath) otherPath).

(* strrchr *)
Fixpoint strrchrFrom (c : Z) (rest : cstring) (i : nat) (found : option nat) : option nat :=
  match rest with
  | [] => found
  | x :: rest' => strrchrFrom c rest' (S i) (if x =? c then Some i else found)
  end.
(* strrchr of the C library *)
Definition strrchr (s : cstring) (c : Z) : option nat := strrchrFrom c s 0 None.

(* the status codes used, status.h *)
Inductive pathStatus := PathSuccess (dest : cstring) | PathInsufficientMemory.
(* conversion to size_t *)
Definition size_t (x : Z) : Z := x mod 2 ^ 64.
(* file.c:622-643 getBasenameWithoutExtension: dot - pos is a difference of pointers
   that may be negative.  The result is None if bytes after the end of dest are
   written. *)
Definition getBasenameWithoutExtension (path : cstring) (length : Z) : option pathStatus :=
  let pos := getNameFromPath path in
  let name := skipn pos path in
  let end_ := match strrchr path dotChar with
              | Some dot => size_t (Z.of_nat dot - Z.of_nat pos)
              | None => Z.of_nat (List.length name)
              end in
  if size_t (end_ + 1) >? length then Some PathInsufficientMemory
  else if end_ + 1 >? length then None
  else Some (PathSuccess (firstn (Z.to_nat end_) name)).

(* file.c:773-782 fiftyoneDegreesFileGetBaseName: the pointer returned, or NULL *)
Definition FileGetBaseName (path : cstring) : option nat :=
  match strrchr path slash with
  | Some _ => None
  | None =>
    match strrchr path backslash with
    | Some i => if (List.length (skipn i path) =? 1)%nat then None else Some (S i)
    | None => None
    end
  end.

(* file.c:1098-1104 fiftyoneDegreesFileGetFileName: the pointer returned *)
Fixpoint fileNameLoop (path : cstring) (c : nat) : nat :=
  match c with
  | O => O
  | S c' => if (charAt path c =? backslash) || (charAt path c =? slash) then c else fileNameLoop path c'
  end.
(* file.c:1098-1104 fiftyoneDegreesFileGetFileName *)
Definition FileGetFileName (path : cstring) : nat := S (fileNameLoop path (List.length path)).
(* the string a pointer refers to, if there is one *)
Definition stringAt (path : cstring) (i : nat) : option cstring :=
  if (i <=? List.length path)%nat then Some (skipn i path) else None.
