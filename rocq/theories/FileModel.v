(* file.c: files on disk.  A disk is a list of the files that can be read, by the path
   used to open them; no file has two paths.  Directories are not among them.  Sizes
   fit a long. *)
From Verif Require Export FilePathModel.

(* what fopen finds, no counterpart in /repo *)
Definition Disk := list (cstring * list Z).
(* the content of a file that can be opened *)
Fixpoint find (p : cstring) (d : Disk) : option (list Z) :=
  match d with
  | [] => None
  | (q, b) :: d' => if streq p q then Some b else find p d'
  end.
(* remove of the C library *)
Definition remove (p : cstring) (d : Disk) : Disk := filter (fun f => negb (streq p (fst f))) d.
(* a file written *)
Definition store (p : cstring) (b : list Z) (d : Disk) : Disk := (p, b) :: remove p d.

(* the size of a file, length of a string *)
Definition len (b : list Z) : Z := Z.of_nat (List.length b).

(* file.c:81-86 fileGetSize and 1044-1052 fiftyoneDegreesFileGetSize *)
Definition FileGetSize (d : Disk) (p : cstring) : Z := match find p d with Some b => len b | None => -1 end.
(* file.c:170-177 fileExists *)
Definition fileExists (d : Disk) (p : cstring) : bool := match find p d with Some _ => true | None => false end.

(* ---- comparison ---- *)
Inductive compared := Equal | Different | Overflow (* more than the buffers take *) | NoFuel.
(* file.c:262, 264 the size of the buffers *)
Definition bufferSize : Z := 1024.
(* file.c:281-303 the loop of compareFiles, with what is left of each file *)
Fixpoint compareLoop (fuel : nat) (size pos n : Z) (file otherFile : list Z) : compared :=
  match fuel with
  | O => NoFuel
  | S fuel =>
    if (pos <? size) && ((n <? 0) || (pos <? n)) then
      let read := if n >? 0 then n else bufferSize in
      let read := if size - pos <? read then size - pos else read in
      if read >? bufferSize then Overflow
      else
        let k := Z.to_nat read in
        if (List.length file <? k)%nat then Different
        else if (List.length otherFile <? k)%nat then Different
        else if negb (streq (firstn k file) (firstn k otherFile)) then Different
        else compareLoop fuel size (pos + read) n (skipn k file) (skipn k otherFile)
    else Equal
  end.
(* file.c:257-308 compareFiles *)
Definition compareFiles (d : Disk) (fileName otherFileName : cstring) (n : Z) : compared :=
  let size := FileGetSize d fileName in
  if (size >? 0) && negb (size =? FileGetSize d otherFileName) then Different
  else
    match find fileName d with
    | None => Different
    | Some file =>
      match find otherFileName d with
      | None => Different
      | Some otherFile => compareLoop (S (List.length file)) size 0 n file otherFile
      end
    end.

(* ---- iteration ---- *)
(* file.h:196 FIFTYONE_DEGREES_FILE_MAX_PATH *)
Definition maxPath : Z := 4096.
(* file.c:358-365 the path with a slash *)
Definition withSlash (path : cstring) : cstring :=
  match path with
  | [] => []
  | _ => let c := last path 0 in if (c =? slash) || (c =? backslash) then path else path ++ [slash]
  end.
(* strncmp with the length of the first string, and what follows *)
Fixpoint startsWith (a s : cstring) : option cstring :=
  match a, s with
  | [], _ => Some s
  | x :: a', y :: s' => if x =? y then startsWith a' s' else None
  | _, [] => None
  end.
(* opendir and readdir: the names of the files in a directory; there is none named by
   an empty path *)
Definition readdir (d : Disk) (path : cstring) : list cstring :=
  match path with
  | [] => []
  | _ => flat_map (fun f => match startsWith (withSlash path) (fst f) with
                            | Some (c :: n) => if existsb (fun x => x =? slash) (c :: n) then [] else [c :: n]
                            | _ => [] end) d
  end.

(* file.c:446-457 iteratorFileCompare: strncmp with the length of the first string *)
Definition iteratorFileCompare (d : Disk) (master baseName : cstring) (n : Z) (fileName : cstring) : compared :=
  match startsWith baseName (skipn (getNameFromPath fileName) fileName) with
  | None => Different
  | Some _ =>
    match compareFiles d master fileName n with
    | Equal => if fileNamesMatch fileName master then Different else Equal
    | r => r
    end
  end.

(* what a search gives *)
Inductive search := Found (p : cstring) | NotFound | SearchOverflow.
(* file.c:351-436 iterateFiles with iteratorFileMatch (file.c:466-470).  tempPath has
   maxPath bytes. *)
Fixpoint matchFiles (d : Disk) (master baseName : cstring) (n : Z) (dir : cstring) (names : list cstring) : search :=
  match names with
  | [] => NotFound
  | name :: names' =>
    let p := dir ++ name in
    if len p + 1 >? maxPath then SearchOverflow
    else
      match iteratorFileCompare d master baseName n p with
      | Equal => Found p
      | Different => matchFiles d master baseName n dir names'
      | _ => SearchOverflow
      end
  end.
(* file.c:351-436 iterateFiles for one directory *)
Definition iterateFilesMatch (d : Disk) (master baseName : cstring) (n : Z) (path : cstring) : search :=
  if len path + 1 >? maxPath then SearchOverflow
  else matchFiles d master baseName n (withSlash path) (readdir d path).
(* file.c:707-717 the loop over the paths, which uses the first one each time *)
Fixpoint getExistingLoop (count : nat) (d : Disk) (master baseName : cstring) (n : Z) (path0 : cstring) : search :=
  match count with
  | O => NotFound
  | S count' =>
    match iterateFilesMatch d master baseName n path0 with
    | NotFound => getExistingLoop count' d master baseName n path0
    | r => r
    end
  end.
(* file.c:687-720 fiftyoneDegreesFileGetExistingTempFile.  Destination is large enough. *)
Definition FileGetExistingTempFile (d : Disk) (master : cstring) (paths : list cstring) (n : Z) : search :=
  match getBasenameWithoutExtension master maxPath with
  | None => SearchOverflow
  | Some PathInsufficientMemory => NotFound
  | Some (PathSuccess base) =>
    match paths with
    | [] => iterateFilesMatch d master base n []
    | path0 :: _ => getExistingLoop (List.length paths) d master base n path0
    end
  end.

(* What the system says about files: those that a process has open (file.c:488-541
   isFileInUse) and those that cannot be removed *)
Record Use := { inUse : cstring -> bool; keeps : cstring -> bool }.
(* file.c:554-572 iteratorFileDelete and 1005-1017 fiftyoneDegreesFileDelete *)
Definition iteratorFileDelete (u : Use) (d : Disk) (p : cstring) (deleted : Z) : Disk * Z :=
  if inUse u p then (d, deleted)
  else if keeps u p || negb (fileExists d p) then (d, deleted)
  else (remove p d, (deleted + 1) mod 2 ^ 8).
(* file.c:351-436 iterateFiles with iteratorFileDelete; None if a buffer overflows *)
Fixpoint deleteFiles (u : Use) (d : Disk) (deleted : Z) (master baseName : cstring) (n : Z) (dir : cstring) (names : list cstring) : option (Disk * Z) :=
  match names with
  | [] => Some (d, deleted)
  | name :: names' =>
    let p := dir ++ name in
    if len p + 1 >? maxPath then None
    else
      match iteratorFileCompare d master baseName n p with
      | Equal => let (d', deleted') := iteratorFileDelete u d p deleted in deleteFiles u d' deleted' master baseName n dir names'
      | Different => deleteFiles u d deleted master baseName n dir names'
      | _ => None
      end
  end.
(* file.c:351-436 iterateFiles for one directory *)
Definition iterateFilesDelete (u : Use) (d : Disk) (deleted : Z) (master baseName : cstring) (n : Z) (path : cstring) : option (Disk * Z) :=
  if len path + 1 >? maxPath then None
  else deleteFiles u d deleted master baseName n (withSlash path) (readdir d path).
(* file.c:674-682 the loop over the paths, which uses the first one each time *)
Fixpoint deleteUnusedLoop (count : nat) (u : Use) (d : Disk) (deleted : Z) (master baseName : cstring) (n : Z) (path0 : cstring) : option (Disk * Z) :=
  match count with
  | O => Some (d, deleted)
  | S count' =>
    match iterateFilesDelete u d deleted master baseName n path0 with
    | Some (d', deleted') => deleteUnusedLoop count' u d' deleted' master baseName n path0
    | None => None
    end
  end.
(* file.c:645-685 fiftyoneDegreesFileDeleteUnusedTempFiles: the disk, and the number
   of files deleted, which is a byte *)
Definition FileDeleteUnusedTempFiles (u : Use) (d : Disk) (master : cstring) (paths : list cstring) (n : Z) : option (Disk * Z) :=
  match getBasenameWithoutExtension master maxPath with
  | None => None
  | Some PathInsufficientMemory => Some (d, 0)
  | Some (PathSuccess base) =>
    match paths with
    | [] => iterateFilesDelete u d 0 master base n []
    | path0 :: _ => deleteUnusedLoop (List.length paths) u d 0 master base n path0
    end
  end.
