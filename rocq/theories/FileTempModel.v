(* file.c: copies, temporary files, reading a file into memory and the search for a
   data file *)
From Verif Require Export FileModel.

(* the status codes used, status.h *)
Inductive fstatus := Success | FileNotFound | FileWriteError | FileCopyError | FileFailure | InsufficientMemory | TempFileError | FilePathTooLong | NotSet.

(* What the system does when files are copied: whether fseek works, whether the
   destination can be opened for writing, the number of bytes that can be read and
   that fwrite takes before there is an error, the number of bytes that are in the
   file when fclose has failed, whether the destination can be removed *)
Record IO := mkIO { seeks : bool; canWrite : bool; reads : option nat; accepts : option nat; reaches : option nat; removes : bool }.
(* the bytes before an error *)
Definition upTo (k : option nat) (b : list Z) : list Z := match k with None => b | Some k => firstn k b end.
(* file.c:150 the size of the buffer of fileCopy *)
Definition chunkSize : nat := Z.to_nat 8192.

(* file.c:149-164 fileCopy after the calls of fseek: the bytes that fwrite took; None
   if there is no fuel *)
Fixpoint copyLoop (fuel : nat) (io : IO) (source written : list Z) : option (fstatus * list Z) :=
  match fuel with
  | O => None
  | S fuel =>
    match firstn chunkSize source with
    | [] => Some (Success, written)
    | chunk =>
      let all := upTo (accepts io) (written ++ chunk) in
      if (List.length all <? List.length (written ++ chunk))%nat then Some (FileCopyError, all)
      else copyLoop fuel io (skipn chunkSize source) all
    end
  end.
(* file.c:149-164 fileCopy *)
Definition fileCopy (io : IO) (source : list Z) : option (fstatus * list Z) :=
  if seeks io then copyLoop (S (List.length source)) io source [] else Some (Success, []).

(* file.c:1019-1041 fiftyoneDegreesFileCopy.  Opening the destination makes it empty;
   the result of fclose is not used. *)
Definition FileCopy (io : IO) (d : Disk) (source destination : cstring) : option (Disk * fstatus) :=
  match find source d with
  | None => Some (d, FileNotFound)
  | Some _ =>
    if canWrite io then
      let d1 := store destination [] d in
      match fileCopy io (upTo (reads io) (match find source d1 with Some b => b | None => [] end)) with
      | None => None
      | Some (status, written) =>
        let d2 := store destination (upTo (reaches io) written) d1 in
        match status with
        | Success => Some (d2, Success)
        | _ => Some (if removes io then remove destination d2 else d2, status)
        end
      end
    else Some (d, FileWriteError)
  end.

(* file.c:580-593 fiftyoneDegreesFileWrite: fwrite of no bytes writes no item *)
Definition FileWrite (io : IO) (d : Disk) (p : cstring) (data : list Z) : Disk * fstatus :=
  if canWrite io then
    let all := upTo (accepts io) data in
    (store p (upTo (reaches io) all) d, if (List.length data =? 0)%nat || (List.length all <? List.length data)%nat then FileFailure else Success)
  else (d, FileWriteError).

(* file.c:1054-1091 fiftyoneDegreesFileReadToByteArray: the status, and the memory that
   reader has; fread of no bytes reads no item *)
Definition FileReadToByteArray (d : Disk) (source : cstring) (mallocs : bool) (reads : option nat) : fstatus * option (list Z) :=
  match find source d with
  | None => (FileNotFound, None)
  | Some b =>
    if mallocs then
      if (List.length b =? 0)%nat || (List.length (upTo reads b) <? List.length b)%nat then (FileFailure, None) else (Success, Some b)
    else (InsufficientMemory, None)
  end.

(* ---- memory for strings ---- *)
Inductive result (A : Type) := Ok (a : A) | Undefined | Unending.
Arguments Ok {A} a.
Arguments Undefined {A}.
Arguments Unending {A}.
(* bytes of memory overwritten *)
Definition write (buf : list Z) (off : nat) (s : list Z) : list Z := firstn off buf ++ s ++ skipn (off + List.length s) buf.
(* snprintf of a string: at most size bytes are written; None if bytes after the end of
   the memory are *)
Definition snprintf (buf : list Z) (off size : Z) (s : cstring) : option (list Z) :=
  if size =? 0 then Some buf
  else
    let w := firstn (Z.to_nat (Z.min (size - 1) (len s))) s ++ [0] in
    if off + len w >? len buf then None else Some (write buf (Z.to_nat off) w).
(* memset to 0; None after the end of the memory *)
Definition memset0 (buf : list Z) (off size : Z) : option (list Z) :=
  if off + size >? len buf then None else Some (write buf (Z.to_nat off) (repeat 0 (Z.to_nat size))).
(* the string in memory; None if there is no terminator *)
Fixpoint stringIn (buf : list Z) : option cstring :=
  match buf with
  | [] => None
  | c :: buf' => if c =? 0 then Some [] else match stringIn buf' with Some s => Some (c :: s) | None => None end
  end.

(* the process id as printed, and the random strings that are made (file.c:204-225
   getRandomString) *)
Definition hyphen : Z := 45.
(* file.c:747-753 the name printed *)
Definition tempName (base pid random : cstring) : cstring := base ++ [hyphen] ++ pid ++ [hyphen] ++ random.

(* file.c:742-769 the loop of fiftyoneDegreesFileAddTempFileName *)
Fixpoint addTempLoop (d : Disk) (base pid : cstring) (randoms : list cstring) (buf : list Z) (nameStart length : Z) : result (list Z * fstatus) :=
  match randoms with
  | [] => Unending
  | random :: randoms' =>
    let s := tempName base pid random in
    match snprintf buf nameStart length s with
    | None => Undefined
    | Some buf =>
      if len s >? length then
        match memset0 buf nameStart length with
        | None => Undefined
        | Some buf => Ok (buf, InsufficientMemory)
        end
      else
        match stringIn buf with
        | None => Undefined
        | Some p => if fileExists d p then addTempLoop d base pid randoms' buf nameStart length else Ok (buf, Success)
        end
    end
  end.
(* file.c:728-771 fiftyoneDegreesFileAddTempFileName *)
Definition FileAddTempFileName (d : Disk) (masterFileName pid : cstring) (randoms : list cstring) (buf : list Z) (nameStart length : Z) : result (list Z * fstatus) :=
  match getBasenameWithoutExtension masterFileName maxPath with
  | None => Undefined
  | Some PathInsufficientMemory => Ok (buf, InsufficientMemory)
  | Some (PathSuccess base) => addTempLoop d base pid randoms buf nameStart length
  end.

(* The copy that follows; io depends on the destination *)
Definition copyTemp (io : cstring -> IO) (d : Disk) (master : cstring) (buf : list Z) : result (Disk * fstatus) :=
  match stringIn buf with
  | None => Undefined
  | Some p => match FileCopy (io p) d master p with Some r => Ok r | None => Unending end
  end.
(* file.c:795-798, 841-844 the name is cleared after a failure *)
Definition reset (length : Z) (buf : list Z) (status : fstatus) : option (list Z) :=
  match status with Success => Some buf | _ => if length >? 0 then memset0 buf 0 length else Some buf end.

(* file.c:784-800 createTempFileWithoutPaths *)
Definition createTempFileWithoutPaths (io : cstring -> IO) (d : Disk) (master pid : cstring) (randoms : list cstring) (buf : list Z) (length : Z) : result (Disk * list Z * fstatus) :=
  match FileAddTempFileName d (skipn (getNameFromPath master) master) pid randoms buf 0 length with
  | Undefined => Undefined
  | Unending => Unending
  | Ok (buf, Success) =>
    match copyTemp io d master buf with
    | Undefined => Undefined
    | Unending => Unending
    | Ok (d, status) => match reset length buf status with Some buf => Ok (d, buf, status) | None => Undefined end
    end
  | Ok (buf, status) => Ok (d, buf, status)
  end.

(* file.c:811-846 one path of createTempFileWithPaths.  length - nameStart - 1 is a
   size_t. *)
Definition createTempFileInPath (io : cstring -> IO) (d : Disk) (master pid : cstring) (randoms : list cstring) (path : cstring) (buf : list Z) (length : Z) : result (Disk * list Z * fstatus) :=
  let dir := withSlash path in
  let nameStart := len dir in
  match snprintf buf 0 length dir with
  | None => Undefined
  | Some buf =>
    if len dir >? length then match reset length buf InsufficientMemory with Some buf => Ok (d, buf, InsufficientMemory) | None => Undefined end
    else
      match FileAddTempFileName d (skipn (getNameFromPath master) master) pid randoms buf nameStart (size_t (length - nameStart - 1)) with
      | Undefined => Undefined
      | Unending => Unending
      | Ok (buf, Success) =>
        match copyTemp io d master buf with
        | Undefined => Undefined
        | Unending => Unending
        | Ok (d, status) => match reset length buf status with Some buf => Ok (d, buf, status) | None => Undefined end
        end
      | Ok (buf, status) => match reset length buf status with Some buf => Ok (d, buf, status) | None => Undefined end
      end
  end.
(* file.c:802-848 createTempFileWithPaths: each path in turn, also after a success *)
Fixpoint createTempFileWithPaths (io : cstring -> IO) (d : Disk) (master pid : cstring) (randoms : list (list cstring)) (paths : list cstring) (buf : list Z) (length : Z) (status : fstatus) : result (Disk * list Z * fstatus) :=
  match paths with
  | [] => Ok (d, buf, status)
  | path :: paths' =>
    match createTempFileInPath io d master pid (hd [] randoms) path buf length with
    | Ok (d, buf, status) => createTempFileWithPaths io d master pid (tl randoms) paths' buf length status
    | r => r
    end
  end.
(* file.c:850-868 fiftyoneDegreesFileNewTempFile.  The memory has length bytes. *)
Definition FileNewTempFile (io : cstring -> IO) (d : Disk) (master pid : cstring) (randoms : list (list cstring)) (paths : list cstring) (buf : list Z) : result (Disk * list Z * fstatus) :=
  match paths with
  | [] => createTempFileWithoutPaths io d master pid (hd [] randoms) buf (len buf)
  | _ => createTempFileWithPaths io d master pid randoms paths buf (len buf) NotSet
  end.

(* ---- the old method ---- *)
(* file.h:187 *)
Definition TEMP_UNIQUE_STRING_LENGTH : Z := 20.
(* file.c:238-247 getUniqueLegacyFileName: the first random string that is not the name
   of a file *)
Fixpoint getUniqueLegacyFileName (d : Disk) (dir : cstring) (randoms : list cstring) : option cstring :=
  match randoms with
  | [] => None
  | r :: randoms' => if fileExists d (dir ++ r) then getUniqueLegacyFileName d dir randoms' else Some (dir ++ r)
  end.
(* file.c:889-909 the loop of fiftyoneDegreesFileCreateTempFile; random strings have 19
   bytes *)
Fixpoint createTempLoop (io : cstring -> IO) (d : Disk) (master : cstring) (randoms : list (list cstring)) (paths : list cstring) (status : fstatus) : result (Disk * option cstring * fstatus) :=
  match paths with
  | [] => Ok (d, None, status)
  | path :: paths' =>
    if len path + 1 >? maxPath then Undefined
    else
      let dir := withSlash path in
      if len dir + TEMP_UNIQUE_STRING_LENGTH <? maxPath then
        match getUniqueLegacyFileName d dir (hd [] randoms) with
        | None => Unending
        | Some p =>
          match FileCopy (io p) d master p with
          | None => Unending
          | Some (d', Success) => Ok (d', Some p, Success)
          | Some (d', status') => createTempLoop io d' master (tl randoms) paths' status'
          end
        end
      else createTempLoop io d master (tl randoms) paths' FilePathTooLong
  end.
(* file.c:870-913 fiftyoneDegreesFileCreateTempFile: the path written to destination *)
Definition FileCreateTempFile (io : cstring -> IO) (d : Disk) (master : cstring) (randoms : list (list cstring)) (paths : list cstring) : result (Disk * option cstring * fstatus) :=
  match paths with
  | [] =>
    match getUniqueLegacyFileName d [] (hd [] randoms) with
    | None => Unending
    | Some p =>
      match FileCopy (io p) d master p with
      | None => Unending
      | Some (d', Success) => Ok (d', Some p, Success)
      | Some (d', status) => Ok (d', None, status)
      end
    end
  | _ => createTempLoop io d master randoms paths NotSet
  end.

(* ---- the data file ---- *)
(* file.c:925-957 the loop of fiftyoneDegreesFileGetPath, with the working directory:
   only bytes from i on have been overwritten *)
Fixpoint getPathLoop (d : Disk) (cwd tail : cstring) (size : Z) (i : nat) : fstatus * option cstring :=
  match i with
  | O => (FileNotFound, None)
  | S i' =>
    if (charAt cwd i =? backslash) || (charAt cwd i =? slash) || (charAt cwd i =? 0) then
      let p := firstn i cwd ++ tail in
      if len tail >=? maxPath - Z.of_nat i then (InsufficientMemory, None)
      else if fileExists d p then
        if len p >=? size then (InsufficientMemory, None) else (Success, Some p)
      else getPathLoop d cwd tail size i'
    else getPathLoop d cwd tail size i'
  end.
(* file.c:915-959 fiftyoneDegreesFileGetPath: the status, and the path if it is written
   in full *)
Definition FileGetPath (d : Disk) (cwd dataFolderName fileName : cstring) (size : Z) : fstatus * option cstring :=
  if len cwd <? maxPath then getPathLoop d cwd ([slash] ++ dataFolderName ++ [slash] ++ fileName) size (List.length cwd)
  else (FileNotFound, None).
