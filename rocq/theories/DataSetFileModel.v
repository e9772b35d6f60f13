(* dataset.c: the files of a data set.  The names are arrays in the structure of the data
   set; the rest of the structure is in DataSetModel. *)
From Verif Require Export FileTempModel.

(* config.h: the members used; the temp directories are strings *)
Record FileConfig := mkFileConfig { useTempFile : bool; reuseTempFile : bool; tempDirs : list cstring }.
(* dataset.h:103-112 *)
Record DataSetFiles := mkDataSetFiles { masterFileName : list Z; fileName : list Z }.
(* the status codes used *)
Inductive dstatus := FileStatus (s : fstatus) | CorruptData.

(* strncpy of a string that is in memory of its own; None after the end of the memory *)
Definition strncpy (buf : list Z) (s : cstring) (n : Z) : option (list Z) :=
  if n >? len buf then None else Some (write buf 0 (firstn (Z.to_nat n) (s ++ repeat 0 (Z.to_nat n)))).
(* strcpy *)
Definition strcpy (buf : list Z) (s : cstring) : option (list Z) :=
  if len s + 1 >? len buf then None else Some (write buf 0 (s ++ [0])).
(* strncmp(a, b, n) == 0 of memory; None after the end of the memory *)
Fixpoint strncmpSame (n : nat) (a b : list Z) : option bool :=
  match n with
  | O => Some true
  | S n' =>
    match a, b with
    | x :: a', y :: b' => if x =? y then if x =? 0 then Some true else strncmpSame n' a' b' else Some false
    | _, _ => None
    end
  end.

(* what the system does: io for each destination, the process id, the random strings,
   whether a file can be removed *)
Record System := mkSystem { sysIo : cstring -> IO; sysPid : cstring; sysRandoms : list (list cstring); sysKeeps : cstring -> bool }.

(* dataset.c:51-69 initWithTempFile; iteratorFileMatch copies the name found *)
Definition initWithTempFile (s : System) (c : FileConfig) (d : Disk) (f : DataSetFiles) (n : Z) : result (Disk * DataSetFiles * dstatus) :=
  match stringIn (masterFileName f) with
  | None => Undefined
  | Some master =>
    let new :=
      match FileNewTempFile (sysIo s) d master (sysPid s) (sysRandoms s) (tempDirs c) (fileName f) with
      | Ok (d', buf, status) => Ok (d', mkDataSetFiles (masterFileName f) buf, FileStatus status)
      | Undefined => Undefined
      | Unending => Unending
      end in
    if reuseTempFile c then
      match FileGetExistingTempFile d master (tempDirs c) n with
      | SearchOverflow => Undefined
      | Found p => match strcpy (fileName f) p with Some buf => Ok (d, mkDataSetFiles (masterFileName f) buf, FileStatus Success) | None => Undefined end
      | NotFound => new
      end
    else new
  end.
(* dataset.c:183-235 fiftyoneDegreesDataSetInitFromFile *)
Definition DataSetInitFromFile (s : System) (c : FileConfig) (d : Disk) (f : DataSetFiles) (name : cstring) (n : Z) : result (Disk * DataSetFiles * dstatus) :=
  let fileNameLength := len name + 1 in
  if (fileNameLength >? len (masterFileName f)) || (fileNameLength >? len (fileName f)) then Ok (d, f, FileStatus FilePathTooLong)
  else
    match strncpy (masterFileName f) name (len (masterFileName f)) with
    | None => Undefined
    | Some master =>
      let f := mkDataSetFiles master (fileName f) in
      match strncmpSame (Z.to_nat fileNameLength) (name ++ [0]) master with
      | None => Undefined
      | Some false => Ok (d, f, CorruptData)
      | Some true =>
        if useTempFile c then initWithTempFile s c d f n
        else
          match stringIn master with
          | None => Undefined
          | Some m =>
            match strncpy (fileName f) m fileNameLength with
            | None => Undefined
            | Some file =>
              match strncmpSame (Z.to_nat fileNameLength) master file with
              | None => Undefined
              | Some same => Ok (d, mkDataSetFiles master file, if same then FileStatus Success else CorruptData)
              end
            end
          end
      end
    end.
(* dataset.c:237-250 fiftyoneDegreesDataSetInitInMemory: memoryToFree, if it is set *)
Definition DataSetInitInMemory (d : Disk) (f : DataSetFiles) (mallocs : bool) (reads : option nat) : option (fstatus * option (list Z)) :=
  option_map (fun p => FileReadToByteArray d p mallocs reads) (stringIn (fileName f)).
(* dataset.c:97-100 the end of fiftyoneDegreesDataSetFree; file.c:1005-1017 FileDelete *)
Definition freeTempFile (s : System) (c : FileConfig) (d : Disk) (f : DataSetFiles) : option Disk :=
  if useTempFile c then option_map (fun p => if sysKeeps s p then d else remove p d) (stringIn (fileName f)) else Some d.
(* dataset.c:103-114 fiftyoneDegreesDataSetReset: the names *)
Definition DataSetReset (f : DataSetFiles) : DataSetFiles := mkDataSetFiles (repeat 0 (List.length (masterFileName f))) (repeat 0 (List.length (fileName f))).
