(* status.c and exceptionsc.c: the messages of status codes and exceptions.  Texts are
   the lists of their non zero characters.  Each call of Malloc succeeds or not, as
   given.  None is undefined: snprintf of more than no characters to NULL, or with an
   argument that is not there. *)
From Coq Require Export String Ascii.
From Coq Require Export List ZArith Lia Bool Arith.
Export ListNotations.

(* the characters of a literal *)
Definition text (s : string) : list Z := map (fun c => Z.of_nat (nat_of_ascii c)) (list_ascii_of_string s).

(* status.c:32-125 messages; the numbers are those of the enum, status.h:77-141 *)
Definition messages : list (Z * list Z) :=
  [
    (0, text "The operation was successful.")%Z (* SUCCESS *);
    (1, text "Insufficient memory allocated for the operation.")%Z (* INSUFFICIENT_MEMORY *);
    (2, text "The data was not in the correct format. Check the data file '%s' is uncompressed.")%Z (* CORRUPT_DATA *);
    (3, text "The data (file: '%s') is an unsupported version. Check you have the latest data and API.")%Z (* INCORRECT_VERSION *);
    (4, text "The data file '%s' could not be found. Check the file path and that the program has sufficient read permissions.")%Z (* FILE_NOT_FOUND *);
    (6, text "An unknown error occurred accessing the file '%s'. Check the file path and that the program has sufficient read permissions.")%Z (* FILE_FAILURE *);
    (9, text "Null pointer to the existing dataset or memory location.")%Z (* NULL_POINTER *);
    (8, text "Allocated continuous memory containing 51Degrees data file appears to be smaller than expected. Most likely because the data file was not fully loaded into the allocated memory.")%Z (* POINTER_OUT_OF_BOUNDS *);
    (10, text "Too many file handles have been created during initialisation. Original data file path: '%s'.")%Z (* TOO_MANY_OPEN_FILES *);
    (11, text "None of the properties requested could be found in the data file ('%s'), so no properties can be initialised. To initialise all available properties, set the field to null.")%Z (* REQ_PROP_NOT_PRESENT *);
    (12, text "The profile id related to an empty profile. As this just represents an empty profile, there is no profile which can be returned.")%Z (* PROFILE_EMPTY *);
    (13, text "There was an error getting an item from a collection within the data set (file: '%s'). This is likely to be caused by too many concurrent operations. Increase the concurrency option in the collection configuration to allow more threads to access the collection simultaneously.")%Z (* COLLECTION_FAILURE *);
    (14, text "There was an error copying the source file ('%s') to the destination. Verify sufficient space is available at the destination.")%Z (* FILE_COPY_ERROR *);
    (15, text "The file or directory already exists so could not be created.")%Z (* FILE_EXISTS_ERROR *);
    (16, text "Could not create some file with write permissions. Original data file path: '%s'.")%Z (* FILE_WRITE_ERROR *);
    (17, text "Could not read the file.")%Z (* FILE_READ_ERROR *);
    (18, text "Permission denied when opening some file. Original data file path: '%s'.")%Z (* FILE_PERMISSION_DENIED *);
    (19, text "The file path to the data file '%s' is longer than the memory available to store it. Use a shorter data file path.")%Z (* FILE_PATH_TOO_LONG *);
    (20, text "End of a Yaml document read.")%Z (* FILE_END_OF_DOCUMENT *);
    (21, text "End of Yaml documents read.")%Z (* FILE_END_OF_DOCUMENTS *);
    (22, text "End of file.")%Z (* FILE_END_OF_FILE *);
    (23, text "There was an error encoding characters of the string. Ensure all characters are valid. File: '%s'.")%Z (* ENCODING_ERROR *);
    (24, text "The configuration provided could not be used to create a valid collection. If a cached collection is included in the configuration this maybe caused by insufficient capacity for the concurrency.")%Z (* INVALID_COLLECTION_CONFIG *);
    (25, text "The configuration provided was not valid, and has caused a failure while building the resource it configures.")%Z (* INVALID_CONFIG *);
    (26, text "Insufficient handles available in the pool. Verify the pool has sufficient handles to support the maximum number of concurrent threads. This can be set when creating the resource containg the pool. Another way to avoid this is by using an in-memory configuration, which avoids using file handles completely, and removes any limit on concurrency. For info see https://51degrees.com/documentation/4.4/_device_detection__features__concurrent_processing.html")%Z (* INSUFFICIENT_HANDLES *);
    (27, text "Index used to retrieve an item from a collection was out of range.")%Z (* COLLECTION_INDEX_OUT_OF_RANGE *);
    (28, text "Offset used to retrieve an item from a collection was out of range.")%Z (* COLLECTION_OFFSET_OUT_OF_RANGE *);
    (29, text "A seek operation on a file ('%s') failed.")%Z (* COLLECTION_FILE_SEEK_FAIL *);
    (30, text "A read operation on a file ('%s') failed.")%Z (* COLLECTION_FILE_READ_FAIL *);
    (31, text "The input IP address format is incorrect. Verify the input IP address string has correct format. If passing a byte array, verify the associated input data is also consistent.")%Z (* INCORRECT_IP_ADDRESS_FORMAT *);
    (32, text "Error occurs during the creation of a temporary file.")%Z (* TEMP_FILE_ERROR *)
  ].
(* status.c:127 defaultMessage *)
Definition defaultMessage : list Z := text "Status code %i does not have any message text.".

(* the conversion %i and %d of printf: an int in decimal *)
Fixpoint digits (fuel : nat) (n : Z) (l : list Z) : list Z :=
  match fuel with
  | O => l
  | S fuel' => let l' := (48 + n mod 10)%Z :: l in if Z.ltb n 10 then l' else digits fuel' (n / 10) l'
  end.
(* the same with the sign *)
Definition decimal (z : Z) : list Z :=
  let d := digits (S (Z.to_nat (Z.log2 (Z.abs z)))) (Z.abs z) [] in if Z.ltb z 0 then 45%Z :: d else d.
(* an argument of printf *)
Inductive arg := Str (s : list Z) | Int (i : Z).
(* printf: the characters printed.  Arguments that are left are ignored; None if one is
   missing or of another type, or if the conversion is none of %s, %i and %d. *)
Fixpoint printf (format : list Z) (args : list arg) : option (list Z) :=
  match format with
  | [] => Some []
  | c :: format' =>
    if Z.eqb c 37 then
      match format', args with
      | k :: format'', Str s :: args' => if Z.eqb k 115 then option_map (app s) (printf format'' args') else None
      | k :: format'', Int i :: args' => if Z.eqb k 105 || Z.eqb k 100 then option_map (app (decimal i)) (printf format'' args') else None
      | _, _ => None
      end
    else option_map (cons c) (printf format' args)
  end.
(* memory of size bytes after Snprintf, snprintf.h:29-32, which is snprintf: what does not fit
   is left out *)
Definition Snprintf (size : nat) (format : list Z) (args : list arg) : option (list Z) :=
  match size with
  | O => None
  | S n => option_map (fun t => firstn n t) (printf format args)
  end.

(* strstr of the C library, whether the text is found *)
Fixpoint startsWith (p s : list Z) : bool :=
  match p, s with
  | [], _ => true
  | x :: p', y :: s' => Z.eqb x y && startsWith p' s'
  | _, [] => false
  end.
(* strstr *)
Fixpoint strstr (s p : list Z) : bool :=
  startsWith p s || match s with [] => false | _ :: s' => strstr s' p end.

(* status.c:140-154 the loop over the messages: the first one with the status *)
Fixpoint findMessage (l : list (Z * list Z)) (status : Z) : option (list Z) :=
  match l with
  | [] => None
  | (s, m) :: l' => if Z.eqb s status then Some m else findMessage l' status
  end.
(* status.c:155-159 the message of a status that has none *)
Definition defaultFor (status : Z) (malloc : bool) : option (list Z) :=
  let messageSize := List.length defaultMessage + 1 + 5 in
  if malloc then Snprintf messageSize defaultMessage [Int status] else None.
(* status.c:129-161 fiftyoneDegreesStatusGetMessage: the text returned; malloc1 and
   malloc2 are whether the calls of Malloc succeed *)
Definition StatusGetMessage (status : Z) (fileName : option (list Z)) (malloc1 malloc2 : bool) : option (list Z) :=
  let name := match fileName with Some n => n | None => text "null" end in
  match findMessage messages status with
  | Some m =>
    let messageSize := if strstr m (text "%s") then List.length m + List.length name - 1 else List.length m + 1 in
    if malloc1 then Snprintf messageSize m [Str name] else defaultFor status malloc2
  | None => defaultFor status malloc2
  end.

(* exceptions.h: the members of an exception *)
Record Exception := mkException { status : Z; file : option (list Z); func : option (list Z); line : Z }.
(* exceptionsc.c:29-33 format *)
Definition format : list Z :=
  text "Message:  %s" ++ [13; 10]%Z ++ text "Source:   %s" ++ [13; 10]%Z ++ text "Function: %s" ++ [13; 10]%Z ++ text "Line:     %d" ++ [13; 10]%Z.
(* exceptionsc.c:27-57 fiftyoneDegreesExceptionGetMessage; file or func that is NULL
   is printed with %s, which is undefined *)
Definition ExceptionGetMessage (e : Exception) (malloc1 malloc2 malloc3 : bool) : option (list Z) :=
  match StatusGetMessage (status e) None malloc1 malloc2 with
  | None => None
  | Some m =>
    match file e, func e with
    | Some f, Some g =>
      let length := List.length format + List.length m + List.length f + List.length g + 10 in
      if malloc3 then Snprintf length format [Str m; Str f; Str g; Int (line e)] else None
    | _, _ => None
    end
  end.
