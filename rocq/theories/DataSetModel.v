(* dataset.c: getting, releasing and reloading the data set of a manager.  The methods
   of resource.c are single steps here (ResourceModel has their interleavings); what
   happens between the start of a reload and its end can be anything.  None is
   undefined: memory that was freed is used or freed again, or a NULL handle.  The
   methods that initialise and free data sets are those of the engine: they do what
   dataset.h:130-170 says.  Not modelled: the members of a data set other than its
   temp file. *)
From Coq Require Export ZArith List Lia Bool.
Export ListNotations.

(* a data set and its handle: the users, whether it is freed, and the temp file to
   delete with it (dataset.c:97-100), if useTempFile *)
Record DataSet := mkSet { inUse : Z; alive : bool; tempFile : option nat }.
(* the data sets made so far, the active one of the manager and the temp files deleted *)
Record World := mkWorld { sets : list DataSet; active : nat; deleted : list nat }.

(* an array element is assigned *)
Fixpoint set {A} (i : nat) (x : A) (l : list A) : list A :=
  match l, i with
  | [], _ => []
  | _ :: l', O => x :: l'
  | y :: l', S j => y :: set j x l'
  end.
(* a data set that is not freed *)
Definition find (w : World) (i : nat) : option DataSet :=
  match nth_error (sets w) i with
  | Some d => if alive d then Some d else None
  | None => None
  end.

(* dataset.c:71-101 fiftyoneDegreesDataSetFree, 97-100, and Free of the data set *)
Definition freeSet (i : nat) (d : DataSet) (w : World) : World :=
  mkWorld (set i (mkSet (inUse d) false (tempFile d)) (sets w)) (active w)
          (match tempFile d with Some f => f :: deleted w | None => deleted w end).
(* resource.c:273-305 fiftyoneDegreesResourceHandleIncUse *)
Definition ResourceHandleIncUse (w : World) : option (nat * World) :=
  match find w (active w) with
  | None => None
  | Some d => Some (active w, mkWorld (set (active w) (mkSet (inUse d + 1) (alive d) (tempFile d)) (sets w)) (active w) (deleted w))
  end.
(* resource.c:199-271 fiftyoneDegreesResourceHandleDecUse *)
Definition ResourceHandleDecUse (i : nat) (w : World) : option World :=
  match find w i with
  | None => None
  | Some d =>
    let d := mkSet (inUse d - 1) (alive d) (tempFile d) in
    let w := mkWorld (set i d (sets w)) (active w) (deleted w) in
    if (Z.eqb (inUse d) 0 && negb (Nat.eqb (active w) i))%bool then Some (freeSet i d w) else Some w
  end.
(* resource.c:323-355 fiftyoneDegreesResourceReplace; ok is whether the handle could
   be allocated: setupResource (125-160) uses it without a check *)
Definition ResourceReplace (ok : bool) (i : nat) (w : World) : option World :=
  if ok then
    match ResourceHandleIncUse w with
    | None => None
    | Some (old, w) => ResourceHandleDecUse old (mkWorld (sets w) i (deleted w))
    end
  else None.

(* dataset.c:252-255 fiftyoneDegreesDataSetGet *)
Definition DataSetGet (w : World) : option (nat * World) := ResourceHandleIncUse w.
(* dataset.c:257-259 fiftyoneDegreesDataSetRelease *)
Definition DataSetRelease (i : nat) (w : World) : option World := ResourceHandleDecUse i w.

(* How a reload goes on: the data set cannot be allocated; its initialisation fails;
   it succeeds, and a handle is allocated or not *)
Inductive outcome := NoMemory | InitFails | InitOk (file : option nat) (handle : bool).
(* dataset.c:273-274, 317-318: the data set whose properties and configuration are used *)
Definition reloadBegin (w : World) : option nat := match find w (active w) with Some _ => Some (active w) | None => None end.
(* dataset.c:276-302, 320-337: the status is SUCCESS or not.  Initialisation reads the
   properties and the configuration of the existing data set.  When it fails the
   method for files frees the data set, for memory it is freed here *)
Definition reloadEnd (fromFile : bool) (existing : nat) (o : outcome) (w : World) : option (bool * World) :=
  match o with
  | NoMemory => Some (false, w)
  | InitFails =>
    match find w existing with
    | None => None
    | Some _ =>
      let i := length (sets w) in
      let d := mkSet 0 (negb fromFile) None in
      let w := mkWorld (sets w ++ [d]) (active w) (deleted w) in
      if fromFile then Some (false, w)
      else match find w i with Some d => Some (false, freeSet i d w) | None => None end
    end
  | InitOk file handle =>
    match find w existing with
    | None => None
    | Some _ =>
      let i := length (sets w) in
      option_map (pair true) (ResourceReplace handle i (mkWorld (sets w ++ [mkSet 0 true file]) (active w) (deleted w)))
    end
  end.

(* the manager with its first data set *)
Definition managerInit (file : option nat) : World := mkWorld [mkSet 0 true file] 0 [].
