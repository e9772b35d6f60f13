(* Model of the memory behind one collection item: data.c 27-49 and, in
   collection.c, getFile (272-295), releaseFile (118-125), the allocation and
   read steps of ReadFileFixed (979-1033) and readFileVariable (1037-1105).

   Blocks are numbered in the order they are allocated; [live] are those not
   yet freed with their sizes.  None: undefined behaviour - freeing or writing
   a block that is not live, or writing past its end. *)
From Coq Require Export List Arith ZArith Lia Bool.
Export ListNotations.

(* the heap: the next block and the live ones *)
Record mem := mkMem { fresh : nat; live : list (nat * Z) }.
(* the size of a live block *)
Fixpoint sizeOf (l : list (nat * Z)) (p : nat) : option Z :=
  match l with [] => None | (q, n) :: l' => if Nat.eqb p q then Some n else sizeOf l' p end.
(* a block is no longer live *)
Definition drop (l : list (nat * Z)) (p : nat) := filter (fun b => negb (Nat.eqb p (fst b))) l.
(* free of a live block *)
Definition free (m : mem) (p : nat) : option mem :=
  match sizeOf (live m) p with Some _ => Some (mkMem (fresh m) (drop (live m) p)) | None => None end.
(* n bytes of a block written *)
Definition write (m : mem) (p : nat) (n : Z) : option mem :=
  match sizeOf (live m) p with Some s => if Z.leb n s then Some m else None | None => None end.

(* data.h 101-107 (used is not needed) and collection.h 308-315 *)
Record data := mkData { ptr : option nat; allocated : Z }.
(* collection.h: the members of an item that matter here *)
Record item := mkItem { idata : data; ihandle : option nat }.

(* data.c 27-31 *)
Definition DataReset : data := mkData None 0.

(* data.c 33-49; ok: Malloc succeeds *)
Definition DataMalloc (m : mem) (d : data) (bytes : Z) (ok : bool) : option (mem * data) :=
  match (if Z.ltb 0 (allocated d) && Z.ltb (allocated d) bytes then
           match ptr d with
           | Some p => match free m p with Some m' => Some (m', mkData None 0) | None => None end
           | None => None
           end
         else Some (m, d)) with
  | None => None
  | Some (m, d) =>
    if Z.eqb (allocated d) 0 then
      if ok then Some (mkMem (S (fresh m)) ((fresh m, bytes) :: live m), mkData (Some (fresh m)) (bytes mod 2 ^ 32)%Z)
      else Some (m, mkData None 0)
    else Some (m, d)
  end.

(* how the read of an item goes: a range, handle, seek or header read error
   before memory is needed; or [bytes] are needed, with whether Malloc - if
   called - and the read succeed *)
Inductive way := Early | Try (bytes : Z) (memOk readOk : bool).

(* collection.c 272-295 over 979-1033 / 1037-1158: new item and the pointer
   returned *)
Definition getFile (m : mem) (it : item) (w : way) : option (mem * item * option nat) :=
  match w with
  | Early => Some (m, mkItem (idata it) None, None)
  | Try bytes memOk readOk =>
    match DataMalloc m (idata it) bytes memOk with
    | None => None
    | Some (m, mkData None a) => Some (m, mkItem (mkData None a) None, None)
    | Some (m, mkData (Some p) a) =>
      match write m p bytes with
      | None => None
      | Some m =>
        if readOk then Some (m, mkItem (mkData (Some p) a) (Some p), Some p)
        else match free m p with                                (* 1016, 1080: Free(data->ptr) only *)
             | Some m => Some (m, mkItem (mkData (Some p) a) None, None)
             | None => None
             end
      end
    end
  end.

(* collection.c 118-125 *)
Definition releaseFile (m : mem) (it : item) : option (mem * item) :=
  match ihandle it with
  | Some p => match free m p with Some m' => Some (m', mkItem DataReset None) | None => None end
  | None => Some (m, it)
  end.

(* an operation on the item *)
Inductive iop := IGet (w : way) | IRelease.
(* one operation *)
Definition istep (o : iop) (s : mem * item) : option (mem * item) :=
  match o with
  | IGet w => match getFile (fst s) (snd s) w with Some (m, it, _) => Some (m, it) | None => None end
  | IRelease => releaseFile (fst s) (snd s)
  end.
(* a sequence of operations *)
Fixpoint irun (os : list iop) (s : mem * item) : option (mem * item) :=
  match os with
  | [] => Some s
  | o :: os' => match istep o s with Some s' => irun os' s' | None => None end
  end.
