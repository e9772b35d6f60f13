(* Model of the memory of the headers and the available properties of a data
   set and of the members of the data set itself:
   headers.c 63-82, 131-220, 256-368, 416-428 (HeadersCreate, HeadersFree);
   properties.c 65-82, 251-455, 522-537 (PropertiesCreate, PropertiesFree);
   overrides.c 232-252 (the array only); dataset.c 71-181 (DataSetFree,
   DataSetReset, DataSetInitProperties, DataSetInitHeaders).
   The heap is that of ItemModel; names are read from file collections, so that
   each get makes a block and each release frees it.  Which allocation fails is
   an input.  None: undefined behaviour. *)
From Verif Require Export ItemModel HeadersModel.
From Verif Require LifeModel.
Local Open Scope nat_scope.

(* the allocations that can fail: the array of headers, name and segments of
   the i-th header made from the data set or from a segment *)
Inductive acall := HArray | DName (i : nat) | DSegs (i : nat) | SName (i : nat) | SSegs (i : nat).

(* a header in the array: its content and the blocks of name and segments *)
Record hitem := mkHItem { content : Header; bname : nat; bsegs : nat }.

(* the item with a name of the data set: got and, when done with, released *)
Definition getName (m : mem) (n : list Z) : mem * nat := LifeModel.alloc m (Z.of_nat (length n) + 3).
(* headers.c 63-82: the memory of countAllSegments *)
Fixpoint touchNames (m : mem) (dataSet : list (Z * list Z)) : option mem :=
  match dataSet with
  | [] => Some m
  | (_, n) :: rest => let (m, p) := getName m n in match free m p with Some m => touchNames m rest | None => None end
  end.

(* headers.c 131-163: the segments and their block, or NULL *)
Definition createSegments (m : mem) (n : list Z) (ok : bool) : option (mem * option (list Segment * nat)) :=
  if ok then
    let (m, p) := LifeModel.alloc m (24 * Z.of_nat (countHeaderSegments n) + 16) in
    match createSegmentArray n with
    | Some segs => Some (m, Some (segs, p))
    | None => match free m p with Some m => Some (m, None) | None => None end
    end
  else Some (m, None).

(* headers.c 191-203: the name stays allocated when the segments fail *)
Definition setHeaderFromDataSet (m : mem) (n : list Z) (id : Z) (okName okSegs : bool) : option (mem * option hitem) :=
  if okName then
    let (m, p) := LifeModel.alloc m (Z.of_nat (length n) + 1) in
    match createSegments m n okSegs with
    | Some (m, Some (segs, q)) => Some (m, Some (mkHItem (mkHeader n true id segs) p q))
    | Some (m, None) => Some (m, None)
    | None => None
    end
  else Some (m, None).
(* headers.c 208-220 *)
Definition setHeaderFromSegment (m : mem) (n : list Z) (okName okSegs : bool) : option (mem * option hitem) :=
  if okName then
    let (m, p) := LifeModel.alloc m (Z.of_nat (length n) + 1) in
    match createSegments m n okSegs with
    | Some (m, Some (segs, q)) => Some (m, Some (mkHItem (mkHeader n false 0%Z segs) p q))
    | Some (m, None) => match free m p with Some m => Some (m, None) | None => None end
    | None => None
    end
  else Some (m, None).

(* headers.c 256-297: heap, headers and the boolean returned *)
Fixpoint addFromDataSet (m : mem) (ok : acall -> bool) (capacity : nat) (dataSet : list (Z * list Z)) (hs : list hitem)
  : option (mem * list hitem * bool) :=
  match dataSet with
  | [] => Some (m, hs, true)
  | (id, n) :: rest =>
    let (m, p) := getName m n in
    if (Nat.ltb 0 (length n) && Nat.ltb 0 (countHeaderSegments n) &&
        match getHeaderIndex (map content hs) (cstr n) (length n) with Some _ => false | None => true end)%bool
    then
      if Nat.ltb (length hs) capacity then
        match setHeaderFromDataSet m n id (ok (DName (length hs))) (ok (DSegs (length hs))) with
        | Some (m, Some h) =>
          match free m p with Some m => addFromDataSet m ok capacity rest (hs ++ [h]) | None => None end
        | Some (m, None) => Some (m, hs, false)                  (* 283: the item is not released *)
        | None => None
        end
      else None
    else match free m p with Some m => addFromDataSet m ok capacity rest hs | None => None end
  end.
(* headers.c 310-321: the segments of one header *)
Fixpoint addSegsOf (m : mem) (ok : acall -> bool) (capacity : nat) (n : list Z) (segs : list Segment) (hs : list hitem)
  : option (mem * list hitem * bool) :=
  match segs with
  | [] => Some (m, hs, true)
  | s :: rest =>
    match getHeaderIndex (map content hs) (skipn (segStart s) (cstr n)) (segLength s) with
    | Some _ => addSegsOf m ok capacity n rest hs
    | None =>
      if Nat.ltb (length hs) capacity then
        match setHeaderFromSegment m (segText n s) (ok (SName (length hs))) (ok (SSegs (length hs))) with
        | Some (m, Some h) => addSegsOf m ok capacity n rest (hs ++ [h])
        | Some (m, None) => Some (m, hs, false)
        | None => None
        end
      else None
    end
  end.
(* headers.c 303-324 *)
Fixpoint addFromSegments (m : mem) (ok : acall -> bool) (capacity : nat) (todo : list Header) (hs : list hitem)
  : option (mem * list hitem * bool) :=
  match todo with
  | [] => Some (m, hs, true)
  | h :: rest =>
    match addSegsOf m ok capacity (name h) (segments h) hs with
    | Some (m, hs, true) => addFromSegments m ok capacity rest hs
    | r => r
    end
  end.

(* headers.c 416-428 *)
Fixpoint freeItems (m : mem) (hs : list hitem) : option mem :=
  match hs with
  | [] => Some m
  | h :: rest =>
    match free m (bname h) with
    | Some m => match free m (bsegs h) with Some m => freeItems m rest | None => None end
    | None => None
    end
  end.
(* the array of headers: its block and its items *)
Record hdrs := mkHdrs { hblock : nat; hitems : list hitem }.
Definition HeadersFree (m : mem) (h : option hdrs) : option mem :=
  match h with
  | Some h => match freeItems m (hitems h) with Some m => free m (hblock h) | None => None end
  | None => Some m
  end.
(* headers.c 333-368 *)
Definition HeadersCreate (m : mem) (ok : acall -> bool) (dataSet : list (Z * list Z)) : option (mem * option hdrs) :=
  match touchNames m dataSet with
  | None => None
  | Some m =>
    let capacity := countAllSegments dataSet in
    if ok HArray then
      let (m, a) := LifeModel.alloc m (40 * Z.of_nat capacity + 24) in
      match addFromDataSet m ok capacity dataSet [] with
      | None => None
      | Some (m, hs, false) => match HeadersFree m (Some (mkHdrs a hs)) with Some m => Some (m, None) | None => None end
      | Some (m, hs, true) =>
        match addFromSegments m ok capacity (map content hs) hs with
        | None => None
        | Some (m, hs, false) => match HeadersFree m (Some (mkHdrs a hs)) with Some m => Some (m, None) | None => None end
        | Some (m, hs, true) => Some (m, Some (mkHdrs a hs))
        end
      end
    else Some (m, None)
  end.

(* ---- the available properties ---- *)
(* what getEvidence says for a property: the number of evidence properties when
   asked for the size, whether the array can be allocated, and the number put
   there *)
Record evid := mkEvid { needed : Z; okArray : bool; given : Z }.
(* an available property: the item with its name and the block, capacity and
   count of its evidence properties *)
Record pitem := mkPItem { pname : item; pevidence : option (nat * Z * Z) }.
(* the properties: their block and items *)
Record props := mkProps { pblock : nat; pitems : list pitem }.

(* properties.c 316-327: the names of the properties chosen are read, [ways]
   says how each goes *)
Fixpoint setNames (m : mem) (ways : list way) : option (mem * list item) :=
  match ways with
  | [] => Some (m, [])
  | w :: ways' =>
    match getFile m (mkItem DataReset None) w with
    | Some (m, it, _) => match setNames m ways' with Some (m, l) => Some (m, it :: l) | None => None end
    | None => None
    end
  end.
(* properties.c 329-354 *)
Fixpoint setEvidence (m : mem) (names : list item) (es : list evid) : mem * list pitem :=
  match names, es with
  | it :: names', e :: es' =>
    if okArray e then
      let (m, p) := LifeModel.alloc m (4 * needed e + 16) in
      let (m, l) := setEvidence m names' es' in (m, mkPItem it (Some (p, needed e, given e)) :: l)
    else let (m, l) := setEvidence m names' es' in (m, mkPItem it None :: l)
  | _, _ => (m, [])
  end.
(* the name can be used: it was read *)
Definition usable (it : item) : bool := match ihandle it with Some _ => true | None => false end.
(* properties.c 356-372: two or more properties are sorted, and each name is
   compared with another, so that a NULL name or one that is freed is used.
   390-398: then each name that is not NULL is read *)
Definition sortable (l : list pitem) : bool :=
  if Nat.leb 2 (length l) then forallb (fun x => usable (pname x)) l
  else forallb (fun x => match ptr (idata (pname x)) with Some _ => usable (pname x) | None => true end) l.
(* properties.c 407-455 with 65-82 and 374-399 for the properties chosen (see
   PropsModel for the choice and the indexes).  [chosen] is None if none of the
   names asked for in a text is known (256-258); [order] is what qsort does to
   the items.  The gets and releases of the search for indexes leave the memory
   as it is and are left out *)
Definition PropertiesCreate (m : mem) (okMem : bool) (chosen : option (list (way * evid))) (order : list pitem -> list pitem) : option (mem * option props) :=
  match chosen with
  | None => Some (m, None)
  | Some l =>
    if okMem then
      let (m, b) := LifeModel.alloc m (16 + 64 * Z.of_nat (length l)) in
      match setNames m (map fst l) with
      | None => None
      | Some (m, names) =>
        let (m, items) := setEvidence m names (map snd l) in
        if sortable items then Some (m, Some (mkProps b (order items))) else None
      end
    else Some (m, None)
  end.
(* properties.c 522-537: an item that is not NULL but was not read has no
   collection whose release method could be called *)
Fixpoint freeProps (m : mem) (l : list pitem) : option mem :=
  match l with
  | [] => Some m
  | x :: l' =>
    match (match ptr (idata (pname x)) with
           | Some _ => if usable (pname x)
                       then match releaseFile m (pname x) with Some (m, _) => Some m | None => None end
                       else None
           | None => Some m
           end) with
    | None => None
    | Some m =>
      match (match pevidence x with Some (p, _, _) => free m p | None => Some m end) with
      | Some m => freeProps m l'
      | None => None
      end
    end
  end.
Definition PropertiesFree (m : mem) (p : option props) : option mem :=
  match p with
  | Some p => match freeProps m (pitems p) with Some m => free m (pblock p) | None => None end
  | None => Some m
  end.

(* ---- the data set ---- *)
(* dataset.h 102-130: the members with memory, and of the configuration pointed
   to useTempFile; the file pool is in FilePoolModel *)
Record dset := mkDset { uniqueHeaders : option hdrs; overridable : option nat; available : option props;
                        memoryToFree : option nat; useTemp : option bool }.
(* dataset.c 103-114 *)
Definition DataSetReset : dset := mkDset None None None None None.
(* dataset.c 71-101: the last is whether the temporary file is deleted *)
Definition DataSetFree (m : mem) (d : dset) : option (mem * dset * bool) :=
  match HeadersFree m (uniqueHeaders d) with
  | None => None
  | Some m =>
    match (match overridable d with Some p => free m p | None => Some m end) with
    | None => None
    | Some m =>
      match PropertiesFree m (available d) with
      | None => None
      | Some m =>
        match (match memoryToFree d with Some p => free m p | None => Some m end) with
        | None => None
        | Some m =>
          match useTemp d with
          | Some t => Some (m, mkDset None None None None (useTemp d), t)
          | None => None                                   (* 98: config is NULL *)
          end
        end
      end
    end
  end.

(* status.h: the statuses of the two functions below *)
Inductive status := SUCCESS | REQ_PROP_NOT_PRESENT | COLLECTION_FAILURE | INSUFFICIENT_MEMORY | CORRUPT_DATA.
(* dataset.c 151-159 *)
Fixpoint checkEvidence (l : list pitem) : status :=
  match l with
  | [] => SUCCESS
  | x :: l' =>
    match pevidence x with
    | None => INSUFFICIENT_MEMORY
    | Some (_, capacity, count) => if Z.eqb capacity count then checkEvidence l' else COLLECTION_FAILURE
    end
  end.
(* dataset.c 116-162 *)
Definition DataSetInitProperties (m : mem) (d : dset) (okMem : bool) (chosen : option (list (way * evid))) (order : list pitem -> list pitem) : option (mem * dset * status) :=
  match PropertiesCreate m okMem chosen order with
  | None => None
  | Some (m, p) =>
    let d := mkDset (uniqueHeaders d) (overridable d) p (memoryToFree d) (useTemp d) in
    match p with
    | None => Some (m, d, REQ_PROP_NOT_PRESENT)
    | Some p =>
      if Nat.eqb (length (pitems p)) 0 then Some (m, d, REQ_PROP_NOT_PRESENT)
      else if existsb (fun x => match ptr (idata (pname x)) with None => true | Some _ => false end) (pitems p)
           then Some (m, d, COLLECTION_FAILURE)
           else Some (m, d, checkEvidence (pitems p))
    end
  end.
(* dataset.c 164-181 *)
Definition DataSetInitHeaders (m : mem) (d : dset) (ok : acall -> bool) (dataSet : list (Z * list Z)) : option (mem * dset * status) :=
  match useTemp d with
  | None => None                                           (* 171: config is NULL *)
  | Some _ =>
    match HeadersCreate m ok dataSet with
    | None => None
    | Some (m, h) =>
      Some (m, mkDset h (overridable d) (available d) (memoryToFree d) (useTemp d), match h with Some _ => SUCCESS | None => CORRUPT_DATA end)
    end
  end.
(* overrides.c 232-247: [n] are the properties that may be overridden, out of
   those available *)
Definition setOverrides (m : mem) (d : dset) (ok : bool) (n : nat) : option (mem * dset) :=
  match available d with
  | None => None                                           (* 191: available is NULL *)
  | Some _ =>
    if (Nat.ltb 0 n && ok)%bool then
      let (m, p) := LifeModel.alloc m (16 * Z.of_nat n + 24) in
      Some (m, mkDset (uniqueHeaders d) (Some p) (available d) (memoryToFree d) (useTemp d))
    else Some (m, mkDset (uniqueHeaders d) None (available d) (memoryToFree d) (useTemp d))
  end.
(* the data of the file read into memory, dataset.c 237-250 *)
Definition setMemory (m : mem) (d : dset) (n : Z) : mem * dset :=
  let (m, p) := LifeModel.alloc m n in
  (m, mkDset (uniqueHeaders d) (overridable d) (available d) (Some p) (useTemp d)).

(* what a data set is put through *)
Inductive dop :=
| DHeaders (ok : acall -> bool) (dataSet : list (Z * list Z))
| DProps (okMem : bool) (chosen : option (list (way * evid))) (order : list pitem -> list pitem)
| DOverrides (ok : bool) (n : nat)
| DMemory (n : Z)
| DFree.
(* one of them *)
Definition dstep (o : dop) (m : mem) (d : dset) : option (mem * dset) :=
  match o with
  | DHeaders ok ds => match DataSetInitHeaders m d ok ds with Some (m, d, _) => Some (m, d) | None => None end
  | DProps okMem chosen order => match DataSetInitProperties m d okMem chosen order with Some (m, d, _) => Some (m, d) | None => None end
  | DOverrides ok n => setOverrides m d ok n
  | DMemory n => Some (setMemory m d n)
  | DFree => match DataSetFree m d with Some (m, d, _) => Some (m, d) | None => None end
  end.
(* one after the other *)
Fixpoint drun (os : list dop) (m : mem) (d : dset) : option (mem * dset) :=
  match os with
  | [] => Some (m, d)
  | o :: os' => match dstep o m d with Some (m, d) => drun os' m d | None => None end
  end.
