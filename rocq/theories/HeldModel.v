(* The memory behind results: the values of overrides (overrides.c), lists of items
   (list.c) that own memory from files or borrow that of overrides, and the list of
   components (component.c).

   Heap, items and their memory are those of ItemModel; texts are given by their
   lengths.  None: undefined behaviour. *)
From Verif Require Export ItemModel LifeModel.
Local Open Scope Z_scope.

(* overrides.h:93-97 with array.h: the array at a block, the number of values and all
   items with their property index and memory *)
Record values := mkValues { arr : nat; vcount : nat; vitems : list (Z * data) }.
(* sizeof: OverrideValueArray and OverrideValue, on a 64 bit machine; String, string.h:109-119, is packed *)
Definition sizeofArray : Z := 16.
Definition sizeofOverride : Z := 24.
Definition sizeofString : Z := 11.

(* overrides.c:216-230 OverrideValuesCreate; ok is whether Malloc succeeds *)
Definition OverrideValuesCreate (m : mem) (capacity : nat) (ok : bool) : mem * option values :=
  if ok then
    let (m', p) := alloc m (sizeofArray + sizeofOverride * Z.of_nat capacity) in
    (m', Some (mkValues p 0 (repeat (0, DataReset) capacity)))
  else (m, None).

(* overrides.c:143-149: the first of the values in use with the index, or their number *)
Fixpoint findValue (l : list (Z * data)) (index : Z) : nat :=
  match l with
  | [] => 0
  | (i, _) :: rest => if Z.eqb i index then 0 else S (findValue rest index)
  end.
(* an array element is assigned *)
Fixpoint setItem {A} (l : list A) (i : nat) (x : A) {struct l} : list A :=
  match l, i with
  | [], _ => []
  | _ :: rest, O => x :: rest
  | y :: rest, S i' => y :: setItem rest i' x
  end.
(* overrides.c:129-169 OverridesAdd of a text with the length; memOk is whether Malloc, if
   called, succeeds.  The memory is used without a test *)
Definition OverridesAdd (m : mem) (v : values) (index len : Z) (memOk : bool) : option (mem * values) :=
  match sizeOf (live m) (arr v) with None => None | Some _ =>
  if Z.leb 0 index && Nat.ltb (vcount v) (length (vitems v)) then
    let current := findValue (firstn (vcount v) (vitems v)) index in
    match nth_error (vitems v) current with
    | None => None
    | Some (i, d) =>
      let new := Nat.eqb current (vcount v) in
      match DataMalloc m d (sizeofString + len) memOk with
      | Some (m1, mkData (Some p) a) =>
        match write m1 p (2 + len + 1) with
        | Some m2 =>
          Some (m2, mkValues (arr v) (if new then S (vcount v) else vcount v)
            (setItem (vitems v) current (if new then index else i, mkData (Some p) a)))
        | None => None
        end
      | _ => None
      end
    end
  else Some (m, v)
  end.

(* overrides.c:373-387 and 389-404: one value freed, or set to zero *)
Definition hasMemory (d : data) : option nat :=
  match ptr d with Some p => if Z.ltb 0 (allocated d) then Some p else None | None => None end.
(* the loop of OverrideValuesReset *)
Fixpoint resetItems (m : mem) (l : list (Z * data)) : option (list (Z * data)) :=
  match l with
  | [] => Some []
  | (i, d) :: rest =>
    match hasMemory d with
    | Some p =>
      match write m p (allocated d) with
      | Some _ => option_map (cons (0, d)) (resetItems m rest)
      | None => None
      end
    | None => option_map (cons (i, d)) (resetItems m rest)
    end
  end.
(* overrides.c:389-404 OverrideValuesReset *)
Definition OverrideValuesReset (m : mem) (v : values) : option values :=
  match sizeOf (live m) (arr v) with
  | None => None
  | Some _ => option_map (mkValues (arr v) 0) (resetItems m (vitems v))
  end.
(* the loop of OverrideValuesFree *)
Fixpoint freeItems (m : mem) (l : list (Z * data)) : option mem :=
  match l with
  | [] => Some m
  | (_, d) :: rest =>
    match hasMemory d with
    | Some p => match free m p with Some m' => freeItems m' rest | None => None end
    | None => freeItems m rest
    end
  end.
(* overrides.c:373-387 OverrideValuesFree *)
Definition OverrideValuesFree (m : mem) (v : values) : option mem :=
  match sizeOf (live m) (arr v) with
  | None => None
  | Some _ => match freeItems m (vitems v) with Some m' => free m' (arr v) | None => None end
  end.

(* overrides.c:276-301 OverrideValuesGetFirst: the pointer, Some None if it is NULL and
   None if there is no value *)
Definition OverrideValuesGetFirst (v : values) (index : Z) : option (option nat) :=
  let l := firstn (vcount v) (vitems v) in
  match nth_error l (findValue l index) with Some (_, d) => Some (ptr d) | None => None end.

(* an item of a list: one read from a file, or one with the memory of an override, whose
   collection's release does nothing (overrides.c:44-46) *)
Inductive entry := Owned (it : item) | Borrowed (p : option nat).
(* list.h: the array with the capacity, and the items *)
Record rlist := mkRList { larr : nat; lcapacity : nat; lentries : list entry }.
(* collection.h:308-315 sizeof(Item) on a 64 bit machine *)
Definition sizeofItem : Z := 32.
(* list.c:27-37 ListInit *)
Definition ListInit (m : mem) (capacity : nat) (ok : bool) : mem * option rlist :=
  if ok then let (m', p) := alloc m (sizeofItem * Z.of_nat capacity) in (m', Some (mkRList p capacity []))
  else (m, None).
(* list.c:39-45 ListAdd: past the capacity is undefined *)
Definition ListAdd (m : mem) (l : rlist) (e : entry) : option rlist :=
  if Nat.ltb (length (lentries l)) (lcapacity l) then
    match write m (larr l) (sizeofItem * Z.of_nat (S (length (lentries l)))) with
    | Some _ => Some (mkRList (larr l) (lcapacity l) (lentries l ++ [e]))
    | None => None
    end
  else None.
(* list.c:59-65 the loop of ListRelease: COLLECTION_RELEASE of each item *)
Fixpoint releaseEntries (m : mem) (l : list entry) : option mem :=
  match l with
  | [] => Some m
  | Owned it :: rest => match releaseFile m it with Some (m', _) => releaseEntries m' rest | None => None end
  | Borrowed _ :: rest => releaseEntries m rest
  end.
(* list.c:59-65 ListRelease *)
Definition ListRelease (m : mem) (l : rlist) : option (mem * rlist) :=
  match releaseEntries m (lentries l) with
  | Some m' => Some (m', mkRList (larr l) (lcapacity l) [])
  | None => None
  end.
(* list.c:67-74 ListFree *)
Definition ListFree (m : mem) (l : rlist) : option mem :=
  match ListRelease m l with Some (m', l') => free m' (larr l') | None => None end.

(* overrides.c:321-354 the loop of OverrideValuesAdd *)
Fixpoint borrow (m : mem) (vs : list (Z * data)) (index : Z) (l : rlist) : option rlist :=
  match vs with
  | [] => Some l
  | (i, d) :: rest =>
    if Nat.ltb (length (lentries l)) (lcapacity l) then
      if Z.eqb i index then
        match ListAdd m l (Borrowed (ptr d)) with Some l' => borrow m rest index l' | None => None end
      else borrow m rest index l
    else Some l
  end.
(* overrides.c:321-354 OverrideValuesAdd *)
Definition OverrideValuesAdd (m : mem) (v : values) (index : Z) (l : rlist) : option rlist :=
  borrow m (firstn (vcount v) (vitems v)) index l.

(* what is done with results: an override added, the overrides reset, the overrides of a
   property listed, a value read from a file and listed, the list released *)
Inductive rop := RAdd (index len : Z) (memOk : bool) | RReset | RList (index : Z) | RFetch (w : way) | RRelease.
(* one step; an item that could not be read is not passed on, profile.c:106-160, and one
   that was is added by the engine's callback *)
Definition rstep (o : rop) (s : mem * values * rlist) : option (mem * values * rlist) :=
  let '(m, v, l) := s in
  match o with
  | RAdd index len memOk => match OverridesAdd m v index len memOk with Some (m', v') => Some (m', v', l) | None => None end
  | RReset => match OverrideValuesReset m v with Some v' => Some (m, v', l) | None => None end
  | RList index => match OverrideValuesAdd m v index l with Some l' => Some (m, v, l') | None => None end
  | RFetch w =>
    match getFile m (mkItem DataReset None) w with
    | None => None
    | Some (m', it, None) => Some (m', v, l)
    | Some (m', it, Some _) => match ListAdd m' l (Owned it) with Some l' => Some (m', v, l') | None => None end
    end
  | RRelease => match ListRelease m l with Some (m', l') => Some (m', v, l') | None => None end
  end.
(* steps in turn *)
Fixpoint rrun (os : list rop) (s : mem * values * rlist) : option (mem * values * rlist) :=
  match os with
  | [] => Some s
  | o :: os' => match rstep o s with Some s' => rrun os' s' | None => None end
  end.

(* component.c:107-122 the loop of ComponentInitList over a file collection: left are the
   components still to be read; a read that fails sets the exception *)
Fixpoint initLoop (m : mem) (ways : nat -> way) (l : rlist) (left : nat) {struct left} : option (mem * rlist * bool) :=
  match left with
  | O => Some (m, l, true)
  | S left' =>
    match getFile m (mkItem DataReset None) (ways (length (lentries l))) with
    | None => None
    | Some (m', _, None) => Some (m', l, false)
    | Some (m', it, Some _) =>
      match ListAdd m' l (Owned it) with Some l' => initLoop m' ways l' left' | None => None end
    end
  end.
(* component.c:98-124 ComponentInitList: the list, None if it has no memory, and whether the
   exception is okay *)
Definition ComponentInitList (m : mem) (ways : nat -> way) (n : nat) (ok : bool) : option (mem * option rlist * bool) :=
  match ListInit m n ok with
  | (m', None) => Some (m', None, true)
  | (m', Some l) =>
    match initLoop m' ways l n with Some (m2, l2, b) => Some (m2, Some l2, b) | None => None end
  end.
