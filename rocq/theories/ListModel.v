(* list.c and data.c.  None is undefined: a failed assertion (without assertions a
   write outside the array), a read of memory that was not written or is not the
   list's, memory freed twice. *)
From Coq Require Export ZArith List Lia Bool.
Export ListNotations.

(* collection.h fiftyoneDegreesCollectionItem: the collection, data.ptr and handle *)
Record Item := mkItem { collection : option Z; dataPtr : Z; handle : Z }.
(* list.h:108-112 fiftyoneDegreesList: items is NULL or a block *)
Record TheList := mkList { items : option nat; capacity : Z; count : Z }.
(* The blocks allocated so far, with what was written to them, None when freed, and
   the calls of the collections' release methods, oldest first *)
Record World := mkWorld { list_ : TheList; blocks : list (option (list (option Item))); released : list Item }.

(* an array element is assigned *)
Fixpoint set {A} (i : nat) (x : A) (l : list A) : list A :=
  match l, i with
  | [], _ => []
  | _ :: l', O => x :: l'
  | y :: l', S j => y :: set j x l'
  end.

(* list.c:27-37 fiftyoneDegreesListInit; ok is whether Malloc succeeds.  On failure
   capacity and count stay what they were *)
Definition ListInit (ok : bool) (c : Z) (w : World) : bool * World :=
  if ok then
    (true, mkWorld (mkList (Some (length (blocks w))) c 0) (blocks w ++ [Some (repeat None (Z.to_nat c))]) (released w))
  else (false, mkWorld (mkList None (capacity (list_ w)) (count (list_ w))) (blocks w) (released w)).

(* list->items as an array *)
Definition array (w : World) : option (nat * list (option Item)) :=
  match items (list_ w) with
  | None => None
  | Some b => match nth_error (blocks w) b with Some (Some cells) => Some (b, cells) | _ => None end
  end.

(* list.c:39-45 fiftyoneDegreesListAdd *)
Definition ListAdd (item : Item) (w : World) : option World :=
  let l := list_ w in
  if Z.ltb (count l) (capacity l) then
    match collection item, array w with
    | Some _, Some (b, cells) =>
      if Nat.ltb (Z.to_nat (count l)) (length cells) then
        Some (mkWorld (mkList (items l) (capacity l) ((count l + 1) mod 2 ^ 32))
                      (set b (Some (set (Z.to_nat (count l)) (Some item) cells)) (blocks w)) (released w))
      else None
    | _, _ => None
    end
  else None.

(* list.c:47-51 fiftyoneDegreesListGetAsString *)
Definition ListGetAsString (index : Z) (w : World) : option Z :=
  match array w with
  | Some (_, cells) =>
    if Z.ltb index 0 then None
    else match nth_error cells (Z.to_nat index) with Some (Some item) => Some (dataPtr item) | _ => None end
  | None => None
  end.

(* list.c:53-57 fiftyoneDegreesListReset *)
Definition ListReset (w : World) : World := mkWorld (mkList None 0 0) (blocks w) (released w).

(* list.c:61-63, n items left.  What an item holds once it is released is up to the
   collection: it counts as not written *)
Fixpoint releaseLoop (n : nat) (i : nat) (w : World) : option World :=
  match n with
  | O => Some w
  | S n' =>
    match array w with
    | Some (b, cells) =>
      match nth_error cells i with
      | Some (Some item) =>
        match collection item with
        | Some _ => releaseLoop n' (S i) (mkWorld (list_ w) (set b (Some (set i None cells)) (blocks w)) (released w ++ [item]))
        | None => None
        end
      | _ => None
      end
    | None => None
    end
  end.
(* list.c:59-65 fiftyoneDegreesListRelease *)
Definition ListRelease (w : World) : option World :=
  option_map (fun w' => mkWorld (mkList (items (list_ w')) (capacity (list_ w')) 0) (blocks w') (released w'))
             (releaseLoop (Z.to_nat (count (list_ w))) 0 w).

(* list.c:67-74 fiftyoneDegreesListFree *)
Definition ListFree (w : World) : option World :=
  match ListRelease w with
  | None => None
  | Some w1 =>
    match items (list_ w1) with
    | None => Some (mkWorld (mkList None 0 (count (list_ w1))) (blocks w1) (released w1))
    | Some b =>
      match nth_error (blocks w1) b with
      | Some (Some _) => Some (mkWorld (mkList None 0 (count (list_ w1))) (set b None (blocks w1)) (released w1))
      | _ => None
      end
    end
  end.

(* data.h fiftyoneDegreesData: ptr is NULL or a block.  Blocks have their size, None
   when freed *)
Record Data := mkData { ptr : option nat; allocated : Z; used : Z }.
(* data.c:27-31 fiftyoneDegreesDataReset *)
Definition DataReset (d : Data) : Data := mkData None 0 0.
(* Free of a pointer: NULL does nothing *)
Definition Free (p : option nat) (blocks : list (option Z)) : option (list (option Z)) :=
  match p with
  | None => Some blocks
  | Some b => match nth_error blocks b with Some (Some _) => Some (set b None blocks) | _ => None end
  end.
(* data.c:33-49 fiftyoneDegreesDataMalloc; ok is whether Malloc succeeds *)
Definition DataMalloc (ok : bool) (bytesNeeded : Z) (s : Data * list (option Z)) : option (option nat * (Data * list (option Z))) :=
  let '(d, blocks) := s in
  match (if Z.ltb 0 (allocated d) && Z.ltb (allocated d) bytesNeeded
         then option_map (fun blocks' => (mkData None 0 (used d), blocks')) (Free (ptr d) blocks)
         else Some (d, blocks)) with
  | None => None
  | Some (d, blocks) =>
    if Z.eqb (allocated d) 0 then
      if ok then Some (Some (length blocks), (mkData (Some (length blocks)) (bytesNeeded mod 2 ^ 32) (used d), blocks ++ [Some bytesNeeded]))
      else Some (None, (mkData None 0 (used d), blocks))
    else Some (ptr d, (d, blocks))
  end.
