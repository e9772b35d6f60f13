(* The functions of property.c, value.c and profile.c run on collections that
   change: each get and each COLLECTION_RELEASE acts on the caches, the memory and
   the file handles (collection.c).  In ProfileModel.v the collections are functions;
   here they are those of CollectionModel.v, and an item is what the C structure
   holds, so that an item released with the method of another collection does what
   it does in C.  None: undefined behaviour or fuel used up.
   Simplifications: an item is only used with one collection; the memory of cache
   nodes is not counted (that is LifeModel.v); callbacks do not use the collections;
   a call runs alone.  The exception is not NULL and clear when a function is called. *)
From Verif Require Import TreeModel CacheModel CacheSpec CollectionModel.
From Verif Require ItemModel.
From Verif Require Import SearchModel ProfileModel DbModel.
Local Open Scope Z_scope.

(* the collections of a data set *)
Inductive src := Texts | Props | Vals | Profs | Offs.
(* two of them are the same *)
Definition src_eqb (a b : src) : bool :=
  match a, b with Texts, Texts | Props, Props | Vals, Vals | Profs, Profs | Offs, Offs => true | _, _ => false end.
(* string.c:32-46, profile.c:229-243, CollectionReadFileFixed for the others *)
Definition kindOf (s : src) : kind := match s with Texts => stringKind | Profs => profileKind | _ => Fixed end.

(* collection->release: releaseNothing, releaseFile, releaseCache, releasePartial *)
Inductive method := Nothing | ByFile | ByCache | ByItem.
(* collection.c:554, 634, 683, 796: the method of a collection *)
Definition methodOf (c : coll) : method :=
  match c with Mem _ _ => Nothing | File _ _ => ByFile | Cached _ _ _ => ByCache | Partial _ _ _ => ByItem end.

(* item->handle: never set, NULL, memory, or a node of the cache of a collection *)
Inductive handle := Unset | Null | Block (p : nat) | Node (s : src) (n : slot).
(* collection.h:308-315.  [icoll]: item->collection by its release method; None:
   never set, Some None: NULL *)
Record item := mkItem { idata : ItemModel.data; ihandle : handle; icoll : option (option method) }.
(* a local Item after DataReset(&item.data) *)
Definition newItem : item := mkItem ItemModel.DataReset Unset None.

(* what the calls change: the collections, the memory, and the file handles that are
   free; [ios]: what goes wrong in the gets to come *)
Record world := mkWorld { colls : src -> coll; heap : ItemModel.mem; handles : nat; ios : list io }.
(* one collection changes *)
Definition setColl (w : world) (s : src) (c : coll) : world :=
  mkWorld (fun x => if src_eqb x s then c else colls w x) (heap w) (handles w) (ios w).
(* the memory changes *)
Definition setHeap (w : world) (m : ItemModel.mem) : world := mkWorld (colls w) m (handles w) (ios w).
(* COLLECTION_RELEASE(collection, ...) *)
Definition methodIn (w : world) (s : src) : method := methodOf (colls w s).

(* ---- releases ---- *)
(* collection.c:92-94, 106-111, 118-125 *)
Definition releaseWith (m : method) (it : item) (w : world) : option (item * world) :=
  match m, ihandle it with
  | Nothing, _ => Some (it, w)
  | ByCache, Null | ByFile, Null => Some (it, w)
  | ByCache, Node s n =>
    match collRelease (colls w s) n with        (* the node knows its shard, cache.c:419-434 *)
    | Some c => Some (mkItem (idata it) Null (icoll it), setColl w s c)
    | None => None
    end
  | ByFile, Block p =>
    match ItemModel.free (heap w) p with
    | Some m => Some (mkItem ItemModel.DataReset Null (Some None), setHeap w m)
    | None => None
    end
  | _, _ => None
  end.
(* collection.h:266 COLLECTION_RELEASE, with collection.c:133-138.  A handle that was
   never set may be NULL or not *)
Definition release (m : method) (it : item) (w : world) : option (item * world) :=
  match m with
  | ByItem =>
    match ihandle it, icoll it with
    | Null, _ => Some (it, w)
    | Unset, Some None | Unset, Some (Some Nothing) => Some (it, w)
    | Unset, _ => None
    | _, None => None
    | _, Some None => Some (it, w)
    | _, Some (Some ByItem) => None             (* does not end *)
    | _, Some (Some m') => releaseWith m' it w
    end
  | _ => releaseWith m it w
  end.

(* ---- gets ---- *)
(* the collection of a chain that answers: collection.c:226-270 *)
Fixpoint serving (c : coll) (i : Z) : coll :=
  match c with
  | Partial ci b (Some n) => match getMemory ci b i with Some _ => c | None => serving n i end
  | _ => c
  end.
(* collection.c:945-1010, 1112-1140: the range is right, so a file handle is taken *)
Definition inRange (k : kind) (ci : cinfo) (i : Z) : bool :=
  match k with
  | Fixed => Z.ltb i (ccount ci) && Z.ltb ((i * celem ci) mod 2 ^ 32) (csize ci)
  | VarSize _ _ => Z.ltb i (csize ci)
  end.
(* collection.c:979-1033, 1037-1105: how far a read gets *)
Definition wayOf (file : list Z) (k : kind) (start : nat) (ci : cinfo) (f : io) (i : Z) : ItemModel.way :=
  if inRange k ci i && negb (io_eqb f IoHandle) && negb (io_eqb f IoSeek) then
    match k with
    | Fixed =>
      ItemModel.Try (celem ci) (negb (io_eqb f IoMemory))
        match ReadFileFixed file start ci f i with ROk _ => true | RErr _ => false end
    | VarSize init final =>
      match (if io_eqb f IoRead then None else fread file (start + Z.to_nat i) init) with
      | None => ItemModel.Early
      | Some initial =>
        ItemModel.Try (final initial mod 2 ^ 32) (negb (io_eqb f IoMemory))
          match ReadFileVariable file start ci init final f i with Some (ROk _) => true | _ => false end
      end
    end
  else ItemModel.Early.
(* data.c:33-49: without need for more memory Malloc is not called and cannot fail *)
Definition noNeed (d : ItemModel.data) (y : ItemModel.way) : bool :=
  match y with ItemModel.Try b _ _ => Z.ltb 0 (ItemModel.allocated d) && Z.leb b (ItemModel.allocated d) | ItemModel.Early => false end.

Section Calls.
  Variable file : list Z.
  Variable fuel : src -> nat.
  Variable compareOther : list Z -> list Z -> Z.

  (* what goes wrong in a get: without a free file handle that *)
  Definition nextIo (w : world) : io := match handles w with O => IoHandle | S _ => hd IoOk (ios w) end.
  Definition dropIo (w : world) : world := mkWorld (colls w) (heap w) (handles w) (tl (ios w)).

  (* collection->get with a clear exception: the bytes at the pointer or NULL, whether the
     exception is clear, the item *)
  Definition getClear (s : src) (i : Z) (it : item) (w0 : world) : option (option (list Z) * bool * item * world) :=
    let c := colls w0 s in
    let w := dropIo w0 in
    match serving c i with
    | File ci start =>
      let f := if io_eqb (nextIo w0) IoMemory && noNeed (idata it) (wayOf file (kindOf s) start ci IoMemory i) then IoOk else nextIo w0 in
      match collGet file (kindOf s) (fuel s) c f i,
            ItemModel.getFile (heap w) (ItemModel.mkItem (idata it) None) (wayOf file (kindOf s) start ci f i) with
      | Some (EGot _ b _, c'), Some (m, it', Some p) =>
        Some (Some b, true, mkItem (ItemModel.idata it') (Block p) (Some (Some ByFile)), setHeap (setColl w s c') m)
      | Some (ENull _ _ _, c'), Some (m, it', None) =>
        Some (None, false, mkItem (ItemModel.idata it') Null (icoll it), setHeap (setColl w s c') m)
      | _, _ => None
      end
    | from =>
      match collGet file (kindOf s) (fuel s) c (nextIo w0) i with
      | None => None
      | Some (e, c') =>
        match from, e with
        | Mem _ _, EGot _ b _ => Some (Some b, true, mkItem (idata it) (ihandle it) (Some (Some Nothing)), setColl w s c')      (* 186-218 *)
        | Partial _ _ _, EGot _ b _ => Some (Some b, true, mkItem ItemModel.DataReset Null (Some (Some ByItem)), setColl w s c') (* 226-262 *)
        | Cached _ _ _, EGot _ b (Some n) => Some (Some b, true, mkItem ItemModel.DataReset (Node s n) (Some (Some ByCache)), setColl w s c')
        | Cached _ _ _, ENull _ None (Some n) => Some (None, true, mkItem (idata it) (Node s n) (Some (Some ByCache)), setColl w s c')
        | Cached _ _ _, ENull _ st _ => Some (None, match st with None => true | Some _ => false end, mkItem (idata it) Null (Some (Some ByCache)), setColl w s c')
        | _, ENull _ _ _ => Some (None, false, it, setColl w s c')
        | _, _ => None
        end
      end
    end.

  (* a get from a cache with the exception already set: collection.c:308-343, cache.c:382-417.
     The node found or loaded stays in use.  Also whether the loader ran *)
  Fixpoint getFailing (k : kind) (fl : nat) (c : coll) (i : Z) : option (bool * coll) :=
    match c with
    | Cached ci start cc =>
      match cacheGet fl (toInt32 i) false [] cc with
      | Some ((_, o), cc') => Some (match o with OFailed _ _ => inRange k ci i | _ => false end, Cached ci start cc')
      | None => None
      end
    | Partial ci b (Some n) =>
      match getFailing k fl n i with Some (r, n') => Some (r, Partial ci b (Some n')) | None => None end
    | c => Some (false, c)
    end.
  (* a file handle that is not given back: collection.c:992, 1136 *)
  Definition loseHandle (lost : bool) (w : world) : world :=
    mkWorld (colls w) (heap w) (if lost then pred (handles w) else handles w) (ios w).
  (* collection->get with the exception already set *)
  Definition getSet (s : src) (i : Z) (it : item) (w0 : world) : option (option (list Z) * bool * item * world) :=
    let c := colls w0 s in
    let w := dropIo w0 in
    match serving c i with
    | Mem ci b =>
      match getMemory ci b i with
      | Some bytes => Some (Some bytes, false, mkItem (idata it) (ihandle it) (Some (Some Nothing)), w)
      | None => Some (None, false, it, w)
      end
    | Partial ci b _ =>
      match getMemory ci b i with
      | Some bytes => Some (Some bytes, false, mkItem ItemModel.DataReset Null (Some (Some ByItem)), w)
      | None => Some (None, false, it, w)
      end
    | File ci _ => Some (None, false, mkItem (idata it) Null (icoll it), loseHandle (inRange (kindOf s) ci i) w)
    | Cached ci _ _ =>
      match getFailing (kindOf s) (fuel s) c i with
      | Some (lost, c') => Some (None, false, mkItem (idata it) Null (Some (Some ByCache)), loseHandle lost (setColl w s c'))
      | None => None
      end
    end.
  (* collection->get *)
  Definition get (s : src) (i : Z) (okay : bool) (it : item) (w : world) : option (option (list Z) * bool * item * world) :=
    if okay then getClear s i it w else getSet s i it w.
  (* COLLECTION_RELEASE(collection, &item) *)
  Definition releaseIn (s : src) (it : item) (w : world) : option (item * world) := release (methodIn w s) it w.

  (* ---- property.c ---- *)
  (* property.c:111-144, with n properties left: the property, if any, with its index, whether
     the exception is clear, the caller's item *)
  Fixpoint propertyLoop (n : nat) (i : Z) (name : list Z) (nameItem it : item) (w : world) : option (option (Z * Property) * bool * item * world) :=
    match n with
    | O => Some (None, true, it, w)
    | S n' =>
      match get Props i true it w with
      | None => None
      | Some (None, true, it, w) => propertyLoop n' (i + 1) name nameItem it w
      | Some (None, false, it, w) => Some (None, false, it, w)
      | Some (Some b, _, it, w) =>
        match propertyOf b with
        | None => None
        | Some p =>
          match get Texts (nameOffset p) true nameItem w with
          | None => None
          | Some (None, ok, _, w) => Some (Some (i, p), ok, it, w)
          | Some (Some nb, _, nameItem, w) =>
            match textOf nb with
            | None => None
            | Some s =>
              if negb (Z.eqb (strcmp s name) 0) then
                match releaseIn Props it w with                       (* 136 *)
                | None => None
                | Some (it, w) =>
                  match releaseIn Props nameItem w with               (* 140: the method of properties *)
                  | None => None
                  | Some (nameItem, w) => propertyLoop n' (i + 1) name nameItem it w
                  end
                end
              else
                match releaseIn Props nameItem w with
                | None => None
                | Some (_, w) => Some (Some (i, p), true, it, w)
                end
            end
          end
        end
      end
    end.
  (* property.c:99-145 fiftyoneDegreesPropertyGetByName *)
  Definition PropertyGetByName (name : list Z) (it : item) (w : world) : option (option (Z * Property) * bool * item * world) :=
    propertyLoop (Z.to_nat (CollectionGetCount (colls w Props))) 0 name newItem it w.
  (* property.c:147-161 fiftyoneDegreesPropertyGetValueType *)
  Definition PropertyGetValueType (index : Z) (w : world) : option (Z * bool * world) :=
    match get Props index true newItem w with
    | None => None
    | Some (Some b, _, it, w) =>
      match valueType b, releaseIn Props it w with
      | Some t, Some (_, w) => Some (t, true, w)
      | _, _ => None
      end
    | Some (None, ok, _, w) => Some (0, ok, w)
    end.

  (* ---- collection.c ---- *)
  Section Search.
    Variable s : src.
    Variable cmp : list Z -> world -> option (Z * bool * world).
    (* collection.c:1177-1228: the index, whether the exception is clear, the item, and the bytes
       it points to if it is held *)
    Fixpoint search (n : nat) (lower upper : Z) (it : item) (w : world) : option (Z * bool * item * option (list Z) * world) :=
      match n with
      | O => None
      | S n' =>
        if Z.leb lower upper then
          let middle := lower + (upper - lower) / 2 in
          match get s middle true it w with
          | None => None
          | Some (None, ok, it, w) => Some (0, ok, it, None, w)
          | Some (Some b, _, it, w) =>
            match cmp b w with
            | None => None
            | Some (_, false, w) => Some (0, false, it, Some b, w)
            | Some (r, true, w) =>
              if Z.eqb r 0 then Some (middle, true, it, Some b, w)
              else
                match releaseIn s it w with
                | None => None
                | Some (it, w) =>
                  if Z.ltb 0 r then
                    if Z.eqb middle 0 then search n' ((lower + 1) mod 2 ^ 32) upper it w
                    else search n' lower (middle - 1) it w
                  else search n' ((middle + 1) mod 2 ^ 32) upper it w
                end
            end
          end
        else Some (-1, true, it, None, w)
      end.
  End Search.

  (* ---- value.c ---- *)
  (* value.c:127-157 compareValueByName *)
  Definition compareValueByName (name : list Z) (value : list Z) (w : world) : option (Z * bool * world) :=
    match valueNameOffset value with
    | None => None
    | Some o =>
      match get Texts o true newItem w with
      | None => None
      | Some (None, ok, _, w) => Some (0, ok, w)
      | Some (Some nb, _, it, w) =>
        match textOf nb with
        | None => None
        | Some t =>
          match releaseIn Texts it w with
          | None => None
          | Some (_, w) =>
            Some (match t with
                  | c :: _ => if Z.eqb c 1 || Z.eqb c 2 then compareOther t name else strcmp t name
                  | [] => strcmp t name
                  end, true, w)
          end
        end
      end
    end.
  (* value.c:198-222 fiftyoneDegreesValueGetIndexByName *)
  Definition ValueGetIndexByName (property : Property) (name : list Z) (w : world) : option (Z * bool * world) :=
    match search Vals (compareValueByName name) 33 (firstValueIndex property) (lastValueIndex property) newItem w with
    | None => None
    | Some (r, true, it, _, w) => match releaseIn Vals it w with Some (_, w) => Some (r, true, w) | None => None end
    | Some (r, false, _, _, w) => Some (r, false, w)
    end.
  (* value.c:224-249 fiftyoneDegreesValueGetByName: the bytes of the value or NULL.  When a get of
     the search gives NULL with a clear exception the pointer returned is NULL or that of an item
     that is not held: None *)
  Definition ValueGetByName (property : Property) (name : list Z) (it : item) (w : world) : option (option (list Z) * bool * item * world) :=
    if Z.eqb (firstValueIndex property) (2 ^ 32 - 1) then Some (None, true, it, w)
    else
      match search Vals (compareValueByName name) 33 (firstValueIndex property) (lastValueIndex property) (mkItem ItemModel.DataReset (ihandle it) (icoll it)) w with
      | None => None
      | Some (r, ok, it, b, w) =>
        if Z.leb 0 r && ok then match b with Some b => Some (Some b, true, it, w) | None => None end
        else Some (None, ok, it, w)
      end.

  (* ---- profile.c ---- *)
  (* profile.c:303-342: the indexes of the profiles given to callback *)
  Fixpoint profilesLoop (n : nat) (i : Z) (okay : bool) (property : Property) (valueIndex : Z) (offsetItem profileItem : item) (w : world) : option (list Z * bool * world) :=
    match n with
    | O => Some ([], okay, w)
    | S n' =>
      match get Offs i okay offsetItem w with
      | None => None
      | Some (Some ob, true, offsetItem, w) =>
        match offsetOf ob with
        | None => None
        | Some o =>
          match get Profs (offset o) true profileItem w with
          | None => None
          | Some (Some pb, true, profileItem, w) =>
            match profileOf pb with
            | None => None
            | Some p =>
              match match getFirstValueForProfileAndProperty p property with
                    | None => None
                    | Some None => Some false
                    | Some (Some k) => findValue (S (length (values p))) p property valueIndex k
                    end with
              | None => None
              | Some called =>
                match releaseIn Offs profileItem w with               (* 336: the method of profileOffsets *)
                | None => None
                | Some (profileItem, w) =>
                  match releaseIn Offs offsetItem w with              (* 338 *)
                  | None => None
                  | Some (offsetItem, w) =>
                    match profilesLoop n' (i + 1) true property valueIndex offsetItem profileItem w with
                    | Some (l, ok, w) => Some (if called then i :: l else l, ok, w)
                    | None => None
                    end
                  end
                end
              end
            end
          | Some (_, ok, profileItem, w) =>
            match releaseIn Offs offsetItem w with
            | None => None
            | Some (offsetItem, w) => profilesLoop n' (i + 1) ok property valueIndex offsetItem profileItem w
            end
          end
        end
      | Some (_, ok, offsetItem, w) => profilesLoop n' (i + 1) ok property valueIndex offsetItem profileItem w
      end
    end.
  (* profile.c:272-347 fiftyoneDegreesProfileIterateProfilesForPropertyAndValue *)
  Definition ProfileIterateProfilesForPropertyAndValue (propertyName valueName : list Z) (w : world) : option (list Z * bool * world) :=
    match PropertyGetByName propertyName newItem w with
    | None => None
    | Some (Some (_, property), true, it, w) =>
      match ValueGetIndexByName property valueName w with
      | None => None
      | Some (valueIndex, ok, w) =>
        match (if Z.leb 0 valueIndex && ok
               then profilesLoop (Z.to_nat (CollectionGetCount (colls w Offs))) 0 true property valueIndex newItem newItem w
               else Some ([], ok, w)) with
        | None => None
        | Some (l, ok, w) => match releaseIn Props it w with Some (_, w) => Some (l, ok, w) | None => None end
        end
      end
    | Some (_, ok, _, w) => Some ([], ok, w)
    end.

  (* profile.c:50-60 compareProfileId *)
  Definition compareProfileId (id : Z) (bytes : list Z) (w : world) : option (Z * bool * world) :=
    match offsetOf bytes with
    | Some o => Some (if Z.ltb (profileId o) id then -1 else if Z.ltb id (profileId o) then 1 else 0, true, w)
    | None => None
    end.
  (* profile.c:151-175 fiftyoneDegreesProfileGetOffsetForProfileId *)
  Definition ProfileGetOffsetForProfileId (id : Z) (w : world) : option (option Z * bool * world) :=
    if Z.eqb id 0 then Some (None, false, w)
    else
      match search Offs (compareProfileId id) 33 0 ((CollectionGetCount (colls w Offs) - 1) mod 2 ^ 32) newItem w with
      | None => None
      | Some (r, ok, it, b, w) =>
        if Z.leb 0 r then
          match b with
          | None => None
          | Some b => match offsetOf b, releaseIn Offs it w with Some o, Some (_, w) => Some (Some (offset o), ok, w) | _, _ => None end
          end
        else Some (None, ok, w)
      end.
  (* profile.c:177-197 fiftyoneDegreesProfileGetByProfileId *)
  Definition ProfileGetByProfileId (id : Z) (it : item) (w : world) : option (option (list Z) * bool * item * world) :=
    match ProfileGetOffsetForProfileId id w with
    | None => None
    | Some (Some o, true, w) => get Profs o true it w
    | Some (_, ok, w) => Some (None, ok, it, w)
    end.
  (* profile.c:199-224 fiftyoneDegreesProfileGetByIndex *)
  Definition ProfileGetByIndex (index : Z) (it : item) (w : world) : option (option (list Z) * bool * item * world) :=
    match get Offs index true newItem w with
    | None => None
    | Some (Some ob, _, oit, w) =>
      match offsetOf ob with
      | None => None
      | Some o =>
        match get Profs (offset o) true it w with
        | None => None
        | Some (b, ok, it, w) => match releaseIn Offs oit w with Some (_, w) => Some (b, ok, it, w) | None => None end
        end
      end
    | Some (None, ok, _, w) => Some (None, ok, it, w)
    end.
End Calls.
