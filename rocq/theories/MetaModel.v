(* The C++ classes for meta data, exceptions, collection settings and dates:
   ValueMetaData.cpp, ProfileMetaData.cpp, ComponentMetaData.cpp,
   PropertyMetaData.cpp, EntityMetaData.hpp, MetaData.cpp, Exceptions.cpp,
   CollectionConfig.cpp, Date.cpp and bool.c.

   Texts are lists of characters 0 to 255.  Texts of std::string are values, so
   copies share nothing.  None is undefined behaviour unless said otherwise. *)
From Verif Require Export StatusModel.
From Verif Require ItemModel.
Local Open Scope Z_scope.

(* std::string operator==: the same characters *)
Fixpoint strEq (a b : list Z) : bool :=
  match a, b with
  | [], [] => true
  | x :: a', y :: b' => Z.eqb x y && strEq a' b'
  | _, _ => false
  end.
(* std::string operator<: characters compared as unsigned, then the lengths *)
Fixpoint strLess (a b : list Z) : bool :=
  match a, b with
  | _, [] => false
  | [], _ :: _ => true
  | x :: a', y :: b' => if Z.eqb x y then strLess a' b' else Z.ltb x y
  end.

(* ValueMetaData.hpp ValueMetaDataKey *)
Record key := mkKey { propertyName : list Z; valueName : list Z }.
(* ValueMetaData.cpp:29-33 *)
Definition defaultKey : key := mkKey (text "invalid") (text "invalid").
(* ValueMetaData.cpp:62-68 operator<; k is this *)
Definition keyLess (k other : key) : bool :=
  if strEq (propertyName other) (propertyName k) then strLess (valueName other) (valueName k)
  else strLess (propertyName other) (propertyName k).
(* ValueMetaData.cpp:76-79 operator== *)
Definition keyEq (k other : key) : bool :=
  strEq (propertyName other) (propertyName k) && strEq (valueName other) (valueName k).

(* EntityMetaData.hpp:81-83 operator== over the comparison of keys; k is the key of this *)
Definition entityEq {K} (eq : K -> K -> bool) (k other : K) : bool := eq other k.
(* EntityMetaData.hpp:91-93 operator!= *)
Definition entityNe {K} (eq : K -> K -> bool) (k other : K) : bool := negb (eq other k).

(* a byte *)
Definition toByte (z : Z) : Z := z mod 256.

(* ValueMetaData.hpp: the members *)
Record ValueMetaData := mkValue { vkey : key; vdescription : list Z; vurl : list Z }.
(* ValueMetaData.cpp:94-100 *)
Definition newValue (k : key) (description url : list Z) := mkValue k description url.
(* ValueMetaData.cpp:81-86 *)
Definition defaultValueMetaData := newValue defaultKey (text "invalid") (text "invalid").
(* ValueMetaData.cpp:88-92 *)
Definition copyValue (v : ValueMetaData) := newValue (vkey v) (vdescription v) (vurl v).
(* ValueMetaData.cpp:102-104 *)
Definition valueGetName (v : ValueMetaData) : list Z := valueName (vkey v).

(* ProfileMetaData.hpp: the members *)
Record ProfileMetaData := mkProfile { profileId : Z; pcomponentId : Z }.
(* ProfileMetaData.cpp:34-38; the second parameter is a byte *)
Definition newProfile (id componentId : Z) := mkProfile id (toByte componentId).
(* ProfileMetaData.cpp:28-32 *)
Definition defaultProfile := newProfile 0 (toByte (-1)).
(* ProfileMetaData.cpp:40-44 *)
Definition copyProfile (p : ProfileMetaData) := newProfile (profileId p) (pcomponentId p).

(* ComponentMetaData.hpp: the members *)
Record ComponentMetaData := mkComponent { componentKey : Z; cname : list Z; defaultProfileId : Z }.
(* ComponentMetaData.cpp:40-46 *)
Definition newComponent (id : Z) (name : list Z) (profile : Z) := mkComponent (toByte id) name profile.
(* ComponentMetaData.cpp:27-32 *)
Definition defaultComponent := newComponent (toByte (-1)) (text "invalid") 0.
(* ComponentMetaData.cpp:34-38 *)
Definition copyComponent (c : ComponentMetaData) := newComponent (componentKey c) (cname c) (defaultProfileId c).
(* ComponentMetaData.cpp:48-50 *)
Definition getComponentIdAsInt (c : ComponentMetaData) : Z := componentKey c.

(* PropertyMetaData.hpp:216-264: the members; displayOrder is a byte *)
Record PropertyMetaData := mkProperty {
  name : list Z; dataFilesWherePresent : list (list Z); type : list Z; category : list Z; url : list Z;
  available : bool; displayOrder : Z; isMandatory : bool; isList : bool; isObsolete : bool; show : bool;
  showValues : bool; description : list Z; defaultValue : list Z; componentId : Z; evidenceProperties : list Z }.
(* PropertyMetaData.cpp:67-99; displayOrder and componentId are bytes *)
Definition newProperty name files type category url available order mandatory list obsolete show showValues
  description default component evidence :=
  mkProperty name files type category url available (toByte (toByte order)) mandatory list obsolete show showValues
    description default (toByte component) evidence.
(* PropertyMetaData.cpp:27-45 *)
Definition defaultProperty :=
  newProperty (text "invalid") [] (text "invalid") (text "invalid") (text "invalid") false (-1) false false false
    false false (text "invalid") (text "invalid") (-1) [].
(* PropertyMetaData.cpp:47-65 *)
Definition copyProperty (p : PropertyMetaData) :=
  newProperty (name p) (dataFilesWherePresent p) (type p) (category p) (url p) (available p) (displayOrder p)
    (isMandatory p) (isList p) (isObsolete p) (show p) (showValues p) (description p) (defaultValue p)
    (componentId p) (evidenceProperties p).

(* MetaData.cpp:36-54 and EntityMetaDataBuilder.hpp:57-79 *)
(* std::string append of a C string: the characters before the first zero, None if
   there is none before the end of the memory *)
Fixpoint cstring (s : list Z) : option (list Z) :=
  match s with
  | [] => None
  | c :: s' => if Z.eqb c 0 then Some [] else option_map (cons c) (cstring s')
  end.
(* what getString does: the text, or an exception is thrown *)
Inductive got := Text (t : list Z) | Thrown.
(* string.c:51-61: the size (2 bytes) comes before the characters, string.h
   fiftyoneDegreesString *)
Definition valueOffset : nat := 2.
(* MetaData.cpp:36-54; content is what the read puts in the memory of the item.  Reads
   from a file that fail set the exception (collection.c 979-1105); nothing was
   allocated then *)
Definition getString (m : ItemModel.mem) (w : ItemModel.way) (content : list Z) : option (ItemModel.mem * got) :=
  match ItemModel.getFile m (ItemModel.mkItem ItemModel.DataReset None) w with
  | None => None
  | Some (m1, _, None) => Some (m1, Thrown)
  | Some (m1, it, Some p) =>
    match cstring (skipn valueOffset content) with
    | None => None
    | Some t =>
      match ItemModel.releaseFile m1 it with
      | Some (m2, _) => Some (m2, Text t)
      | None => None
      end
    end
  end.

(* Exceptions.hpp: the members of StatusCodeException; code is None if it was never
   set, so that reading it is undefined *)
Record thrown := mkThrown { message : list Z; code : option Z }.
(* Exceptions.cpp:28 *)
Definition noCode : thrown := mkThrown [] None.
(* Exceptions.cpp:30-49; StatusGetMessage never returns NULL: without memory it writes
   to NULL, which is None *)
Definition StatusCodeException (status : Z) (fileName : option (list Z)) (malloc1 malloc2 : bool) : option thrown :=
  match StatusGetMessage status fileName malloc1 malloc2 with
  | Some m => Some (mkThrown (message noCode ++ m) (Some status))
  | None => None
  end.
(* Exceptions.cpp:60-67 *)
Definition FatalException (e : Exception) (malloc1 malloc2 malloc3 : bool) : option thrown :=
  match ExceptionGetMessage e malloc1 malloc2 malloc3 with
  | Some m => Some (mkThrown (message noCode ++ m) (code noCode))
  | None => None
  end.
(* Exceptions.cpp:52-54 *)
Definition what (t : thrown) : list Z := message t.
(* Exceptions.cpp:56-58 *)
Definition getCode (t : thrown) : option Z := code t.
(* Exceptions.cpp:77-79: runtime_error of NULL is undefined *)
Definition InvalidPropertyException (m : option (list Z)) : option (list Z) := m.
(* Exceptions.cpp:81-88 *)
Definition NoValuesAvailableException (m : option (list Z)) : option (list Z) :=
  match m with
  | Some t => InvalidPropertyException (Some t)
  | None => Some (text "No values are available for the property requested")
  end.

(* collection.h fiftyoneDegreesCollectionConfig: uint32, uint32 and uint16 *)
Record settings := mkSettings { loaded : Z; capacity : Z; concurrency : Z }.
(* the structures in memory, by their addresses *)
Definition configs := nat -> settings.
(* a change at an address *)
Definition change (cs : configs) (p : nat) (s : settings) : configs := fun q => if Nat.eqb q p then s else cs q.
(* CollectionConfig.cpp:42-52; each call is made with the address the object was
   constructed with *)
Inductive setting := SetCapacity (z : Z) | SetConcurrency (z : Z) | SetLoaded (z : Z).
(* the calls of the setters; parameters are cut to their types *)
Definition set1 (cs : configs) (c : nat * setting) : configs :=
  let (p, o) := c in
  let s := cs p in
  change cs p
    match o with
    | SetCapacity z => mkSettings (loaded s) (z mod 2 ^ 32) (concurrency s)
    | SetConcurrency z => mkSettings (loaded s) (capacity s) (z mod 2 ^ 16)
    | SetLoaded z => mkSettings (z mod 2 ^ 32) (capacity s) (concurrency s)
    end.
(* calls in turn *)
Definition setAll (calls : list (nat * setting)) (cs : configs) : configs := fold_left set1 calls cs.

(* date.h:58-63, packed: the date in the four bytes of the data file, on a little endian
   machine *)
Record Date := mkDate { year : Z; month : Z; day : Z }.
(* Date.cpp:33-41: the bytes of the structure copied and the getters *)
Definition dateFrom (b : list Z) : option Date :=
  match b with
  | b0 :: b1 :: b2 :: b3 :: _ =>
    let u := b0 + 256 * b1 in
    Some (mkDate (if Z.ltb u (2 ^ 15) then u else u - 2 ^ 16) b2 b3)
  | _ => None
  end.

(* bool.c:25-31 *)
Definition IntToBool (i : Z) : bool := negb (Z.eqb i 0).
Definition BoolToInt (b : bool) : Z := if b then 1 else 0.
