(* The structures of a data file as the code reads them from the bytes a
   collection gives: headers of collections (collection.c), strings (string.h),
   properties (property.c), values (value.c), profiles and their offsets
   (profile.c).  The structures are packed and little endian.  None: undefined
   behaviour, that is reading bytes that are not there or were never set.
   The exception is not NULL and clear when a function is called. *)
From Verif Require Import SearchModel CollectionModel ProfileModel.
From Verif Require ComponentModel ValueModel.
Local Open Scope Z_scope.

(* a member of a structure *)
Definition member : nat -> nat -> list Z -> option Z := ComponentModel.member.

(* collection.c:732-757 and 812-835, fiftyoneDegreesCollectionHeaderFromMemory and
   FromFile at a position: the header, after which the collection starts.  Without
   four bytes the count and length are not set; the position becomes a uint32_t.  (From
   memory the position is only that of the header: the collection is where the reader
   is.  That is the same below 2^32.) *)
Definition HeaderFrom (file : list Z) (pos : nat) (elementSize : Z) (isCount : bool) : option header :=
  option_map (fun n => headerFrom (Z.to_nat (Z.of_nat (pos + 4) mod 2 ^ 32)) elementSize n isCount) (member pos 4 file).
(* collection.c:1230-1236 fiftyoneDegreesCollectionGetCount: the count of the last
   collection of the chain *)
Fixpoint CollectionGetCount (c : coll) : Z :=
  match c with
  | Mem ci _ | File ci _ | Cached ci _ _ => ccount ci
  | Partial _ _ (Some next) => CollectionGetCount next
  | Partial ci _ None => ccount ci
  end.

(* ---- strings ---- *)
(* string.h:114-119 fiftyoneDegreesString: the characters from value up to the zero *)
Fixpoint cString (bytes : list Z) : option (list Z) :=
  match bytes with
  | [] => None
  | c :: rest => if c =? 0 then Some [] else option_map (cons c) (cString rest)
  end.
(* string.h:114-119: value comes after the size *)
Definition textOf (bytes : list Z) : option (list Z) := if (length bytes <? 2)%nat then None else cString (skipn 2 bytes).
(* string.c:32-46 fiftyoneDegreesStringRead *)
Definition stringKind : kind := VarSize 2 ValueModel.getFinalStringSize.

(* ---- properties ---- *)
(* sizeof(Property), property.h:86-113 *)
Definition sizeofProperty : Z := 44.
(* property.h:94 *)
Definition valueType := member 7 1.
(* property.h:95-96 *)
Definition defaultValueIndex := member 8 4.
(* property.h:97-98 *)
Definition propertyNameOffset := member 12 4.
(* property.h:99-100 *)
Definition propertyDescriptionOffset := member 16 4.
(* property.h:101-102 *)
Definition categoryOffset := member 20 4.
(* property.h:103-104 *)
Definition propertyUrlOffset := member 24 4.
(* property.h:105 *)
Definition firstValue := member 28 4.
(* property.h:106 *)
Definition lastValue := member 32 4.
(* what profile.c and value.c use of a property *)
Definition propertyOf (bytes : list Z) : option Property :=
  match propertyNameOffset bytes, firstValue bytes, lastValue bytes with
  | Some n, Some f, Some l => Some (mkProperty n f l)
  | _, _, _ => None
  end.

(* ---- values ---- *)
(* sizeof(Value), value.h:72-80 *)
Definition sizeofValue : Z := 14.
(* value.h:74-75; an int32_t that is converted to uint32_t *)
Definition valueNameOffset := member 2 4.
(* value.h:76-77 *)
Definition valueDescriptionOffset := member 6 4.
(* value.h:78-79 *)
Definition valueUrlOffset := member 10 4.

(* ---- profiles ---- *)
(* sizeof(Profile), profile.h:88-93 *)
Definition sizeofProfile : nat := 9.
(* profile.h:91 *)
Definition profileIdOf := member 1 4.
(* profile.h:92 *)
Definition valueCount := member 5 4.
(* n words of memory *)
Fixpoint words (n : nat) (bytes : list Z) : option (list Z) :=
  match n with
  | O => Some []
  | S n' =>
    match member 0 4 bytes, words n' (skipn 4 bytes) with
    | Some w, Some rest => Some (w :: rest)
    | _, _ => None
    end
  end.
(* all the whole words of memory *)
Definition allWords (bytes : list Z) : list Z :=
  match words (length bytes / 4) bytes with Some l => l | None => [] end.
(* profile.c:84, 114: the values start after the structure *)
Definition profileOf (bytes : list Z) : option Profile :=
  match valueCount bytes with
  | None => None
  | Some n =>
    match words (Z.to_nat n) (skipn sizeofProfile bytes) with
    | None => None
    | Some vs => Some (mkProfile vs (allWords (skipn (sizeofProfile + 4 * Z.to_nat n) bytes)))
    end
  end.
(* profile.c:27-31 getFinalProfileSize; the count is there as the first 9 bytes were read *)
Definition getFinalProfileSize (initial : list Z) : Z :=
  match valueCount initial with Some n => (Z.of_nat sizeofProfile + n * 4) mod 2 ^ 32 | None => 0 end.
(* profile.c:229-243 fiftyoneDegreesProfileReadFromFile *)
Definition profileKind : kind := VarSize sizeofProfile getFinalProfileSize.
(* sizeof(ProfileOffset), profile.h:103-106 *)
Definition sizeofOffset : Z := 8.
(* profile.h:103-106 *)
Definition offsetOf (bytes : list Z) : option ProfileOffset :=
  match member 0 4 bytes, member 4 4 bytes with
  | Some i, Some o => Some (mkOffset i o)
  | _, _ => None
  end.

(* ---- functions ---- *)
Section Functions.
  Variable getString : Z -> option (list Z) * bool.      (* strings->get and whether the exception is clear *)
  Variable getProperty : Z -> option (list Z) * bool.    (* properties->get: the bytes *)

  (* property.c:38-48, 50-60, 62-72, 74-84: the string at the offset of a member *)
  Definition PropertyGetName (property : list Z) : option (option (list Z) * bool) := option_map getString (propertyNameOffset property).
  (* property.c:50-60 *)
  Definition PropertyGetDescription (property : list Z) : option (option (list Z) * bool) := option_map getString (propertyDescriptionOffset property).
  (* property.c:62-72 *)
  Definition PropertyGetCategory (property : list Z) : option (option (list Z) * bool) := option_map getString (categoryOffset property).
  (* property.c:74-84 *)
  Definition PropertyGetUrl (property : list Z) : option (option (list Z) * bool) := option_map getString (propertyUrlOffset property).
  (* property.c:147-161 fiftyoneDegreesPropertyGetValueType: the type, whether the
     exception is clear, and the gets and releases *)
  Definition PropertyGetValueType (index : Z) : option (Z * bool * list ev) :=
    match getProperty index with
    | (Some property, true) => option_map (fun t => (t, true, [Got Properties index; Released Properties Properties index])) (valueType property)
    | (Some _, false) => Some (0, false, [Got Properties index])
    | (None, ok) => Some (0, ok, [])
    end.
  (* value.c:158-164 *)
  Definition ValueGetName (value : list Z) : option (option (list Z) * bool) := option_map getString (valueNameOffset value).
  (* value.c:166-176 *)
  Definition ValueGetDescription (value : list Z) : option (option (list Z) * bool) := option_map getString (valueDescriptionOffset value).
  (* value.c:178-184 *)
  Definition ValueGetUrl (value : list Z) : option (option (list Z) * bool) := option_map getString (valueUrlOffset value).
End Functions.
