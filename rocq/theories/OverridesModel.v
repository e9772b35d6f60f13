(* overrides.c.  Texts are the lists of their non zero characters.  The memory of
   an override value (a String: int16 size, characters, terminator) is a list of
   bytes; an access outside an array or memory, or through NULL, is None.  Not
   modelled: failing memory allocation, texts of 2^32 - 11 and more characters (the
   uint32 allocated size), and values of sign of the characters beyond isdigit. *)
From Verif Require Export PseudoModel.

(* overrides.h:91-98 fiftyoneDegreesOverrideValue: ovString is string.ptr with
   string.allocated bytes, None: NULL and 0. *)
Record OverrideValue := mkOverride { ovIndex : Z; ovString : option (list Z) }.
(* The array: capacity items, count of them in use. *)
Record OverrideValues := mkValues { vCount : nat; vItems : list OverrideValue }.

(* data.c:33-49 fiftyoneDegreesDataMalloc; new memory is indeterminate, here 0 *)
Definition DataMalloc (data : option (list Z)) (bytesNeeded : nat) : list Z :=
  match data with
  | Some m => if Nat.ltb (length m) bytesNeeded then repeat 0%Z bytesNeeded else m
  | None => repeat 0%Z bytesNeeded
  end.

(* string.h:109-119: packed, so 2 + 1 + 2 * 4 *)
Definition sizeofString : nat := 11.
(* the bytes of an int16, low byte first *)
Definition int16Bytes (n : nat) : list Z := [Z.of_nat n mod 256; (Z.of_nat n / 256) mod 256]%Z.

(* overrides.c:143-149: the first item of the index, or count *)
Fixpoint findOverride (l : list OverrideValue) (index : Z) : nat :=
  match l with
  | [] => 0
  | x :: rest => if Z.eqb (ovIndex x) index then 0 else S (findOverride rest index)
  end.
(* an array element is assigned *)
Definition setOverride (l : list OverrideValue) (i : nat) (x : OverrideValue) : list OverrideValue := firstn i l ++ x :: skipn (S i) l.

(* overrides.c:129-169 fiftyoneDegreesOverridesAdd *)
Definition OverridesAdd (values : OverrideValues) (requiredPropertyIndex : Z) (value : list Z) : option (OverrideValues * bool) :=
  if (Z.leb 0 requiredPropertyIndex && Nat.ltb (vCount values) (length (vItems values)))%bool then
    let current := findOverride (firstn (vCount values) (vItems values)) requiredPropertyIndex in
    match nth_error (vItems values) current with
    | None => None
    | Some o =>
      let count := if Nat.eqb current (vCount values) then S (vCount values) else vCount values in
      let index := if Nat.eqb current (vCount values) then requiredPropertyIndex else ovIndex o in
      let copy := DataMalloc (ovString o) (sizeofString + length value) in
      match write copy 2 (value ++ [0%Z]) with
      | None => None
      | Some copy1 =>
        match write copy1 0 (int16Bytes (length value + 1)) with
        | None => None
        | Some copy2 =>
          Some (mkValues count (setOverride (vItems values) current (mkOverride index (Some copy2))), Nat.ltb count (length (vItems values)))
        end
      end
    end
  else Some (values, Nat.ltb (vCount values) (length (vItems values))).

(* overrides.c:216-230 fiftyoneDegreesOverrideValuesCreate *)
Definition OverrideValuesCreate (capacity : nat) : OverrideValues := mkValues 0 (repeat (mkOverride 0%Z None) capacity).

(* overrides.c:389-404 fiftyoneDegreesOverrideValuesReset *)
Definition OverrideValuesReset (values : OverrideValues) : OverrideValues :=
  mkValues 0 (map (fun x => match ovString x with
                            | Some m => mkOverride 0%Z (Some (repeat 0%Z (length m)))
                            | None => x end) (vItems values)).

(* overrides.c:273-297 fiftyoneDegreesOverrideValuesGetFirst: the memory of the
   String, None: NULL *)
Fixpoint getFirst (l : list OverrideValue) (index : Z) : option (list Z) :=
  match l with
  | [] => None
  | x :: rest => if Z.eqb (ovIndex x) index then ovString x else getFirst rest index
  end.
(* overrides.c:273-297 fiftyoneDegreesOverrideValuesGetFirst *)
Definition OverrideValuesGetFirst (values : OverrideValues) (index : Z) : option (list Z) := getFirst (firstn (vCount values) (vItems values)) index.

(* overrides.c:299-315 fiftyoneDegreesOverrideHasValueForRequiredPropertyIndex *)
Definition OverrideHasValue (values : OverrideValues) (index : Z) : bool :=
  existsb (fun x => Z.eqb (ovIndex x) index) (firstn (vCount values) (vItems values)).

(* overrides.c:317-352 fiftyoneDegreesOverrideValuesAdd: the list (list.c:40-46)
   with room for room more items and the strings in it *)
Fixpoint valuesAdd (l : list OverrideValue) (index : Z) (room : nat) (out : list (option (list Z))) (count : nat) : list (option (list Z)) * nat :=
  match room, l with
  | S r, x :: rest =>
    if Z.eqb (ovIndex x) index then valuesAdd rest index r (out ++ [ovString x]) (count + 1) else valuesAdd rest index room out count
  | _, _ => (out, count)
  end.
(* overrides.c:317-352 fiftyoneDegreesOverrideValuesAdd *)
Definition OverrideValuesAdd (values : OverrideValues) (index : Z) (capacity : nat) (l : list (option (list Z))) : list (option (list Z)) * nat :=
  valuesAdd (firstn (vCount values) (vItems values)) index (capacity - length l) l 0.

(* overrides.c:50 OVERRIDE_PREFIX "51D_" *)
Definition OVERRIDE_PREFIX : list Z := [53; 49; 68; 95]%Z.
(* overrides.c:95-105 skipPrefix; sizeof(OVERRIDE_PREFIX) is 5 *)
Definition skipPrefix (prefixed : bool) (f : list Z) : list Z :=
  if (prefixed && Nat.ltb 5 (length f) &&
      match StringCompareLength 4 (cstr f) (cstr OVERRIDE_PREFIX) with Some d => Z.eqb d 0 | None => false end)%bool
  then skipn 4 f else f.

(* overrides.h:81-89,100-108: the properties that can be overridden, their names
   and indexes in the available properties *)
Record OverrideProperties := mkProperties { oPrefix : bool; oItems : list (list Z * Z) }.

(* overrides.c:186-214,232-247 fiftyoneDegreesOverridePropertiesCreate: None: NULL *)
Fixpoint addOverridable (available : list (list Z)) (i : Z) (filter : Z -> bool) : list (list Z * Z) :=
  match available with
  | [] => []
  | n :: rest => (if filter i then [(n, i)] else []) ++ addOverridable rest (i + 1) filter
  end.
(* overrides.c:232-247 fiftyoneDegreesOverridePropertiesCreate *)
Definition OverridePropertiesCreate (available : list (list Z)) (prefix : bool) (filter : Z -> bool) : option OverrideProperties :=
  match addOverridable available 0 filter with
  | [] => None
  | l => Some (mkProperties prefix l)
  end.

(* overrides.c:107-127 getRequiredPropertyIndexFromName *)
Fixpoint indexOfName (l : list (list Z * Z)) (n : list Z) : Z :=
  match l with
  | [] => (-1)%Z
  | (m, i) :: rest => if Z.eqb (StringCompare m n) 0 then i else indexOfName rest n
  end.
(* overrides.c:107-127 getRequiredPropertyIndexFromName *)
Definition getRequiredPropertyIndexFromName (ps : OverrideProperties) (n : list Z) : Z := indexOfName (oItems ps) (skipPrefix (oPrefix ps) n).

(* overrides.c:172-184 addOverrideToResults: the state is None after an invalid
   access *)
Definition addOverrideToResults (ps : OverrideProperties) (values : option OverrideValues) (pair : Pair) : bool * option OverrideValues :=
  match values with
  | None => (false, None)
  | Some vs =>
    let i := getRequiredPropertyIndexFromName ps (field pair) in
    match parsedValue pair with
    | Some v => match OverridesAdd vs i v with Some (vs', b) => (b, Some vs') | None => (false, None) end
    | None => (* strlen(NULL) if it is stored *)
      if (Z.leb 0 i && Nat.ltb (vCount vs) (length (vItems vs)))%bool then (false, None)
      else (Nat.ltb (vCount vs) (length (vItems vs)), Some vs)
    end
  end.
(* overrides.c:254-271 fiftyoneDegreesOverridesExtractFromEvidence: the evidence,
   the values and the count; COOKIE | QUERY is 24 *)
Definition OverridesExtractFromEvidence (ps : OverrideProperties) (values : OverrideValues) (evidence : Evidence)
  : Evidence * option OverrideValues * nat :=
  EvidenceIterate (addOverrideToResults ps) evidence 24 (Some values).

(* overrides.c:68-87 startsWith: size is the length with the terminator *)
Fixpoint sameBeginning (s p : list Z) : bool :=
  match s, p with
  | _, [] => true
  | x :: s', y :: p' => if Z.eqb x y then sameBeginning s' p' else false
  | [], _ :: _ => false
  end.
(* overrides.c:68-93 startsWith *)
Definition startsWith (s p : list Z) : bool := (Nat.ltb (length p + 1) (length s + 1) && sameBeginning s p)%bool.
(* overrides.c:354-371 fiftyoneDegreesOverridesGetOverridingRequiredPropertyIndex:
   None: -1 *)
Fixpoint overridingFrom (l : list (list Z)) (i : nat) (index : nat) (n : list Z) : option nat :=
  match l with
  | [] => None
  | m :: rest => if (negb (Nat.eqb i index) && startsWith m n)%bool then Some i else overridingFrom rest (S i) index n
  end.
(* overrides.c:354-371 fiftyoneDegreesOverridesGetOverridingRequiredPropertyIndex *)
Definition OverridesGetOverridingRequiredPropertyIndex (available : list (list Z)) (index : nat) : option nat :=
  match nth_error available index with
  | None => None (* outside the array *)
  | Some n => overridingFrom available 0 index n
  end.

(* isdigit, only for characters that are not negative (overrides.c:407,418) *)
Definition isdigit (c : Z) : bool := (Z.leb 48 c && Z.leb c 57)%bool.
(* atoi of glibc on a 64 bit system: strtol, which stops at LONG_MAX, cut to int.
   The texts passed start with a digit. *)
Fixpoint strtol (s : list Z) (n : Z) : Z :=
  match s with
  | [] => n
  | c :: rest => if isdigit c then strtol rest (Z.min (10 * n + (c - 48)) 9223372036854775807)%Z else n
  end.
(* atoi of the C library *)
Definition atoi (s : list Z) : Z := toInt (strtol s 0).

(* overrides.c:406-413 extractProfileId, 415-425 extractProfileIds: the ids
   passed to the callback *)
Definition extractProfileId (value : list Z) : list Z :=
  match value with
  | c :: _ => if isdigit c then let id := atoi value in if Z.leb 0 id then [id] else [] else []
  | [] => []
  end.
(* overrides.c:415-425 the loop of extractProfileIds *)
Fixpoint extractLoop (current previous : list Z) : list Z :=
  match current with
  | [] => extractProfileId previous
  | c :: rest => if isdigit c then extractLoop rest previous else extractProfileId previous ++ extractLoop rest rest
  end.
(* overrides.c:415-425 extractProfileIds *)
Definition extractProfileIds (value : list Z) : list Z := extractLoop value value.

(* overrides.c:427-451 iteratorProfileId, fiftyoneDegreesOverrideProfileIds: the
   ids passed to the callback so far; None after strlen(NULL) *)
Definition PROFILE_IDS : list Z := [80; 114; 111; 102; 105; 108; 101; 73; 100; 115]%Z.
(* overrides.c:427-434 iteratorProfileId *)
Definition iteratorProfileId (ids : option (list Z)) (pair : Pair) : bool * option (list Z) :=
  (true, if Z.eqb (StringCompare (skipPrefix true (field pair)) PROFILE_IDS) 0 then
           match ids, parsedValue pair with
           | Some l, Some v => Some (l ++ extractProfileIds v)
           | _, _ => None
           end
         else ids).
(* overrides.c:436-449 fiftyoneDegreesOverrideProfileIds *)
Definition OverrideProfileIds (evidence : Evidence) : Evidence * option (list Z) * nat :=
  EvidenceIterate iteratorProfileId evidence 24 (Some []).
