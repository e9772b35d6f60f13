(* properties.c.  The source of names is the list of the names of the data set:
   the get method returns the name at an index, or NULL from the end of the list
   on, and the evidence method the same array each time.  Texts are the lists of
   their characters (StringModel); the size of a String is the length of its text
   plus one, so texts are shorter than 2^15-1, and there are fewer than 2^31
   properties.  References to names taken from and given back to their collection
   are recorded in the order in which it happens.  Not modelled: Malloc failing,
   source methods that answer differently when asked again, delayExecution. *)
From Verif Require Export StringModel.

(* references to names taken and given back *)
Inductive Event := Got (i : nat) | Released (i : nat).

(* tolower of the C locale for an unsigned char, as strcasecmp uses it *)
Definition lowerUnsigned (c : Z) : Z := tolower (c mod 256).
(* strncasecmp (_strnicmp, properties.h:126): a text ends at its zero *)
Fixpoint strncasecmp (a b : list Z) (n : nat) : Z :=
  match n with
  | O => 0
  | S n' =>
    let x := hd 0%Z a in let y := hd 0%Z b in
    let d := (lowerUnsigned x - lowerUnsigned y)%Z in
    if negb (Z.eqb d 0) then d else if Z.eqb x 0 then 0 else strncasecmp (tl a) (tl b) n'
  end%Z.
(* strcasecmp (_stricmp, properties.h:125) *)
Fixpoint strcasecmp (a b : list Z) : Z :=
  match a, b with
  | x :: a', y :: b' =>
    let d := (lowerUnsigned x - lowerUnsigned y)%Z in
    if Z.eqb d 0 then strcasecmp a' b' else d
  | [], y :: _ => - lowerUnsigned y
  | x :: _, [] => lowerUnsigned x
  | [], [] => 0
  end%Z.

(* properties.c:117-143 getPropertyIndex; rest: the names from index i on *)
Fixpoint getPropertyIndexFrom (rest : list (list Z)) (i : nat) (required : list Z) : Z * list Event :=
  match rest with
  | [] => ((-1)%Z, [])
  | test :: rest' =>
    if (Nat.eqb (length test) (length required) && Z.eqb (strncasecmp test required (length required)) 0)%bool
    then (Z.of_nat i, [Got i; Released i])
    else match getPropertyIndexFrom rest' (S i) required with (r, t) => (r, Got i :: Released i :: t) end
  end.
(* properties.c:117-143 getPropertyIndex *)
Definition getPropertyIndex (names : list (list Z)) (required : list Z) : Z * list Event :=
  getPropertyIndexFrom names 0 required.

(* properties.c:27,173-189: the names between separators.  s: from end + 1 on;
   property: what is between property and end.  The terminator is in separators
   too. *)
Definition isSeparator (c : Z) : bool := (Z.eqb c 124 || Z.eqb c 44 || Z.eqb c 32)%bool.
(* properties.c:167-190 the loop of iteratePropertiesFromString *)
Fixpoint splitFrom (s property : list Z) : list (list Z) :=
  match s with
  | [] => [property]
  | c :: rest => if isSeparator c then property :: splitFrom rest [] else splitFrom rest (property ++ [c])
  end.

(* properties.c:145-165, 167-190, 192-208: the indexes given to the match method,
   for the names of an existing list, of a string and of an array *)
Fixpoint iterateProperties (names : list (list Z)) (required : list (list Z)) : list nat * list Event :=
  match required with
  | [] => ([], [])
  | r :: rest =>
    match getPropertyIndex names r, iterateProperties names rest with
    | (i, t), (l, t') => (if Z.leb 0 i then Z.to_nat i :: l else l, t ++ t')
    end
  end.

(* properties.c:96-115 resultsContain, addRequiredProperty; None: a write outside
   the memory *)
Definition addRequiredProperty (capacity : nat) (items : list nat) (i : nat) : option (list nat) :=
  if existsb (Nat.eqb i) items then Some items
  else if Nat.ltb (length items) capacity then Some (items ++ [i]) else None.
(* properties.c:109-115 addRequiredProperty for each *)
Fixpoint addAll (capacity : nat) (l items : list nat) : option (list nat) :=
  match l with
  | [] => Some items
  | i :: rest => match addRequiredProperty capacity items i with Some items' => addAll capacity rest items' | None => None end
  end.

(* properties.c:49-60 countAvailableProperties *)
Fixpoint countFrom (names : list (list Z)) (i : nat) : nat * list Event :=
  match names with
  | [] => (i, [])
  | _ :: rest => match countFrom rest (S i) with (n, t) => (n, Got i :: Released i :: t) end
  end.

(* properties.h:145-159 fiftyoneDegreesPropertyAvailable.  reference: the index at
   which the name was taken *)
Record PropertyAvailable := mkAvailable { propertyIndex : Z; name : list Z; reference : nat; evidenceProperties : list nat }.

(* properties.h:171-183 fiftyoneDegreesPropertiesRequired *)
Record PropertiesRequired := mkRequired { array : option (list (list Z)); string : option (list Z); existing : option (list PropertyAvailable) }.

(* a write outside the array, NULL, or the list *)
Inductive Outcome := Outside | Null | Created (items : list PropertyAvailable).

(* properties.c:210-314: the indexes of the items (None: a write outside the
   memory; Some None: NULL) *)
Definition initFromNames (names required : list (list Z)) (nullIfNone : bool) : option (option (list nat)) * list Event :=
  (* properties.c:210-219 count, 251-254 *)
  match iterateProperties names required with (counted, t) =>
    if (nullIfNone && Nat.eqb (length counted) 0)%bool then (Some None, t)
    else match iterateProperties names required with (matched, t') =>
           (option_map Some (addAll (length counted) matched []), t ++ t')
         end
  end.
(* properties.c:302-314 initAllProperties *)
Definition initAllProperties (names : list (list Z)) : option (option (list nat)) * list Event :=
  match countFrom names 0 with (count, t) => (Some (Some (seq 0 count)), t) end.
(* properties.c:416-446 *)
Definition initItems (names : list (list Z)) (properties : option PropertiesRequired) : option (option (list nat)) * list Event :=
  match properties with
  | Some p =>
    match existing p, array p, string p with
    | Some l, _, _ => initFromNames names (map name l) false
    | None, Some (a :: l), _ => initFromNames names (a :: l) false
    | None, _, Some (c :: s) => initFromNames names (splitFrom (c :: s) []) true
    | None, _, _ => initAllProperties names
    end
  | None => initAllProperties names
  end.

(* properties.c:316-326 setPropertyNames, 328-353 setEvidenceProperties.  None: an
   index without a name *)
Fixpoint setPropertyNames (names : list (list Z)) (evidence : nat -> list nat) (items : list nat) : option (list PropertyAvailable) :=
  match items with
  | [] => Some []
  | i :: rest =>
    match nth_error names i, setPropertyNames names evidence rest with
    | Some n, Some l => Some (mkAvailable (Z.of_nat i) n i (evidence i) :: l)
    | _, _ => None
    end
  end.

(* properties.c:355-362 comparePropertyNamesAscending *)
Definition comparePropertyNamesAscending (a b : PropertyAvailable) : Z := strcasecmp (name a) (name b).

(* properties.c:388-397: the indexes are set again from the names *)
Fixpoint resetIndexes (names : list (list Z)) (items : list PropertyAvailable) : list PropertyAvailable * list Event :=
  match items with
  | [] => ([], [])
  | x :: rest =>
    match getPropertyIndex names (name x), resetIndexes names rest with
    | (i, t), (l, t') => (mkAvailable (i mod 2 ^ 32) (name x) (reference x) (evidenceProperties x) :: l, t ++ t')
    end
  end.

(* properties.c:407-455 fiftyoneDegreesPropertiesCreate, 374-398
   initRequiredProperties.  qsort: the function of the C library. *)
Definition PropertiesCreate (qsort : (PropertyAvailable -> PropertyAvailable -> Z) -> list PropertyAvailable -> list PropertyAvailable)
    (names : list (list Z)) (evidence : nat -> list nat) (properties : option PropertiesRequired) : Outcome * list Event :=
  match initItems names properties with
  | (None, t) => (Outside, t)
  | (Some None, t) => (Null, t)
  | (Some (Some items), t) =>
    match setPropertyNames names evidence items with
    | None => (Outside, t)
    | Some l =>
      match resetIndexes names (qsort comparePropertyNamesAscending l) with
      | (l', t') => (Created l', t ++ map Got items ++ t')
      end
    end
  end.

(* properties.c:457-465 fiftyoneDegreesPropertiesGetPropertyIndexFromRequiredIndex *)
Definition PropertiesGetPropertyIndexFromRequiredIndex (available : list PropertyAvailable) (requiredPropertyIndex : Z) : Z :=
  if (Z.leb 0 requiredPropertyIndex && Z.ltb requiredPropertyIndex (Z.of_nat (length available)))%bool
  then match nth_error available (Z.to_nat requiredPropertyIndex) with Some x => propertyIndex x | None => (-1)%Z end
  else (-1)%Z.

(* bsearch of glibc (bits/stdlib-bsearch.h): the items from l up to u, compared
   with the key.  None: the fuel is used up. *)
Fixpoint bsearch (fuel : nat) (compare : PropertyAvailable -> Z) (items : list PropertyAvailable) (l u : nat) : option (option nat) :=
  match fuel with
  | 0 => None
  | S fuel' =>
    if Nat.ltb l u then
      let idx := (l + u) / 2 in
      match nth_error items idx with
      | None => None
      | Some x =>
        let comparison := compare x in
        if Z.ltb comparison 0 then bsearch fuel' compare items l idx
        else if Z.ltb 0 comparison then bsearch fuel' compare items (S idx) u
        else Some (Some idx)
      end
    else Some None
  end.

(* properties.c:401-405 comparePropertyNamesAscendingSearch, 467-486
   fiftyoneDegreesPropertiesGetRequiredPropertyIndexFromName *)
Definition PropertiesGetRequiredPropertyIndexFromName (available : list PropertyAvailable) (propertyName : list Z) : option Z :=
  match bsearch (S (length available)) (fun x => StringCompare propertyName (name x)) available 0 (length available) with
  | None => None
  | Some None => Some (-1)%Z
  | Some (Some i) => Some (Z.of_nat i)
  end.

(* properties.c:488-502 fiftyoneDegreesPropertiesGetPropertyIndexFromName *)
Definition PropertiesGetPropertyIndexFromName (available : list PropertyAvailable) (propertyName : list Z) : option Z :=
  match PropertiesGetRequiredPropertyIndexFromName available propertyName with
  | None => None
  | Some i => Some (if Z.leb 0 i then PropertiesGetPropertyIndexFromRequiredIndex available i else (-1)%Z)
  end.

(* properties.c:504-508 fiftyoneDegreesPropertiesGetNameFromRequiredIndex; None: a
   read outside the array *)
Definition PropertiesGetNameFromRequiredIndex (available : list PropertyAvailable) (i : Z) : option (list Z) :=
  if Z.ltb i 0 then None else option_map name (nth_error available (Z.to_nat i)).

(* properties.c:510-520 fiftyoneDegreesPropertiesIsSetHeaderAvailable *)
Definition SET_HEADER : list Z := [83; 101; 116; 72; 101; 97; 100; 101; 114]%Z.
(* properties.c:510-520 fiftyoneDegreesPropertiesIsSetHeaderAvailable *)
Definition PropertiesIsSetHeaderAvailable (available : list PropertyAvailable) : bool :=
  existsb (fun x => match StringSubString (name x) SET_HEADER with Some 0 => true | _ => false end) available.

(* properties.c:522-538 fiftyoneDegreesPropertiesFree: the references given back *)
Definition PropertiesFree (available : list PropertyAvailable) : list Event :=
  map (fun x => Released (reference x)) available.
