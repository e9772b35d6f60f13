(* profile.c, with what it uses of property.c and value.c.  Collections are
   functions: collection->get gives an item or NULL, and whether the exception is
   clear afterwards.  None is undefined: a read outside the memory, NULL used as a
   pointer, or fuel used up.  Not modelled: values that are coordinates or IP
   addresses (compareOther is any function), the exception passed as NULL. *)
From Verif Require Export SearchModel.

(* profile.h:88-93 fiftyoneDegreesProfile: the value indexes (valueCount of them),
   and what can be read in the memory after them *)
Record Profile := mkProfile { values : list Z; after : list Z }.
(* property.h:85-113: the members used here *)
Record Property := mkProperty { nameOffset : Z; firstValueIndex : Z; lastValueIndex : Z }.
(* profile.h:103-106 *)
Record ProfileOffset := mkOffset { profileId : Z; offset : Z }.
(* the words that can be read from the values of a profile on *)
Definition memory (p : Profile) : list Z := values p ++ after p.

(* profile.c:65-75 compareValueToProperty *)
Definition compareValueToProperty (property : Property) (valueIndex : Z) : Z :=
  if Z.ltb valueIndex (firstValueIndex property) then 1
  else if Z.ltb (lastValueIndex property) valueIndex then -1
  else 0.
(* bsearch of glibc (bits/stdlib-bsearch.h): the items from l up to u *)
Fixpoint bsearch (fuel : nat) (compare : Z -> Z) (items : list Z) (l u : nat) : option (option nat) :=
  match fuel with
  | O => None
  | S fuel' =>
    if Nat.ltb l u then
      let idx := (l + u) / 2 in
      match nth_error items idx with
      | None => None
      | Some x =>
        if Z.ltb (compare x) 0 then bsearch fuel' compare items l idx
        else if Z.ltb 0 (compare x) then bsearch fuel' compare items (S idx) u
        else Some (Some idx)
      end
    else Some None
  end.
(* profile.c:94-97, 124-127 *)
Fixpoint moveBack (p : Profile) (property : Property) (i : nat) : option nat :=
  match i with
  | O => Some O
  | S j =>
    match nth_error (memory p) j with
    | None => None
    | Some v => if Z.leb (firstValueIndex property) v then moveBack p property j else Some i
    end
  end.
(* profile.c:77-101 getFirstValueForProfileAndProperty *)
Definition getFirstValueForProfileAndProperty (p : Profile) (property : Property) : option (option nat) :=
  match bsearch (S (length (values p))) (compareValueToProperty property) (values p) 0 (length (values p)) with
  | None => None
  | Some None => Some None
  | Some (Some i) => option_map Some (moveBack p property i)
  end.

Section Values.
  Context {A : Type}.
  Variable get : Z -> option A * bool.
  (* what callback answers for the items given to it so far *)
  Variable callback : list A -> bool.

  (* profile.c:131-146 *)
  Fixpoint valuesLoop (fuel : nat) (p : Profile) (property : Property) (i : nat) (cont okay : bool) (called : list A) (count : Z) : option (list A * Z) :=
    if cont then
      match nth_error (memory p) i with
      | None => None
      | Some v =>
        if Z.leb v (lastValueIndex property) && Nat.ltb i (length (values p)) && okay then
          match fuel with
          | O => None
          | S fuel' =>
            match get v with
            | (Some a, true) => valuesLoop fuel' p property (S i) (callback (called ++ [a])) true (called ++ [a]) ((count + 1) mod 2 ^ 32)
            | (_, ok) => valuesLoop fuel' p property (S i) cont ok called count
            end
          end
        else Some (called, count)
      end
    else Some (called, count).
  (* profile.c:108-149 iterateValues *)
  Definition iterateValues (p : Profile) (property : Property) (valueIndex : nat) : option (list A * Z) :=
    match moveBack p property valueIndex with
    | None => None
    | Some i => valuesLoop (S (length (values p))) p property i true true [] 0
    end.
  (* profile.c:247-270 fiftyoneDegreesProfileIterateValuesForProperty: the items
     given to callback, and the count *)
  Definition ProfileIterateValuesForProperty (p : Profile) (property : Property) : option (list A * Z) :=
    match getFirstValueForProfileAndProperty p property with
    | None => None
    | Some None => Some ([], 0%Z)
    | Some (Some i) => iterateValues p property i
    end.
End Values.

(* strings without '\0' at the end; bytes are not negative *)
Fixpoint strcmp (a b : list Z) : Z :=
  match a, b with
  | [], [] => 0
  | [], y :: _ => - y
  | x :: _, [] => x
  | x :: a', y :: b' => if Z.eqb x y then strcmp a' b' else x - y
  end.

(* calls of get and of COLLECTION_RELEASE; an item is where it came from and its
   index or offset *)
Inductive source := Properties | Strings | Offsets | Profiles.
(* items taken from and given back to a collection *)
Inductive ev := Got (from : source) (i : Z) | Released (with_ : source) (from : source) (i : Z).

Section DataSet.
  Variable getString : Z -> option (list Z) * bool.
  Variable getProperty : Z -> option Property * bool.
  Variable getValue : Z -> option Z * bool. (* the value's nameOffset *)
  Variable getOffset : Z -> option ProfileOffset * bool.
  Variable getProfile : Z -> option Profile * bool.
  Variable compareOther : list Z -> list Z -> Z.

  (* property.c:99-145 fiftyoneDegreesPropertyGetByName, with n properties left; an
     item that comes with an exception or as NULL does not count as got *)
  Fixpoint PropertyGetByName (n : nat) (i : Z) (name : list Z) : option (Z * Property) * bool * list ev :=
    match n with
    | O => (None, true, [])
    | S n' =>
      match getProperty i with
      | (Some p, true) =>
        match getString (nameOffset p) with
        | (Some s, ok) =>
          if ok && negb (Z.eqb (strcmp s name) 0) then
            let '(r, ok', t) := PropertyGetByName n' (i + 1) name in
            (r, ok', Got Properties i :: Got Strings (nameOffset p) :: Released Properties Properties i :: Released Properties Strings (nameOffset p) :: t)
          else (Some (i, p), ok, [Got Properties i; Got Strings (nameOffset p); Released Properties Strings (nameOffset p)])
        | (None, ok) => (Some (i, p), ok, [Got Properties i])
        end
      | (None, true) => PropertyGetByName n' (i + 1) name
      | (_, false) => (None, false, [])
      end
    end.

  (* value.c:127-157 compareValueByName *)
  Definition compareValueByName (name : list Z) (value : Z) (curIndex : Z) : Z * bool :=
    match getString value with
    | (Some s, true) =>
      (match s with
       | c :: _ => if Z.eqb c 1 || Z.eqb c 2 then compareOther s name else strcmp s name
       | [] => strcmp s name
       end, true)
    | (_, ok) => (0%Z, ok)
    end.
  (* value.c:198-222 fiftyoneDegreesValueGetIndexByName *)
  Definition ValueGetIndexByName (property : Property) (name : list Z) : option (Z * bool) :=
    option_map fst (BinarySearch getValue (compareValueByName name) 33 (firstValueIndex property) (lastValueIndex property)).

  (* profile.c:325-334: whether callback is called *)
  Fixpoint findValue (fuel : nat) (p : Profile) (property : Property) (valueIndex : Z) (i : nat) : option bool :=
    match nth_error (memory p) i with
    | None => None
    | Some v =>
      if Z.leb v (lastValueIndex property) && Nat.ltb i (length (values p)) then
        match fuel with
        | O => None
        | S fuel' => if Z.eqb (valueIndex mod 2 ^ 32) v then Some true else findValue fuel' p property valueIndex (S i)
        end
      else Some false
    end.
  (* profile.c:303-342: the indexes of the profiles given to callback; what callback
     returns is not used *)
  Fixpoint profilesLoop (n : nat) (i : Z) (okay : bool) (property : Property) (valueIndex : Z) : option (list Z * bool * list ev) :=
    match n with
    | O => Some ([], okay, [])
    | S n' =>
      match getOffset i with
      | (Some o, ok1) =>
        if okay && ok1 then
          match getProfile (offset o) with
          | (Some p, true) =>
            match match getFirstValueForProfileAndProperty p property with
                  | None => None
                  | Some None => Some false
                  | Some (Some k) => findValue (S (length (values p))) p property valueIndex k
                  end, profilesLoop n' (i + 1) true property valueIndex with
            | Some called, Some (l, ok, t) =>
              Some (if called then i :: l else l, ok, Got Offsets i :: Got Profiles (offset o) :: Released Offsets Profiles (offset o) :: Released Offsets Offsets i :: t)
            | _, _ => None
            end
          | (_, ok2) =>
            match profilesLoop n' (i + 1) ok2 property valueIndex with
            | Some (l, ok, t) => Some (l, ok, Got Offsets i :: Released Offsets Offsets i :: t)
            | None => None
            end
          end
        else match profilesLoop n' (i + 1) false property valueIndex with
             | Some (l, ok, t) => Some (l, ok, if ok1 then Got Offsets i :: t else t)
             | None => None
             end
      | (None, ok1) => profilesLoop n' (i + 1) (okay && ok1) property valueIndex
      end
    end.
  (* profile.c:272-347 fiftyoneDegreesProfileIterateProfilesForPropertyAndValue *)
  Definition ProfileIterateProfilesForPropertyAndValue (propertiesCount profileOffsetsCount : nat) (propertyName valueName : list Z) : option (list Z * bool * list ev) :=
    match PropertyGetByName propertiesCount 0 propertyName with
    | (Some (i, property), true, t) =>
      match ValueGetIndexByName property valueName with
      | None => None
      | Some (valueIndex, ok) =>
        match (if Z.leb 0 valueIndex && ok then profilesLoop profileOffsetsCount 0 true property valueIndex else Some ([], ok, [])) with
        | Some (l, ok', t') => Some (l, ok', t ++ t' ++ [Released Properties Properties i])
        | None => None
        end
      end
    | (_, ok, t) => Some ([], ok, t)
    end.

  (* profile.c:50-60 compareProfileId *)
  Definition compareProfileId (id : Z) (item : ProfileOffset) (curIndex : Z) : Z * bool :=
    (if Z.ltb (profileId item) id then -1 else if Z.ltb id (profileId item) then 1 else 0, true)%Z.
  (* profile.c:151-175 fiftyoneDegreesProfileGetOffsetForProfileId: the offset or
     NULL, and whether the exception is clear.  The item is the last one the search
     got; when that failed the search returns 0 and the pointer in the item is used
     though it is NULL or that of an item that was released: undefined *)
  Definition ProfileGetOffsetForProfileId (profileOffsetsCount : nat) (id : Z) : option (option Z * bool) :=
    if Z.eqb id 0 then Some (None, false)
    else
      match BinarySearch getOffset (compareProfileId id) 33 0 ((Z.of_nat profileOffsetsCount - 1) mod 2 ^ 32) with
      | None => None
      | Some (r, ok, tr) =>
        if Z.leb 0 r then
          match tr with
          | SGet i :: _ => match getOffset i with (Some o, true) => Some (Some (offset o), ok) | _ => None end
          | _ => None
          end
        else Some (None, ok)
      end.
  (* profile.c:177-197 fiftyoneDegreesProfileGetByProfileId *)
  Definition ProfileGetByProfileId (profileOffsetsCount : nat) (id : Z) : option (option Profile * bool) :=
    match ProfileGetOffsetForProfileId profileOffsetsCount id with
    | None => None
    | Some (Some o, true) => Some (getProfile o)
    | Some (_, ok) => Some (None, ok)
    end.
  (* profile.c:199-224 fiftyoneDegreesProfileGetByIndex *)
  Definition ProfileGetByIndex (index : Z) : option Profile * bool :=
    match getOffset index with
    | (Some o, true) => getProfile (offset o)
    | (_, ok) => (None, ok)
    end.
End DataSet.
