(* value.c, coordinate.c and the reading of strings of string.c.

   A string in memory is its size field and the bytes from its first character
   on that can be read.  Bytes are 0..255.  A name to search for is the list of
   its characters without the '\0' at its end.  None: undefined behaviour, that
   is reading bytes that are not there or were never set.
   Simplifications: (float)atof is any function from texts to floats; memcmp
   gives the difference of the first bytes that differ and the bytes after them
   need not have been set. *)
From Coq Require Export List Arith ZArith Lia Bool.
Export ListNotations.
From Verif Require Import SearchModel CollectionModel IpModel FloatModel.
Local Open Scope Z_scope.

(* string.h:109-119 *)
Record stored := mkStored { ssize : Z; chars : list Z }.
(* value.h:72-80, the members used here *)
Record value := mkValue { nameOffset : Z; descriptionOffset : Z; urlOffset : Z }.
(* property.h, the members used here: uint32_t *)
Record range := mkRange { firstValueIndex : Z; lastValueIndex : Z }.

(* an int16_t in memory, little endian *)
Definition int16Of (l : list Z) : Z :=
  let u := nth 0 l 0 + 256 * nth 1 l 0 in if 2 ^ 15 <=? u then u - 2 ^ 16 else u.
(* string.c:26-28 getFinalStringSize *)
Definition getFinalStringSize (initial : list Z) : Z := (2 + int16Of initial) mod 2 ^ 32.
(* string.c:32-46 fiftyoneDegreesStringRead *)
Definition StringRead (file : list Z) (start : nat) (ci : cinfo) (f : io) (offset : Z) : option rd :=
  ReadFileVariable file start ci 2 getFinalStringSize f offset.

(* strcmp of bytes in memory and a name *)
Fixpoint strcmp (a name : list Z) : option Z :=
  match a with
  | [] => None
  | x :: a' =>
    let y := hd 0 name in
    if x =? y then if x =? 0 then Some 0 else strcmp a' (tl name) else Some (x - y)
  end.
(* memcmp of n bytes *)
Fixpoint memcmp (a b : list Z) (n : nat) {struct n} : option Z :=
  match n with
  | O => Some 0
  | S n' =>
    match a, b with
    | x :: a', y :: b' => if x =? y then memcmp a' b' n' else Some (x - y)
    | _, _ => None
    end
  end.
(* strstr(target, ",") *)
Fixpoint strstrComma (l : list Z) : option (list Z) :=
  match l with [] => None | c :: l' => if c =? 44 then Some l else strstrComma l' end.
(* the bytes of a fiftyoneDegreesFloat, float.h *)
Definition floatBytes (w : Z) : list Z := [w mod 256; w / 256 mod 256; w / 2 ^ 16 mod 256; w / 2 ^ 24 mod 256].
(* and the float of four bytes *)
Definition floatOf (l : list Z) : Z := nth 0 l 0 + 256 * nth 1 l 0 + 2 ^ 16 * nth 2 l 0 + 2 ^ 24 * nth 3 l 0.

(* string.h:79-81 *)
Definition COORDINATE := 1.
(* string.h:81 *)
Definition IP_ADDRESS := 2.

Section Value.
  Variable atof : list Z -> native.                        (* (float)atof(text) *)
  Variable memory : bool.                                  (* Malloc succeeds *)
  Variable getString : Z -> option stored * bool.          (* strings->get, and whether the exception is clear *)
  Variable getValue : Z -> option value * bool.            (* values->get *)

  (* value.c:55-73 compareCoordinate *)
  Definition compareCoordinate (s : stored) (target : list Z) : option Z :=
    match strstrComma target with
    | Some curPtr =>
      let targetLat := NativeToFloat (atof target) in
      let targetLon := NativeToFloat (atof (tl curPtr)) in
      match memcmp (skipn 1 (chars s)) (floatBytes targetLat) 4 with
      | Some 0 => memcmp (skipn 5 (chars s)) (floatBytes targetLon) 4
      | r => r
      end
    | None => Some (-1)
    end.

  (* value.c:84-121 compareIpAddress *)
  Definition compareIpAddress (s : stored) (target : list Z) : option Z :=
    if memory then
      match IpParseAddress target (length target) with
      | None => None
      | Some a =>
        let valueLength := (ssize s - 1 + 2 ^ 15) mod 2 ^ 16 - 2 ^ 15 in
        let searchLength := match atype a with V4 => 4 | V6 => 16 | INVALID => 0 end in
        if searchLength =? 0 then Some (-1)
        else
          let compareLength := if valueLength <? searchLength then valueLength else searchLength in
          if compareLength <? 0 then None                  (* as a size_t larger than any object *)
          else
            match memcmp (skipn 1 (chars s)) (abytes a) (Z.to_nat compareLength) with
            | Some 0 => Some (valueLength - searchLength)
            | r => r
            end
      end
    else Some 0.

  (* value.c:138-150 *)
  Definition compareString (s : stored) (name : list Z) : option Z :=
    match chars s with
    | [] => None
    | c :: _ =>
      if c =? COORDINATE then compareCoordinate s name
      else if c =? IP_ADDRESS then compareIpAddress s name
      else strcmp (chars s) name
    end.
  (* value.c:127-153 compareValueByName; the result is not given where a
     comparison is undefined *)
  Definition compareValueByName (name : list Z) (v : value) (curIndex : Z) : Z * bool :=
    match getString (nameOffset v) with
    | (Some s, true) => (match compareString s name with Some r => r | None => 0 end, true)
    | (_, ok) => (0, ok)
    end.
  (* whether the comparison with the value at an index is defined *)
  Definition defined (name : list Z) (i : Z) : bool :=
    match getValue i with
    | (Some v, true) =>
      match getString (nameOffset v) with
      | (Some s, true) => match compareString s name with Some _ => true | None => false end
      | _ => true
      end
    | _ => true
    end.
  (* the gets of a search *)
  Definition gets (tr : list sev) : list Z := flat_map (fun e => match e with SGet i => [i] | SRelease _ => [] end) tr.
  (* value.c:209-216, 236-245: the search *)
  Definition searchValues (property : range) (name : list Z) : option (Z * bool * list sev) :=
    match BinarySearch getValue (compareValueByName name) 33 (firstValueIndex property) (lastValueIndex property) with
    | Some (r, ok, tr) => if forallb (defined name) (gets tr) then Some (r, ok, tr) else None
    | None => None
    end.

  (* value.c:198-222 fiftyoneDegreesValueGetIndexByName: the index, whether the
     exception is clear, and the gets and releases, newest first.  The release
     at its end uses the handle of the item, which is not set before the first
     get: None.  After a release the handle is NULL and a further release does
     nothing; a get that gave NULL sets it to NULL. *)
  Definition ValueGetIndexByName (property : range) (name : list Z) : option (Z * bool * list sev) :=
    match searchValues property name with
    | None => None
    | Some (r, false, tr) => Some (r, false, tr)
    | Some (r, true, []) => None
    | Some (r, true, SGet i :: tr) =>
      match getValue i with
      | (Some _, _) => Some (r, true, SRelease i :: SGet i :: tr)
      | (None, _) => Some (r, true, SGet i :: tr)
      end
    | Some (r, true, SRelease i :: tr) => Some (r, true, SRelease i :: tr)
    end.

  (* the pointer in the item after the gets of a search: a get from a cache
     that fails leaves it, and so does the release (only a cache gives NULL
     without an exception) *)
  Fixpoint itemValue (tr : list sev) : option (Z * value) :=
    match tr with
    | [] => None
    | SGet i :: tr' => match getValue i with (Some v, _) => Some (i, v) | _ => itemValue tr' end
    | SRelease _ :: tr' => itemValue tr'
    end.
  (* value.c:224-248 fiftyoneDegreesValueGetByName: the value returned with the
     index it was got for *)
  Definition ValueGetByName (property : range) (name : list Z) : option (option (Z * value) * bool * list sev) :=
    if firstValueIndex property =? 2 ^ 32 - 1 then Some (None, true, [])
    else
      match searchValues property name with
      | None => None
      | Some (r, ok, tr) => Some (if (0 <=? r) && ok then itemValue tr else None, ok, tr)
      end.
End Value.

(* coordinate.c:27-41 fiftyoneDegreesIpiGetCoordinate; the flag: the exception
   is clear (otherwise it is CORRUPT_DATA) *)
Definition IpiGetCoordinate (s : stored) : option (native * native * bool) :=
  match chars s with
  | [] => None
  | c :: l =>
    if c =? COORDINATE then
      if (length l <? 8)%nat then None
      else Some (FloatToNative (floatOf (firstn 4 l)), FloatToNative (floatOf (firstn 4 (skipn 4 l))), true)
    else Some (S754_zero false, S754_zero false, false)
  end.
