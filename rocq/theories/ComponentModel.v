(* component.c.  A component is the bytes from its pointer on that can be read.  The get
   method of a collection gives for an offset the bytes, or NULL, and whether the
   exception is clear afterwards.  The list is that of ListModel; the pointer in an item
   is the offset that was asked for.  The exception is not NULL. *)
From Verif Require Export ListModel.

(* a little endian number *)
Fixpoint le (n : nat) (bytes : list Z) : option Z :=
  match n, bytes with
  | O, _ => Some 0%Z
  | S n', b :: bytes' => option_map (fun r => b + 256 * r)%Z (le n' bytes')
  | S _, [] => None
  end.
(* a member of a packed struct *)
Definition member (offset size : nat) (bytes : list Z) : option Z := le size (skipn offset bytes).
(* component.h:78-90 fiftyoneDegreesComponent, packed *)
Definition componentId := member 0 1.
(* an int32_t that is converted to the uint32_t the get methods take *)
Definition nameOffset := member 1 4.
(* likewise *)
Definition defaultProfileOffset := member 5 4.
(* uint16_t *)
Definition keyValuesCount := member 9 2.
(* sizeof(Component) and sizeof(fiftyoneDegreesComponentKeyValuePair) *)
Definition sizeofComponent : Z := 19.
(* component.h:69-72 *)
Definition sizeofPair : Z := 8.
(* conversion to int32_t *)
Definition toInt32 (z : Z) : Z := ((z + 2 ^ 31) mod 2 ^ 32 - 2 ^ 31)%Z.

(* component.c:27-31 getFinalComponentSize: keyValuesCount - 1 is an int, the product a
   size_t *)
Definition getFinalComponentSize (bytes : list Z) : option Z :=
  option_map (fun n =>
    let trailing := toInt32 (((n - 1) mod 2 ^ 64 * sizeofPair) mod 2 ^ 64) in
    ((sizeofComponent + trailing) mod 2 ^ 32)%Z) (keyValuesCount bytes).

(* what a get method returns *)
Definition Get := Z -> option (list Z) * bool.

(* component.c:33-51 fiftyoneDegreesComponentGetDefaultProfileId; profileId is at the
   offset 1 of a Profile (profile.h:88-93).  The offsets got and released are recorded. *)
Inductive ev := Got (offset : Z) | Released (offset : Z).
Definition profileId := member 1 4.
(* component.c:33-51; the id, whether the exception is clear, and the events *)
Definition ComponentGetDefaultProfileId (get : Get) (component : list Z) : option (Z * bool * list ev) :=
  match defaultProfileOffset component with
  | None => None
  | Some offset =>
    match get offset with
    | (Some profile, true) => option_map (fun id => (id, true, [Got offset; Released offset])) (profileId profile)
    | (_, ok) => Some (0%Z, ok, [Got offset])
    end
  end.
(* component.c:53-63 fiftyoneDegreesComponentGetName *)
Definition ComponentGetName (get : Get) (component : list Z) : option (option (list Z) * bool) :=
  option_map get (nameOffset component).

(* component.c:65-76 fiftyoneDegreesComponentGetKeyValuePair: the bytes from the pointer
   on, or NULL; whether the exception is clear *)
Definition ComponentGetKeyValuePair (component : list Z) (index : Z) : option (option (list Z) * bool) :=
  match keyValuesCount component with
  | None => None
  | Some n =>
    if Z.ltb n index then Some (None, false)
    else Some (Some (skipn (11 + Z.to_nat (sizeofPair * index)) component), true)
  end.

(* component.c:107-122 the loop of fiftyoneDegreesComponentInitList *)
Fixpoint initLoop (fuel : nat) (get : Get) (n : Z) (offset : Z) (ok : bool) (w : World) : option (bool * World) :=
  match fuel with
  | O => None
  | S fuel' =>
    if Z.ltb (count (list_ w)) n && ok then
      match get offset with
      | (Some component, true) =>
        match ListAdd (mkItem (Some 1%Z) offset 0) w, getFinalComponentSize component with
        | Some w', Some size => initLoop fuel' get n ((offset + size) mod 2 ^ 32)%Z true w'
        | _, _ => None
        end
      | (_, ok') => initLoop fuel' get n offset ok' w
      end
    else Some (ok, w)
  end.
(* component.c:98-124 fiftyoneDegreesComponentInitList; malloc is whether Malloc succeeds *)
Definition ComponentInitList (fuel : nat) (get : Get) (malloc : bool) (n : Z) (w : World) : option (bool * World) :=
  match ListInit malloc n w with
  | (true, w') => initLoop fuel get n 0 true w'
  | (false, w') => Some (true, w')
  end.
