(* Model of /repo/ip.c and IpAddress.cpp.

   A text is the list of its characters (0..255) from a position up to, but
   not including, the terminating NUL.  A pointer into the text is the rest of
   the text from there.  Reading the character at the end gives the NUL.
   Simplifications: malloc succeeds; the int counting bytes does not overflow
   (texts shorter than 2^30); atoi is (int)strtol(s, NULL, 10) with a 64 bit
   long, as in glibc. *)
From Coq Require Export List Arith ZArith Lia Bool.
Export ListNotations.

(* ip.h 63-67 *)
Inductive ipType := V4 | V6 | INVALID.

(* ip.c 161-165: the characters tested *)
Definition isSep (c : Z) : bool :=
  Z.eqb c 44 || Z.eqb c 58 || Z.eqb c 46 || Z.eqb c 32 || Z.eqb c 0.   (* , : . space NUL *)

(* ip.c 115-124 *)
Definition getIpTypeFromSeparator (c : Z) : ipType :=
  if Z.eqb c 46 then V4 else if Z.eqb c 58 then V6 else INVALID.

(* ip.c 126-145 *)
Definition getSegmentTypeWithSeparator (c : Z) (type last : ipType) : ipType :=
  match type with
  | V4 => V4
  | V6 => if Z.eqb c 58 then V6 else if Z.eqb c 46 then V4 else last
  | INVALID => getIpTypeFromSeparator c
  end.

(* a call of foundSegment: the type, the text from the start of the segment
   and the length of the segment (end - start + 1) *)
Definition call := (ipType * list Z * nat)%type.

(* ip.c 151-179.  rest: text at current; seg: text at nextSegment; len: current
   - nextSegment; left: end - current; first: current == start.  The callbacks
   do not influence the iteration; the calls are listed. *)
Fixpoint iterate (left : nat) (rest seg : list Z) (len : nat) (first : bool) (type cur : ipType) : ipType * list call :=
  if Nat.ltb 0 (left + len) then                          (* nextSegment < end *)
    let c := hd 0%Z rest in
    if isSep c then
      let cur' := getSegmentTypeWithSeparator c type cur in
      let type' := match type with INVALID => cur' | _ => type end in
      let (t, calls) := match left with
                        | 0 => (type', [])
                        | S left' => iterate left' (tl rest) (tl rest) 0 false type' cur'
                        end in
      (t, if first then calls else (cur', seg, len) :: calls)
    else
      match left with
      | 0 => (type, [])
      | S left' => iterate left' (tl rest) seg (S len) false type cur
      end
  else (type, []).
(* ip.c 151-179 iterateIpAddress *)
Definition iterateIpAddress (s : list Z) (e : nat) (type : ipType) : ipType * list call :=
  iterate e s s 0 true type INVALID.

(* ip.c 36-49 *)
Definition countCall (n : nat) (c : call) : nat :=
  match c with (t, _, len) =>
    if Nat.ltb 0 len then match t with INVALID => n | V4 => n + 1 | V6 => n + 2 end else n
  end.

(* ip.c 59-67 *)
Definition getIpByte (z : Z) : Z := if Z.ltb z 0 then 0 else if Z.ltb 255 z then 255 else z.

(* strtol.  isspace in the C locale. *)
Definition isSpace (c : Z) : bool := Z.eqb c 32 || (Z.leb 9 c && Z.leb c 13).
(* strtol: the value of a character *)
Definition digitVal (c : Z) : Z :=
  if Z.leb 48 c && Z.leb c 57 then c - 48
  else if Z.leb 97 c && Z.leb c 122 then c - 87
  else if Z.leb 65 c && Z.leb c 90 then c - 55
  else 99.
(* strtol: the value of a sequence of digits *)
Fixpoint digits (base acc : Z) (l : list Z) : Z :=
  match l with
  | [] => acc
  | c :: l' => if Z.ltb (digitVal c) base then digits base (acc * base + digitVal c) l' else acc
  end.
(* strtol: white space *)
Fixpoint skipSpace (l : list Z) : list Z :=
  match l with c :: l' => if isSpace c then skipSpace l' else l | [] => [] end.
(* strtol: out of range values *)
Definition clampLong (z : Z) : Z :=
  if Z.ltb z (- 2 ^ 63) then (- 2 ^ 63)%Z else if Z.ltb (2 ^ 63 - 1) z then (2 ^ 63 - 1)%Z else z.
(* the prefix 0x is only accepted before a hexadecimal digit, which cannot
   happen in the two character texts converted with base 16 *)
Definition strtol (base : Z) (l : list Z) : Z :=
  match skipSpace l with
  | c :: l' =>
    if Z.eqb c 45 then clampLong (- digits base 0 l')
    else if Z.eqb c 43 then clampLong (digits base 0 l')
    else clampLong (digits base 0 (c :: l'))
  | [] => 0%Z
  end.
(* conversion to int *)
Definition toInt (z : Z) : Z := ((z + 2 ^ 31) mod 2 ^ 32 - 2 ^ 31)%Z.
(* atoi of the C library *)
Definition atoi (l : list Z) : Z := toInt (strtol 10 l).

(* ip.c 69-98: the bytes added to the address *)
Definition parseIpV6Segment (bytesPresent : Z) (seg : list Z) (len : nat) : list Z :=
  if Nat.eqb len 0 then repeat 0%Z (Z.to_nat (16 - bytesPresent))
  else
    let val i := nth (len - 1 - i) (firstn len seg) 48%Z in        (* end[-i] *)
    let val i := if Nat.ltb i len then val i else 48%Z in
    [getIpByte (toInt (strtol 16 [val 3; val 2])); getIpByte (toInt (strtol 16 [val 1; val 0]))].

(* ip.c 100-113 *)
Definition buildCall (bytesPresent : Z) (c : call) : list Z :=
  match c with
  | (V4, seg, _) => [getIpByte (atoi seg)]
  | (V6, seg, len) => parseIpV6Segment bytesPresent seg len
  | (INVALID, _, _) => []
  end.

(* ip.c 181-195: bytes of memory for the address *)
Definition addressSize (t : ipType) : nat := match t with V4 => 4 | _ => 16 end.

(* The parsed address: its type and the bytes written to it in order; the
   others are uninitialised. *)
Record address := mkAddr { atype : ipType; abytes : list Z }.

(* ip.c 209-242: parse the text s up to s + e.  None: bytes are written past
   the end of the allocated memory. *)
Definition IpParseAddress (s : list Z) (e : nat) : option address :=
  let (type, calls) := iterateIpAddress s e INVALID in
  let count := fold_left countCall calls 0 in
  let bytesPresent := (Z.of_nat count mod 256)%Z in
  let bytes := flat_map (buildCall bytesPresent) (snd (iterateIpAddress s e type)) in
  if Nat.leb (length bytes) (addressSize type) then Some (mkAddr type bytes) else None.

(* ip.c 244-275.  start: text at start; rest: text at current; len: current -
   start + 1 *)
Fixpoint parseAddresses (rest start : list Z) (len : nat) : option (list address) :=
  match rest with
  | [] => Some []
  | _ :: rest' =>
    let c := hd 0%Z rest' in
    if Z.eqb c 32 || Z.eqb c 44 || Z.eqb c 0 then
      match IpParseAddress start len with
      | None => None
      | Some a =>
        match parseAddresses rest' (tl rest') 0 with
        | Some l => Some (a :: l)
        | None => None
        end
      end
    else parseAddresses rest' start (S len)
  end.
(* ip.c 244-275 fiftyoneDegreesIpParseAddresses *)
Definition IpParseAddresses (s : list Z) : option (list address) := parseAddresses s s 1.

(* ip.c 277-301.  None: a byte that was not given is read. *)
Fixpoint compareBytes (n : nat) (a b : list Z) : option Z :=
  match n with
  | 0 => Some 0%Z
  | S n' =>
    match a, b with
    | x :: a', y :: b' => if Z.eqb (x - y) 0 then compareBytes n' a' b' else Some (x - y)%Z
    | _, _ => None
    end
  end.
(* ip.c 277-300 fiftyoneDegreesCompareIpAddresses *)
Definition CompareIpAddresses (a b : list Z) (t : ipType) : option Z :=
  compareBytes (match t with V4 => 4 | V6 => 16 | INVALID => 0 end) a b.

(* IpAddress.cpp 58-73: the 16 byte array of the object, [old] its content
   before (indeterminate) *)
Definition init (old : list Z) (a : list Z) (t : ipType) : list Z :=
  match t with
  | V4 => firstn 4 a ++ skipn 4 old
  | V6 => firstn 16 a
  | INVALID => repeat 0%Z 16
  end.
(* IpAddress.cpp 75-81: [copy] after the call; the enumerators are 0, 1 *)
Definition typeValue (t : ipType) : nat := match t with V4 => 0 | V6 => 1 | INVALID => 2 end.
(* IpAddress.cpp getCopyOfIpAddress *)
Definition getCopyOfIpAddress (ipAddress : list Z) (t : ipType) (copy : list Z) (size : nat) : list Z :=
  let dataSize := match t with V4 => typeValue V4 | _ => typeValue V6 end in
  let copySize := if Nat.ltb size dataSize then size else dataSize in
  firstn copySize ipAddress ++ skipn copySize copy.

(* ip.c 197-207 over the memory of mallocIpAddress: a pointer is a block and
   an offset in it; free needs offset 0.  [structSize]: sizeof the structure,
   after which the bytes of the address follow (ip.c 226). *)
Definition freePtr (blocks : list nat) (p : nat * nat) : option (list nat) :=
  if existsb (Nat.eqb (fst p)) blocks && Nat.eqb (snd p) 0
  then Some (filter (fun b => negb (Nat.eqb b (fst p))) blocks) else None.
(* ip.c 197-207 fiftyoneDegreesIpFreeAddresses *)
Fixpoint IpFreeAddresses (structSize : nat) (blocks : list nat) (l : list nat) : option (list nat) :=
  match l with
  | [] => Some blocks
  | b :: l' =>
    match freePtr blocks (b, structSize) with                  (* free(prev->address) *)
    | Some blocks' => IpFreeAddresses structSize blocks' l'
    | None => None
    end
  end.
