(* evidence.c.  Texts are the lists of their non zero characters (StringModel).
   The items of an array are its first count items; a NULL value is None.  The
   memory of the caller that the pairs point to is not changed between the calls.
   Not modelled: EvidenceCreate failing for memory, a NULL field, and callbacks
   that change the array they are called from. *)
From Verif Require Export StringModel.

(* evidence.h:133-149 fiftyoneDegreesEvidencePrefix: 1 << n *)
Definition HTTP_HEADER_STRING : Z := 1.
(* the same enum *)
Definition HTTP_HEADER_IP_ADDRESSES : Z := 2.
(* the same enum *)
Definition SERVER : Z := 4.
(* the same enum *)
Definition QUERY : Z := 8.
(* the same enum *)
Definition COOKIE : Z := 16.
(* the same enum *)
Definition IGNORE : Z := 128.

(* evidence.h:156-164 fiftyoneDegreesEvidenceKeyValuePair *)
Record Pair := mkPair { prefix : Z; field : list Z; originalValue : option (list Z); parsedValue : option (list Z) }.

(* evidence.h:167-172: the array with the pseudo evidence behind it *)
Record Evidence := mkEvidence { capacity : nat; items : list Pair; pseudoEvidence : option (list Pair) }.

(* evidence.c:53-69 fiftyoneDegreesEvidenceCreate *)
Definition EvidenceCreate (cap : nat) : Evidence := mkEvidence cap [] None.

(* evidence.c:76-90 fiftyoneDegreesEvidenceAddString: None is NULL *)
Definition EvidenceAddString (e : Evidence) (p : Z) (f : list Z) (v : option (list Z)) : Evidence * option Pair :=
  if Nat.ltb (length (items e)) (capacity e) then
    let pair := mkPair p f v None in
    (mkEvidence (capacity e) (items e ++ [pair]) (pseudoEvidence e), Some pair)
  else (e, None).

(* evidence.c:40-51 parsePair and its guard, evidence.c:117-119 *)
Definition parsePair (p : Pair) : Pair :=
  match parsedValue p with
  | None => mkPair (prefix p) (field p) (originalValue p) (originalValue p)
  | Some _ => p
  end.

(* evidence.c:106-125 evidenceIterateSub: the array after it, cont, the state of
   the callback and the count. *)
Fixpoint evidenceIterateSub {S : Type} (callback : S -> Pair -> bool * S) (prefixes : Z)
  (l : list Pair) (cont : bool) (st : S) (count : nat) : list Pair * bool * S * nat :=
  if cont then
    match l with
    | [] => ([], cont, st, count)
    | p :: rest =>
      if Z.eqb (Z.land (prefix p) prefixes) (prefix p) then
        let p' := parsePair p in
        let (cont', st') := callback st p' in
        match evidenceIterateSub callback prefixes rest cont' st' (count + 1) with
        | (rest', c, s, n) => (p' :: rest', c, s, n)
        end
      else match evidenceIterateSub callback prefixes rest cont st count with
           | (rest', c, s, n) => (p :: rest', c, s, n)
           end
    end
  else (l, cont, st, count).

(* evidence.c:127-150 fiftyoneDegreesEvidenceIterate *)
Definition EvidenceIterate {S : Type} (callback : S -> Pair -> bool * S) (e : Evidence) (prefixes : Z) (st : S) : Evidence * S * nat :=
  match evidenceIterateSub callback prefixes (items e) true st 0 with
  | (l, cont, st', count) =>
    match cont, pseudoEvidence e with
    | true, Some ps =>
      match evidenceIterateSub callback prefixes ps true st' 0 with
      | (l', _, st'', count') => (mkEvidence (capacity e) l (Some l'), st'', count + count')
      end
    | _, o => (mkEvidence (capacity e) l o, st', count)
    end
  end.

(* evidence.c:33-38 _map; the prefix text, its length is prefixLength *)
Definition map_ : list (list Z * Z) :=
  [ ([115; 101; 114; 118; 101; 114; 46]%Z, SERVER);              (* server. *)
    ([104; 101; 97; 100; 101; 114; 46]%Z, HTTP_HEADER_STRING);   (* header. *)
    ([113; 117; 101; 114; 121; 46]%Z, QUERY);                    (* query. *)
    ([99; 111; 111; 107; 105; 101; 46]%Z, COOKIE) ].             (* cookie. *)

(* strncmp of the C library on the memory from the two pointers on *)
Fixpoint strncmp (a b : list Z) (n : nat) : Z :=
  match n, a, b with
  | S n', x :: a', y :: b' => if Z.eqb x y then (if Z.eqb x 0 then 0 else strncmp a' b' n')%Z else (x - y)%Z
  | _, _, _ => 0%Z
  end.

(* evidence.c:152-165 fiftyoneDegreesEvidenceMapPrefix: the entry of the map *)
Fixpoint mapPrefixFrom (m : list (list Z * Z)) (key : list Z) : option (list Z * Z) :=
  match m with
  | [] => None
  | (t, e) :: rest =>
    if (Nat.ltb (length t) (length key) && Z.eqb (strncmp (cstr t) (cstr key) (length t)) 0)%bool
    then Some (t, e) else mapPrefixFrom rest key
  end.
(* evidence.c:152-165 fiftyoneDegreesEvidenceMapPrefix *)
Definition EvidenceMapPrefix (key : list Z) : option (list Z * Z) := mapPrefixFrom map_ key.

(* evidence.c:167-179 fiftyoneDegreesEvidencePrefixString *)
Fixpoint prefixStringFrom (m : list (list Z * Z)) (p : Z) : option (list Z) :=
  match m with
  | [] => None
  | (t, e) :: rest => if Z.eqb e p then Some t else prefixStringFrom rest p
  end.
(* evidence.c:167-177 fiftyoneDegreesEvidencePrefixString *)
Definition EvidencePrefixString (p : Z) : option (list Z) := prefixStringFrom map_ p.
