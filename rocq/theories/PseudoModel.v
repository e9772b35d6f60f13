(* pseudoheader.c.  Texts are the lists of their non zero characters; the buffers
   of the pseudo evidence are lists of bytes and their length is the size of the
   memory behind originalValue.  An access outside an array or buffer, or through
   NULL, is None.  Snprintf(_, _, "%s", v) is taken to fail exactly when the length
   of v is more than INT_MAX, as the C standard says for its int result; what it
   leaves in the buffer then is overwritten (pseudoheader.c:109).  The exception
   is not NULL.  Not modelled: a NULL field of supplied evidence. *)
From Verif Require Export HeadersModel EvidenceModel.

(* limits.h *)
Definition INT_MAX : Z := 2147483647.
(* conversion to int, modulo 2^32 (implementation defined in C) *)
Definition toInt (z : Z) : Z := ((z + 2147483648) mod 4294967296 - 2147483648)%Z.

(* pseudoheader.c:36-56 getEvidenceValueForHeader: seg is the memory from
   segment->segment on *)
Fixpoint getEvidenceValueForHeader (seg : list Z) (segLen : nat) (evidence : list Pair) (p : Z) : option (list Z) :=
  match evidence with
  | [] => None
  | q :: rest =>
    if (Z.eqb (prefix q) p && (Nat.eqb (length (field q)) segLen &&
        match StringCompareLength (length (field q)) (cstr (field q)) seg with Some d => Z.eqb d 0 | None => false end))%bool
    then originalValue q
    else getEvidenceValueForHeader seg segLen rest p
  end.

(* writes the bytes w at position pos; None: outside the buffer *)
Definition write (buffer : list Z) (pos : nat) (w : list Z) : option (list Z) :=
  if Nat.leb (pos + length w) (length buffer)
  then Some (firstn pos buffer ++ w ++ skipn (pos + length w) buffer) else None.

(* Snprintf(current, size, "%s", value) for a value no longer than INT_MAX *)
Definition snprintf (buffer : list Z) (current size : nat) (value : list Z) : option (list Z) :=
  if Nat.eqb size 0 then Some buffer else write buffer current (firstn (size - 1) value ++ [0%Z]).

(* pseudoheader.c:71-122 constructPseudoEvidence: current is the position in the
   buffer, max is bufferSize; the result is the returned int and the buffer. *)
Fixpoint constructLoop (evidence : list Pair) (p : Z) (bufferSize : nat) (hname : list Z)
  (segs : list Segment) (i : nat) (current : nat) (buffer : list Z) : option (Z * list Z) :=
  match segs with
  | [] => Some (toInt (Z.of_nat current), buffer)
  | s :: rest =>
    match getEvidenceValueForHeader (skipn (segStart s) (cstr hname)) (segLength s) evidence p with
    | None =>
      if Nat.ltb 0 bufferSize
      then match write buffer 0 [0%Z] with Some b => Some (0%Z, b) | None => None end
      else Some (0%Z, buffer)
    | Some value =>
      match (if (negb (Nat.eqb i 0) && Z.ltb (Z.of_nat current) (Z.of_nat bufferSize - 1))%bool
             then option_map (fun b => (current + 1, b)) (write buffer current [SEP])
             else Some (current, buffer)) with
      | None => None
      | Some (current', buffer') =>
        if Z.ltb INT_MAX (Z.of_nat (length value)) then
          match write buffer' 0 (repeat 0%Z bufferSize) with Some b => Some ((-1)%Z, b) | None => None end
        else match snprintf buffer' current' (bufferSize - current') value with
             | None => None
             | Some buffer'' =>
               if Z.leb (Z.of_nat bufferSize - Z.of_nat current') (Z.of_nat (length value))
               then Some (toInt (Z.of_nat (current' + length value)), buffer'')
               else constructLoop evidence p bufferSize hname rest (S i) (current' + length value) buffer''
             end
      end
    end
  end.
(* pseudoheader.c:71-131 constructPseudoEvidence *)
Definition constructPseudoEvidence (buffer : list Z) (bufferSize : nat) (h : Header) (evidence : list Pair) (p : Z) : option (Z * list Z) :=
  constructLoop evidence p bufferSize (name h) (segments h) 0 0 buffer.

(* pseudoheader.c:133-163 isEvidencePresentForHeader *)
Definition isEvidencePresentForHeader (evidence : list Pair) (h : Header) (acceptedPrefixes : list Z) : bool :=
  existsb (fun q => (existsb (Z.eqb (prefix q)) acceptedPrefixes &&
                     (Nat.eqb (length (field q)) (nameLength h) && Z.eqb (StringCompare (name h) (field q)) 0))%bool) evidence.

(* The pseudo evidence array (evidence.h:156-172): capacity items, count of them
   in use; originalValue is a writable buffer or NULL. *)
Record PseudoItem := mkPseudo { pPrefix : Z; pField : option (list Z); pBuffer : option (list Z) }.
(* evidence.h: the array of pseudo evidence *)
Record PseudoArray := mkPseudoArray { pCount : nat; pItems : list PseudoItem }.
(* an array element is assigned *)
Definition setItem (l : list PseudoItem) (i : nat) (x : PseudoItem) : list PseudoItem := firstn i l ++ x :: skipn (S i) l.

(* pseudoheader.c:239-251 fiftyoneDegreesPseudoHeadersRemoveEvidence *)
Fixpoint removeLoop (bufferSize count : nat) (l : list PseudoItem) : option (list PseudoItem) :=
  match count with
  | 0 => Some l
  | S n =>
    match l with
    | [] => None
    | x :: rest =>
      match pBuffer x with
      | None => None
      | Some b =>
        match write b 0 (repeat 0%Z bufferSize), removeLoop bufferSize n rest with
        | Some b', Some rest' => Some (mkPseudo (pPrefix x) None (Some b') :: rest')
        | _, _ => None
        end
      end
    end
  end.
(* pseudoheader.c:239-251 fiftyoneDegreesPseudoHeadersRemoveEvidence *)
Definition RemoveEvidence (bufferSize : nat) (ps : PseudoArray) : option PseudoArray :=
  option_map (mkPseudoArray 0) (removeLoop bufferSize (pCount ps) (pItems ps)).

(* pseudoheader.c:196-226: the prefixes in turn.  The buffer written so far, and
   the prefix taken, nothing, or failure. *)
Inductive tried := Taken (p : Z) (b : list Z) | Nothing (b : list Z) | Failed (b : list Z).
(* pseudoheader.c:166-237: the prefixes in their order *)
Fixpoint tryPrefixes (order : list Z) (buffer : list Z) (bufferSize : nat) (h : Header) (evidence : list Pair) : option tried :=
  match order with
  | [] => Some (Nothing buffer)
  | p :: rest =>
    match constructPseudoEvidence buffer bufferSize h evidence p with
    | None => None
    | Some (charAdded, b) =>
      if Z.ltb 0 charAdded then Some (Taken p b)
      else if Z.ltb charAdded 0 then Some (Failed b)
      else tryPrefixes rest b bufferSize h evidence
    end
  end.

(* the status codes used, status.h *)
Inductive status := NOT_SET | ENCODING_ERROR.

(* pseudoheader.c:165-237 fiftyoneDegreesPseudoHeadersAddEvidence; evidence and
   headers are not NULL *)
Fixpoint addLoop (evidence : list Pair) (headers : list Header) (bufferSize : nat) (order : list Z)
  (ps : option PseudoArray) : option (option PseudoArray * status) :=
  match headers with
  | [] => Some (ps, NOT_SET)
  | h :: rest =>
    if (HeadersIsPseudo (name h) && negb (isEvidencePresentForHeader evidence h order))%bool then
      match ps with
      | None => None
      | Some a =>
        match nth_error (pItems a) (pCount a) with
        | None => None
        | Some x =>
          match pBuffer x with
          | None => addLoop evidence rest bufferSize order ps
          | Some buffer =>
            match tryPrefixes order buffer bufferSize h evidence with
            | None => None
            | Some (Taken p b) =>
              addLoop evidence rest bufferSize order
                (Some (mkPseudoArray (S (pCount a)) (setItem (pItems a) (pCount a) (mkPseudo p (Some (name h)) (Some b)))))
            | Some (Nothing b) =>
              addLoop evidence rest bufferSize order
                (Some (mkPseudoArray (pCount a) (setItem (pItems a) (pCount a) (mkPseudo (pPrefix x) (pField x) (Some b)))))
            | Some (Failed b) =>
              match RemoveEvidence bufferSize (mkPseudoArray (pCount a) (setItem (pItems a) (pCount a) (mkPseudo (pPrefix x) (pField x) (Some b)))) with
              | Some a' => Some (Some a', ENCODING_ERROR)
              | None => None
              end
            end
          end
        end
      end
    else addLoop evidence rest bufferSize order ps
  end.
(* pseudoheader.c:166-237 fiftyoneDegreesPseudoHeadersAddEvidence *)
Definition AddEvidence (evidence : list Pair) (ps : option PseudoArray) (headers : list Header) (bufferSize : nat) (order : list Z)
  : option (option PseudoArray * status) := addLoop evidence headers bufferSize order ps.
