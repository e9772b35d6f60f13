(* headers.c.  Texts are the lists of their non zero characters (StringModel);
   memory that ends with a terminator is cstr.  Not modelled: failing memory
   allocation (a NULL result; the name copied for a header whose segments could
   not be created is then lost) and the wrap of the 32 bit counters, which needs
   2^32 segments. *)
From Verif Require Export StringModel.

(* pseudoheader.h:31 FIFTYONE_DEGREES_PSEUDO_HEADER_SEP '\x1F' *)
Definition SEP : Z := 31.

(* headers.c:35-58 countHeaderSegments; last and *last are the character before
   the current one, at the start the first one (the terminator of an empty text). *)
Fixpoint countLoop (last : Z) (current : list Z) (count : nat) : nat :=
  match current with
  | [] => if Z.eqb last SEP then count else S count
  | c :: rest => countLoop c rest (if (Z.eqb c SEP && negb (Z.eqb last SEP))%bool then S count else count)
  end.
(* headers.c:35-61 countHeaderSegments *)
Definition countHeaderSegments (name : list Z) : nat := countLoop (hd 0%Z name) name 0.

(* headers.h:123-140: a segment is a pointer into the name and a length; here
   the position in the name. *)
Record Segment := mkSegment { segStart : nat; segLength : nat }.
(* headers.h fiftyoneDegreesHeader *)
Record Header := mkHeader { name : list Z; isDataSet : bool; uniqueId : Z; segments : list Segment }.
(* nameLength is set to the length of the name (headers.c:183). *)
Definition nameLength (h : Header) : nat := length (name h).

(* headers.c:63-82 countAllSegments: get(state, index) is the list of the names
   of the data set with their unique ids. *)
Fixpoint countAllSegments (dataSet : list (Z * list Z)) : nat :=
  match dataSet with
  | [] => 0
  | (_, n) :: rest =>
    let segs := countHeaderSegments n in
    (if Nat.ltb 1 segs then S segs else segs) + countAllSegments rest
  end.

(* headers.c:110-123 addSegment: None when the array is full (exception). *)
Definition addSegment (capacity : nat) (segs : list Segment) (start end_ : nat) : option (list Segment) :=
  if Nat.leb capacity (length segs) then None else Some (segs ++ [mkSegment start (end_ - start)]).

(* headers.c:131-163 createSegmentArray: pos is current, last is last; None: NULL. *)
Fixpoint segmentLoop (capacity : nat) (rest : list Z) (pos last : nat) (segs : list Segment) : option (list Segment) :=
  match rest with
  | [] => if Nat.eqb pos last then Some segs else addSegment capacity segs last pos
  | c :: rest' =>
    if Z.eqb c SEP then
      if Nat.eqb pos last then segmentLoop capacity rest' (S pos) (S last) segs
      else match addSegment capacity segs last pos with
           | Some segs' => segmentLoop capacity rest' (S pos) (S pos) segs'
           | None => None
           end
    else segmentLoop capacity rest' (S pos) last segs
  end.
(* headers.c:131-167 createSegmentArray *)
Definition createSegmentArray (n : list Z) : option (list Segment) :=
  segmentLoop (countHeaderSegments n) n 0 0 [].

(* headers.c:225-239 getHeaderIndex: nm is the memory from the name on.  A read
   outside the two texts counts as no match; it cannot happen for the lengths
   passed (index_reads_inside in HeadersProofs). *)
Fixpoint getHeaderIndexFrom (i : nat) (headers : list Header) (nm : list Z) (len : nat) : option nat :=
  match headers with
  | [] => None
  | h :: rest =>
    if (Nat.eqb (nameLength h) len &&
        match StringCompareLength len nm (cstr (name h)) with Some d => Z.eqb d 0 | None => false end)%bool
    then Some i else getHeaderIndexFrom (S i) rest nm len
  end.
(* headers.c:225-242 getHeaderIndex *)
Definition getHeaderIndex (headers : list Header) (nm : list Z) (len : nat) : option nat := getHeaderIndexFrom 0 headers nm len.

(* The headers array: a write behind its capacity, NULL, or the array. *)
Inductive outcome := Overflow | Null | Headers (hs : list Header).

(* headers.c:256-297 addHeadersFromDataSet *)
Fixpoint addHeadersFromDataSet (capacity : nat) (dataSet : list (Z * list Z)) (headers : list Header) : outcome :=
  match dataSet with
  | [] => Headers headers
  | (id, n) :: rest =>
    if (Nat.ltb 0 (length n) && Nat.ltb 0 (countHeaderSegments n) &&
        match getHeaderIndex headers (cstr n) (length n) with Some _ => false | None => true end)%bool
    then
      if Nat.ltb (length headers) capacity then
        match createSegmentArray n with
        | Some segs => addHeadersFromDataSet capacity rest (headers ++ [mkHeader n true id segs])
        | None => Null
        end
      else Overflow
    else addHeadersFromDataSet capacity rest headers
  end.

(* the characters of a segment *)
Definition segText (n : list Z) (s : Segment) : list Z := firstn (segLength s) (skipn (segStart s) n).

(* headers.c:208-220,311-320: the segments of one header *)
Fixpoint addSegmentsOf (capacity : nat) (n : list Z) (segs : list Segment) (headers : list Header) : outcome :=
  match segs with
  | [] => Headers headers
  | s :: rest =>
    match getHeaderIndex headers (skipn (segStart s) (cstr n)) (segLength s) with
    | Some _ => addSegmentsOf capacity n rest headers
    | None =>
      if Nat.ltb (length headers) capacity then
        match createSegmentArray (segText n s) with
        | Some segs' => addSegmentsOf capacity n rest (headers ++ [mkHeader (segText n s) false 0%Z segs'])
        | None => Null
        end
      else Overflow
    end
  end.
(* headers.c:303-324 addHeadersFromSegments: todo are the headers there at the
   start. *)
Fixpoint addHeadersFromSegments (capacity : nat) (todo headers : list Header) : outcome :=
  match todo with
  | [] => Headers headers
  | h :: rest =>
    match addSegmentsOf capacity (name h) (segments h) headers with
    | Headers headers' => addHeadersFromSegments capacity rest headers'
    | o => o
    end
  end.

(* headers.c:88-99 countPseudoHeaders *)
Definition countPseudoHeaders (headers : list Header) : nat :=
  length (filter (fun h => Nat.ltb 1 (length (segments h))) headers).

(* headers.c:333-368 fiftyoneDegreesHeadersCreate *)
Definition HeadersCreate (dataSet : list (Z * list Z)) : outcome :=
  let capacity := countAllSegments dataSet in
  match addHeadersFromDataSet capacity dataSet [] with
  | Headers hs => addHeadersFromSegments capacity hs hs
  | o => o
  end.

(* headers.c:329-331 fiftyoneDegreesHeadersIsPseudo *)
Definition HeadersIsPseudo (n : list Z) : bool := existsb (Z.eqb SEP) n.

(* headers.c:28 HTTP_PREFIX_UPPER "HTTP_" *)
Definition HTTP_PREFIX_UPPER : list Z := [72; 84; 84; 80; 95]%Z.
(* headers.c:370-402 fiftyoneDegreesHeaderGetIndex; sizeof(HTTP_PREFIX_UPPER) is 6. *)
Definition HeaderGetIndex (expectUpperPrefixedHeaders : bool) (headers : list Header) (httpHeaderName : list Z) (len : nat) : option nat :=
  if (expectUpperPrefixedHeaders && Nat.ltb 6 len &&
      match StringCompareLength 5 httpHeaderName (cstr HTTP_PREFIX_UPPER) with Some d => Z.eqb d 0 | None => false end)%bool
  then getHeaderIndex headers (skipn 5 httpHeaderName) (len - 5)
  else getHeaderIndex headers httpHeaderName len.

(* headers.c:404-414 fiftyoneDegreesHeadersGetHeaderFromUniqueId *)
Fixpoint HeadersGetHeaderFromUniqueId (headers : list Header) (id : Z) : option Header :=
  match headers with
  | [] => None
  | h :: rest => if Z.eqb (uniqueId h) id then Some h else HeadersGetHeaderFromUniqueId rest id
  end.
