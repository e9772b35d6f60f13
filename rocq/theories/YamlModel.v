(* yamlfile.c.  Characters are integers; the buffers of the pairs are lists, with
   the lengths that the pairs say.  A pointer into them is a pair, key or value, and
   an offset.  None is undefined: access outside the pairs or outside a buffer.  Not
   modelled: size_t counters are unbounded (they count characters of the file), read
   errors. *)
From Verif Require Export TextFileModel.

(* limits.h *)
Definition INT_MAX : Z := 2 ^ 31 - 1.
(* conversion to int16_t *)
Definition toInt16 (z : Z) : Z := ((z + 2 ^ 15) mod 2 ^ 16 - 2 ^ 15)%Z.
(* the buffers of the pairs, key and value *)
Definition Pairs : Type := list (list Z * list Z).

(* yamlfile.c:29-35 PairState: index, and current as pair, key or value, and offset;
   limit_ is end - start of the buffer *)
Record PairState := mkPair { pairs : Pairs; index : Z; currentPair : nat; inValue : bool; offset : nat; end_ : Z }.
(* yamlfile.c:37-49 FileState without the buffer *)
Record FileState := mkFile { dashCount : nat; dotCount : nat; newLineCount : nat; quote : nat; position : nat; colon : nat }.
(* the buffer: what is read of it, what is not read yet of the file *)
Record Reader := mkReader { bufferLength : nat; ahead : list Z; file : list Z }.

(* yamlfile.c:51-83 readNextBlock, readNext: the next character or NULL *)
Definition readNext (r : Reader) : option Z * Reader :=
  match ahead r with
  | c :: rest => (Some c, mkReader (bufferLength r) rest (file r))
  | [] =>
    match firstn (bufferLength r) (file r) with
    | c :: rest => (Some c, mkReader (bufferLength r) rest (skipn (bufferLength r) (file r)))
    | [] => (None, r)
    end
  end.

(* the buffer at current *)
Definition bufferOf (ps : PairState) (p : nat) (value : bool) : option (list Z) :=
  option_map (if value then snd else fst) (nth_error (pairs ps) p).
(* an array element is assigned *)
Definition setPair (l : Pairs) (i : nat) (x : list Z * list Z) : Pairs := firstn i l ++ x :: skipn (S i) l.
(* *state->current = c *)
Definition store (ps : PairState) (c : Z) : option PairState :=
  match nth_error (pairs ps) (currentPair ps) with
  | Some (k, v) =>
    if Nat.ltb (offset ps) (length (if inValue ps then v else k)) then
      Some (mkPair (setPair (pairs ps) (currentPair ps) (if inValue ps then (k, setAt v (offset ps) c) else (setAt k (offset ps) c, v)))
                   (index ps) (currentPair ps) (inValue ps) (offset ps) (end_ ps))
    else None
  | None => None
  end.
(* yamlfile.c:86-90 setCurrentKey, 93-97 setCurrentValue *)
Definition setCurrent (value : bool) (ps : PairState) : option PairState :=
  if Z.ltb (index ps) 0 then None
  else match bufferOf ps (Z.to_nat (index ps)) value with
       | Some b => Some (mkPair (pairs ps) (index ps) (Z.to_nat (index ps)) value 0 (Z.of_nat (length b) - 1))
       | None => None
       end.
(* yamlfile.c:101-104 switchKeyValue *)
Definition switchKeyValue (ps : PairState) : option PairState :=
  match store ps 0 with Some ps' => setCurrent true ps' | None => None end.
(* yamlfile.c:108-112 nextPair *)
Definition nextPair (ps : PairState) : option PairState :=
  match store ps 0 with
  | Some ps' => setCurrent false (mkPair (pairs ps') (toInt16 (index ps' + 1)) (currentPair ps') (inValue ps') (offset ps') (end_ ps'))
  | None => None
  end.
(* yamlfile.c:125-127 newDocument *)
Definition newDocument (ps : PairState) : PairState := mkPair (pairs ps) (-1) (currentPair ps) (inValue ps) (offset ps) (end_ ps).
(* yamlfile.c:130-133 advance *)
Definition advance (fs : FileState) : FileState := mkFile (dashCount fs) (dotCount fs) 0 (quote fs) (S (position fs)) (colon fs).
(* yamlfile.c:136-138 isValue *)
Definition isValue (fs : FileState) : bool := Nat.eqb (colon fs) 0 || Nat.ltb (colon fs + 1) (position fs).
(* yamlfile.c:141-151 addCharacter *)
Definition addCharacter (ps : PairState) (fs : FileState) (size c : Z) : option PairState :=
  if Z.ltb (Z.of_nat (offset ps)) (end_ ps) && Z.ltb (index ps) size && isValue fs then
    match store ps c with
    | Some ps' => Some (mkPair (pairs ps') (index ps') (currentPair ps') (inValue ps') (S (offset ps')) (end_ ps'))
    | None => None
    end
  else Some ps.

(* a call of callback: the pairs it can see *)
Definition call : Type := Pairs.
(* yamlfile.c:153-286: the call of the callback, if there is a pair *)
Definition callback (ps : PairState) : list call := if Z.ltb 0 (index ps) then [firstn (Z.to_nat (index ps)) (pairs ps)] else [].
(* yamlfile.c:207-212: the character before current when there was a quote *)
Definition removeQuote (ps : PairState) (fs : FileState) : option PairState :=
  if Nat.ltb 0 (quote fs) then
    match offset ps with
    | O => None
    | S o =>
      match bufferOf ps (currentPair ps) (inValue ps) with
      | Some b => Some (if Z.eqb (nth o b 0%Z) 39 then mkPair (pairs ps) (index ps) (currentPair ps) (inValue ps) o (end_ ps) else ps)
      | None => None
      end
    end
  else Some ps.

(* all state of the loop *)
Record State := mkState { fileState : FileState; pairState : PairState; count : Z; calls : list call }.
(* how a step ends *)
Inductive outcome := Running (st : State) | Stopped (result : list call) | Undefined.
(* yamlfile.c:201-287: the body of the loop; at the end of a line newLine (115-122)
   clears the counts and newLineCount is counted *)
Definition step (size limit : Z) (st : State) (current : option Z) : outcome :=
  let fs := fileState st in
  let ps := pairState st in
  match current with
  | None =>
    match (if Nat.eqb (newLineCount fs) 0 then match removeQuote ps fs with Some p => nextPair p | None => None end else Some ps) with
    | Some ps' => Stopped (calls st ++ callback ps')
    | None => Undefined
    end
  | Some c =>
    if isEol c then
      match (if Nat.eqb (newLineCount fs) 0 then match removeQuote ps fs with Some p => nextPair p | None => None end else Some ps) with
      | Some ps' => Running (mkState (mkFile 0 0 1 0 0 0) ps' (count st) (calls st))
      | None => Undefined
      end
    else if Z.eqb c 45 && Nat.eqb (position fs) (dashCount fs) then
      let fs1 := advance fs in
      let fs' := mkFile (S (dashCount fs1)) (dotCount fs1) (newLineCount fs1) (quote fs1) (position fs1) (colon fs1) in
      if Nat.eqb (dashCount fs') 3 then
        if Z.ltb 0 (index ps) then
          if Z.leb limit (count st + 1) then Stopped (calls st ++ callback ps)
          else Running (mkState fs' (newDocument ps) (count st + 1) (calls st ++ callback ps))
        else Running (mkState fs' (newDocument ps) (count st) (calls st))
      else Running (mkState fs' ps (count st) (calls st))
    else if Z.eqb c 46 && Nat.eqb (position fs) (dotCount fs) then
      let fs1 := advance fs in
      let fs' := mkFile (dashCount fs1) (S (dotCount fs1)) (newLineCount fs1) (quote fs1) (position fs1) (colon fs1) in
      if Nat.eqb (dotCount fs') 3 then Stopped (calls st ++ callback ps)
      else Running (mkState fs' ps (count st) (calls st))
    else if Z.eqb c 58 && Nat.eqb (colon fs) 0 then
      let fs1 := advance fs in
      match switchKeyValue ps with
      | Some ps' => Running (mkState (mkFile (dashCount fs1) (dotCount fs1) (newLineCount fs1) (quote fs1) (position fs1) (position fs1)) ps' (count st) (calls st))
      | None => Undefined
      end
    else if Z.eqb c 39 && Nat.ltb 0 (colon fs) && Nat.eqb (colon fs + 1) (position fs) then
      let fs1 := advance fs in
      Running (mkState (mkFile (dashCount fs1) (dotCount fs1) (newLineCount fs1) (position fs1) (position fs1) (colon fs1)) ps (count st) (calls st))
    else
      let fs1 := advance fs in
      match addCharacter ps fs1 size c with
      | Some ps' => Running (mkState fs1 ps' (count st) (calls st))
      | None => Undefined
      end
  end.
(* yamlfile.c:153-286 the loop of fiftyoneDegreesYamlFileIterateWithLimit *)
Fixpoint loop (fuel : nat) (size limit : Z) (r : Reader) (st : State) : option (list call) :=
  match fuel with
  | O => None
  | S fuel' =>
    let '(c, r') := readNext r in
    match step size limit st c with
    | Running st' => loop fuel' size limit r' st'
    | Stopped result => Some result
    | Undefined => None
    end
  end.
(* yamlfile.c:153-290 fiftyoneDegreesYamlFileIterateWithLimit for a file that can be
   opened: what callback was given, in order *)
Definition YamlFileIterateWithLimit (length_ : nat) (keyValuePairs : Pairs) (limit : Z) (content : list Z) : option (list call) :=
  let st := mkPair keyValuePairs 0 0 false 0 0 in
  match setCurrent false st with
  | None => None
  | Some ps =>
    loop (S (length content)) (Z.of_nat (length keyValuePairs)) (if Z.ltb limit 0 then INT_MAX else limit)
         (mkReader length_ [] content) (mkState (mkFile 0 0 0 0 0 0) ps 0 [])
  end.
(* yamlfile.c:292-310 fiftyoneDegreesYamlFileIterate *)
Definition YamlFileIterate (length_ : nat) (keyValuePairs : Pairs) (content : list Z) : option (list call) :=
  YamlFileIterateWithLimit length_ keyValuePairs (-1) content.
