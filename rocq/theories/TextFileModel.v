(* textfile.c.  Characters are integers, the file is what is not read yet, the
   buffer is the memory the caller gave; pointers into it are offsets.  None is
   undefined: reading outside the buffer.  Not modelled: the counter is unbounded
   (an int in C), read errors. *)
From Coq Require Export ZArith List Lia Bool.
Export ListNotations.

Definition isEol (c : Z) : bool := Z.eqb c 13 || Z.eqb c 10. (* \r and \n *)
Definition setAt (buf : list Z) (i : nat) (c : Z) : list Z := firstn i buf ++ c :: skipn (S i) buf.
(* the string at an offset; None without '\0' before the end of the memory *)
Fixpoint cstring (l : list Z) : option (list Z) :=
  match l with
  | [] => None
  | c :: rest => if Z.eqb c 0 then Some [] else option_map (cons c) (cstring rest)
  end.

(* textfile.c:34-36, with n = end - current *)
Fixpoint toEol (buf : list Z) (current n : nat) : nat :=
  match n with
  | O => current
  | S n' => if isEol (nth current buf 0%Z) then current else toEol buf (S current) n'
  end.
(* textfile.c:48-50 *)
Fixpoint skipEol (buf : list Z) (current n : nat) : nat :=
  match n with
  | O => current
  | S n' => if isEol (nth current buf 0%Z) then skipEol buf (S current) n' else current
  end.
(* textfile.c:27-52 returnNextLine: the buffer, the new current, what was given to
   callback *)
Definition returnNextLine (buf : list Z) (buffer end_ current : nat) : option (list Z * nat * list (list Z)) :=
  let c := toEol buf current (end_ - current) in
  if Nat.ltb c end_ then
    let buf' := setAt buf c 0 in
    match cstring (skipn buffer buf') with
    | Some s => Some (buf', skipEol buf' (S c) (end_ - S c), [s])
    | None => None
    end
  else Some (buf, skipEol buf c (end_ - c), []).

(* fread of n characters to offset current: the buffer, the rest of the file, the
   number read *)
Definition fread (buf : list Z) (current n : nat) (file : list Z) : list Z * list Z * nat :=
  let bytes := firstn n file in
  (firstn current buf ++ bytes ++ skipn (current + length bytes) buf, skipn n file, length bytes).
(* textfile.c:77-78 memmove(buffer, current, shift) *)
Definition shiftLeft (buf : list Z) (current shift : nat) : list Z := firstn shift (skipn current buf) ++ skipn shift buf.

(* textfile.c:54-103: the test of the limit *)
Definition more (limit : Z) (counter : nat) : bool := Z.ltb limit 0 || Z.ltb (Z.of_nat counter) limit.
(* textfile.c:67-80: the buffer, current, bufferRead and counter at the end *)
Fixpoint readLoop (fuel : nat) (buf : list Z) (end_ current bufferRead counter : nat) (limit : Z) (file : list Z) (out : list (list Z)) :
    option (list Z * nat * nat * nat * list (list Z)) :=
  if more limit counter then
    let '(buf1, file1, n) := fread buf current (end_ - current) file in
    if Nat.eqb n (end_ - current) then
      match fuel, returnNextLine buf1 0 end_ 0 with
      | S fuel', Some (buf2, current2, called) =>
        let shift := end_ - current2 in
        readLoop fuel' (shiftLeft buf2 current2 shift) end_ shift n (S counter) limit file1 (out ++ called)
      | _, _ => None
      end
    else Some (buf1, current, n, counter, out)
  else Some (buf, current, bufferRead, counter, out).
(* textfile.c:97-103 *)
Fixpoint lastLoop (fuel : nat) (buf : list Z) (buffer end_ current counter : nat) (limit : Z) (out : list (list Z)) : option (list (list Z)) :=
  if Nat.ltb current end_ && more limit counter then
    match fuel, returnNextLine buf buffer end_ buffer with
    | S fuel', Some (buf', current', called) => lastLoop fuel' buf' current' end_ current' (S counter) limit (out ++ called)
    | _, _ => None
    end
  else Some out.
(* textfile.c:54-104 fiftyoneDegreesTextFileIterateWithLimit for a file that can be
   opened; the strings that were given to callback, in order *)
Definition TextFileIterateWithLimit (buf : list Z) (limit : Z) (file : list Z) : option (list (list Z)) :=
  match readLoop (S (length file)) buf (length buf) 0 0 0 limit file [] with
  | None => None
  | Some (buf1, current, bufferRead, counter, out) =>
    let end1 := current + bufferRead in
    if more limit counter then
      match end1 with
      | O => None (* *(end - 1) before the buffer *)
      | S e =>
        let '(buf2, end2) := if isEol (nth e buf1 0%Z) then (buf1, end1) else (setAt buf1 end1 10, S end1) in
        if Nat.leb end2 (length buf) then lastLoop (S end2) buf2 0 end2 current counter limit out else None
      end
    else Some out
  end.
(* textfile.c:107-122 fiftyoneDegreesTextFileIterate *)
Definition TextFileIterate (buf : list Z) (file : list Z) : option (list (list Z)) := TextFileIterateWithLimit buf (-1) file.
