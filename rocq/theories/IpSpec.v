(* Specification of IP address texts and bytes *)
From Coq Require Export List Arith ZArith Lia Bool.
Export ListNotations.

(* decimal text without padding of a number below 1000 *)
Definition decimal (n : Z) : list Z :=
  if Z.ltb n 10 then [48 + n]%Z
  else if Z.ltb n 100 then [48 + n / 10; 48 + n mod 10]%Z
  else [48 + n / 100; 48 + n / 10 mod 10; 48 + n mod 10]%Z.
Definition isByte (n : Z) : Prop := (0 <= n <= 255)%Z.
Definition dot : Z := 46.
Definition colon : Z := 58.
Definition quad (a b c d : Z) : list Z :=
  decimal a ++ dot :: decimal b ++ dot :: decimal c ++ dot :: decimal d.

(* hexadecimal digits, in either case; a group of one to four digits *)
Definition hexDigit (c v : Z) : Prop :=
  (0 <= v <= 9 /\ c = 48 + v \/ 10 <= v <= 15 /\ (c = 87 + v \/ c = 55 + v))%Z.
Definition hexNumber (vs : list Z) : Z := fold_left (fun a v => a * 16 + v)%Z vs 0%Z.
Definition hexGroup (t : list Z) (g : Z) : Prop :=
  exists vs, Forall2 hexDigit t vs /\ 1 <= length t <= 4 /\ g = hexNumber vs.

(* texts separated by colons *)
Fixpoint join (ts : list (list Z)) : list Z :=
  match ts with [] => [] | [t] => t | t :: ts' => t ++ colon :: join ts' end.
Definition groupBytes (gs : list Z) : list Z := flat_map (fun g => [g / 256; g mod 256]%Z) gs.
(* what may follow an address: the end of the text, a space or a comma *)
Definition ended (rest : list Z) : Prop := rest = [] \/ exists r, rest = 32%Z :: r \/ rest = 44%Z :: r.

(* an IPv6 text and the eight groups it stands for *)
Inductive ipv6Text : list Z -> list Z -> Prop :=
| full ts gs : Forall2 hexGroup ts gs -> length gs = 8 -> ipv6Text (join ts) gs
| abbreviated ls gl rs gr : Forall2 hexGroup ls gl -> Forall2 hexGroup rs gr -> length gl + length gr <= 7 ->
    ipv6Text (join ls ++ [colon; colon] ++ join rs) (gl ++ repeat 0%Z (8 - length gl - length gr) ++ gr).

(* an IPv6 text whose last four bytes are written as an IPv4 address, and its
   bytes *)
Inductive mixedText : list Z -> list Z -> Prop :=
| mixedFull ts gs a b c d : Forall2 hexGroup ts gs -> length gs = 6 -> isByte a -> isByte b -> isByte c -> isByte d ->
    mixedText (join ts ++ colon :: quad a b c d) (groupBytes gs ++ [a; b; c; d])
| mixedAbbreviated ls gl rs gr a b c d : Forall2 hexGroup ls gl -> Forall2 hexGroup rs gr -> length gl + length gr <= 5 ->
    isByte a -> isByte b -> isByte c -> isByte d ->
    mixedText (join ls ++ [colon; colon] ++ flat_map (fun t => t ++ [colon]) rs ++ quad a b c d)
      (groupBytes gl ++ repeat 0%Z (12 - 2 * length gl - 2 * length gr) ++ groupBytes gr ++ [a; b; c; d]).

(* texts between separators: n separators give n + 1 texts *)
Definition separator (c : Z) : bool := existsb (Z.eqb c) [44; 58; 46; 32; 0]%Z.
Fixpoint split (l : list Z) : list (list Z) :=
  match l with
  | [] => [[]]
  | c :: l' =>
    if separator c then [] :: split l'
    else match split l' with t :: ts => (c :: t) :: ts | [] => [[c]] end
  end.
Definition isEmpty (t : list Z) : bool := match t with [] => true | _ => false end.
(* empty texts other than the first and the last *)
Definition innerEmpty (l : list Z) : nat := length (filter isEmpty (removelast (tl (split l)))).
Definition nonEmpty (l : list Z) : nat := length (filter (fun t => negb (isEmpty t)) (split l)).

(* the number a sequence of bytes stands for, most significant first *)
Definition bigEndian (l : list Z) : Z := fold_left (fun a b => a * 256 + b)%Z l 0%Z.

(* the first dot or colon of a text *)
Fixpoint mark (l : list Z) : option Z :=
  match l with
  | [] => None
  | c :: l' => if Z.eqb c dot || Z.eqb c colon then Some c else mark l'
  end.

(* texts of addresses, and several of them with a space or comma in between *)
Inductive ipText : list Z -> bool * list Z -> Prop :=
| v4Text a b c d : isByte a -> isByte b -> isByte c -> isByte d -> ipText (quad a b c d) (true, [a; b; c; d])
| v6Text t gs : ipv6Text t gs -> ipText t (false, groupBytes gs)
| v6Mixed t bytes : mixedText t bytes -> ipText t (false, bytes).
Inductive ipTexts : list Z -> list (bool * list Z) -> Prop :=
| oneText t a : ipText t a -> ipTexts t [a]
| moreTexts t a c l r : ipText t a -> c = 32%Z \/ c = 44%Z -> ipTexts l r -> ipTexts (t ++ c :: l) (a :: r).
