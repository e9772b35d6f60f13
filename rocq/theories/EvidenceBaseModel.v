(* EvidenceBase.cpp: a std::map of strings that gives an evidence array.  A std::string is
   any list of bytes; c_str() is used as C string, so it ends at the first zero.  The map is
   the list of its entries in the order of the keys, iterators are places in it.  Objects
   and arrays are never given the place of another one. *)
From Verif Require Export EvidenceModel.

(* the text that a C function sees in c_str() *)
Fixpoint cText (s : list Z) : list Z :=
  match s with [] => [] | c :: s' => if Z.eqb c 0 then [] else c :: cText s' end.
(* operator< of std::string: as unsigned bytes *)
Fixpoint less (a b : list Z) : bool :=
  match a, b with
  | _, [] => false
  | [], _ :: _ => true
  | x :: a', y :: b' => Z.ltb x y || (Z.eqb x y && less a' b')
  end.
(* std::map: map[key] = value *)
Fixpoint assign (key value : list Z) (m : list (list Z * list Z)) : list (list Z * list Z) :=
  match m with
  | [] => [(key, value)]
  | (k, v) :: m' => if less key k then (key, value) :: m else if less k key then (k, v) :: assign key value m' else (k, value) :: m'
  end.

(* EvidenceBase.hpp: the map and the pointer to the array *)
Record Object := mkObject { entries : list (list Z * list Z); evidence : option nat; alive : bool }.
(* the objects, and for each array that was allocated whether it still is *)
Record World := mkWorld { objects : list Object; blocks : list bool }.
(* a list with a place changed *)
Fixpoint put {A} (n : nat) (x : A) (l : list A) : list A :=
  match l, n with [], _ => [] | _ :: l', O => x :: l' | y :: l', S n' => y :: put n' x l' end.
(* evidence.c:71-74 fiftyoneDegreesEvidenceFree; None if it is not allocated *)
Definition EvidenceFree (p : option nat) (bs : list bool) : option (list bool) :=
  match p with
  | None => Some bs
  | Some b => if nth b bs false then Some (put b false bs) else None
  end.

(* EvidenceBase.cpp:47-59 the loop of get *)
Fixpoint addEntries (isRelevant : Z -> bool) (m : list (list Z * list Z)) (e : Evidence) : Evidence :=
  match m with
  | [] => e
  | (k, v) :: m' =>
    addEntries isRelevant m'
      match EvidenceMapPrefix (cText k) with
      | Some (t, p) => if isRelevant p then fst (EvidenceAddString e p (skipn (List.length t) (cText k)) (Some (cText v))) else e
      | None => e
      end
  end.

(* what is done with the objects; iterators are places *)
Inductive op :=
| New
| Assign (o : nat) (key value : list Z)
| Get (o : nat) (malloc : bool)
| Clear (o : nat)
| Erase (o at_ : nat)
| EraseRange (o first last : nat)
| Copy (o : nat)
| Delete (o : nat).
(* what get returns *)
Inductive returned := Nothing | Array (e : option Evidence).

(* One call; None if it is undefined *)
Definition perform (isRelevant : Z -> bool) (x : op) (w : World) : option (World * returned) :=
  let on o (f : Object -> option (World * returned)) :=
    match nth_error (objects w) o with
    | Some ob => if alive ob then f ob else None
    | None => None
    end in
  let freed o ob m :=
    option_map (fun bs => (mkWorld (put o (mkObject m None true) (objects w)) bs, Nothing)) (EvidenceFree (evidence ob) (blocks w)) in
  match x with
  (* EvidenceBase.cpp:29-31 *)
  | New => Some (mkWorld (objects w ++ [mkObject [] None true]) (blocks w), Nothing)
  (* the methods of std::map *)
  | Assign o k v => on o (fun ob => Some (mkWorld (put o (mkObject (assign k v (entries ob)) (evidence ob) true) (objects w)) (blocks w), Nothing))
  (* EvidenceBase.cpp:40-62 *)
  | Get o malloc => on o (fun ob =>
      match EvidenceFree (evidence ob) (blocks w) with
      | None => None
      | Some bs =>
        if malloc then
          let e := addEntries isRelevant (entries ob) (EvidenceCreate (Z.to_nat (Z.of_nat (List.length (entries ob)) mod 2 ^ 32))) in
          Some (mkWorld (put o (mkObject (entries ob) (Some (List.length bs)) true) (objects w)) (bs ++ [true]), Array (Some e))
        else Some (mkWorld (put o (mkObject (entries ob) None true) (objects w)) bs, Array None)
      end)
  (* EvidenceBase.cpp:75-79 *)
  | Clear o => on o (fun ob => freed o ob [])
  (* EvidenceBase.cpp:81-85; the end may not be erased *)
  | Erase o at_ => on o (fun ob => if Nat.ltb at_ (List.length (entries ob)) then freed o ob (firstn at_ (entries ob) ++ skipn (S at_) (entries ob)) else None)
  (* EvidenceBase.cpp:87-91 *)
  | EraseRange o a b => on o (fun ob => if Nat.leb a b && Nat.leb b (List.length (entries ob)) then freed o ob (firstn a (entries ob) ++ skipn b (entries ob)) else None)
  (* the copy constructor that the compiler makes *)
  | Copy o => on o (fun ob => Some (mkWorld (objects w ++ [ob]) (blocks w), Nothing))
  (* EvidenceBase.cpp:33-38 *)
  | Delete o => on o (fun ob => option_map (fun bs => (mkWorld (put o (mkObject [] None false) (objects w)) bs, Nothing)) (EvidenceFree (evidence ob) (blocks w)))
  end.
(* Calls one after the other *)
Fixpoint performAll (isRelevant : Z -> bool) (l : list op) (w : World) : option (World * list returned) :=
  match l with
  | [] => Some (w, [])
  | x :: l' =>
    match perform isRelevant x w with
    | None => None
    | Some (w', r) => option_map (fun '(w'', rs) => (w'', r :: rs)) (performAll isRelevant l' w')
    end
  end.
