(* What is expected of the memory of a data set and of the statuses of its
   initialisation: independent of the model apart from the types of its
   inputs. *)
From Coq Require Import Permutation.
From Verif Require Import ItemModel InitModel HeadersSpec.
From Verif Require LifeSpec.
Local Open Scope nat_scope.

(* no name of the data set has an empty segment beside a single one *)
Definition tidyNames (dataSet : list (Z * list Z)) : Prop := forall e, In e dataSet -> tidy (snd e).
(* nothing fails for the headers of the data set *)
Definition trustedHeaders (ok : acall -> bool) : Prop := forall i, ok (DName i) = true /\ ok (DSegs i) = true.
(* the name is there *)
Definition named (x : way * evid) : Prop := LifeSpec.readable (fst x).
(* the evidence properties are there and as many as announced *)
Definition complete (x : way * evid) : Prop := okArray (snd x) = true /\ needed (snd x) = given (snd x).
(* the read of a name either works or fails before memory for it is there *)
Definition clean (w : way) : Prop := forall bytes, w <> Try bytes true false.
(* the items are only put into another order *)
Definition reorders (order : list pitem -> list pitem) : Prop := forall l, Permutation l (order l).

(* the members of a data set that are set; PList: there are properties *)
Inductive part := PHeaders | PProps | PList | POverrides | PMemory.
(* the properties were asked for in a way that gives a list, maybe empty *)
Definition listed (okMem : bool) (chosen : option (list (way * evid))) : bool :=
  match chosen with Some _ => okMem | None => false end.
(* each part is set at most once before all are freed, and nothing fails that
   is not expected to fail; [set] are the parts set *)
Fixpoint proper (set : list part) (os : list dop) : Prop :=
  match os with
  | [] => True
  | DHeaders ok ds :: os' => ~ In PHeaders set /\ trustedHeaders ok /\ tidyNames ds /\ proper (PHeaders :: set) os'
  | DProps okMem chosen order :: os' =>
    ~ In PProps set /\ (forall l, chosen = Some l -> Forall named l) /\ reorders order /\
    proper (PProps :: if listed okMem chosen then PList :: set else set) os'
  | DOverrides _ _ :: os' => ~ In POverrides set /\ In PList set /\ proper (POverrides :: set) os'
  | DMemory _ :: os' => ~ In PMemory set /\ proper (PMemory :: set) os'
  | DFree :: os' => proper [] os'
  end.

(* only the blocks lost are added to the heap *)
Definition addsOnly (lost : list nat) (before after : list (nat * Z)) : Prop :=
  filter (fun b => negb (existsb (Nat.eqb (fst b)) lost)) after = before.
(* the headers have memory of their own: names with terminators, segments of 24
   bytes behind 16 of the array *)
Definition housed (heap : list (nat * Z)) (hs : list hitem) : Prop :=
  NoDup (map bname hs ++ map bsegs hs) /\
  forall h, In h hs -> exists sn ss,
    In (bname h, sn) heap /\ (Z.of_nat (length (name (content h))) < sn)%Z /\
    In (bsegs h, ss) heap /\ (16 + 24 * Z.of_nat (length (segments (content h))) <= ss)%Z.
