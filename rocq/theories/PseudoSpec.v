(* What pseudo evidence is. *)
From Verif Require Export EvidenceModel StringSpec HeadersSpec.
From Verif Require Import HeadersModel.

(* v is the value of the first evidence with prefix p and field w *)
Definition hasValue (ev : list Pair) (p : Z) (w v : list Z) : Prop :=
  exists before q after, ev = before ++ q :: after /\ prefix q = p /\ sameText (field q) w /\ originalValue q = Some v /\
    forall r, In r before -> ~ (prefix r = p /\ sameText (field r) w).
Fixpoint join (l : list (list Z)) : list Z :=
  match l with
  | [] => []
  | [v] => v
  | v :: rest => v ++ separator :: join rest
  end.
(* evidence for the name itself *)
Definition supplied (ev : list Pair) (order : list Z) (n : list Z) : Prop :=
  exists q, In q ev /\ In (prefix q) order /\ sameText (field q) n.
(* the value made of the values of all parts of the name *)
Definition constructs (ev : list Pair) (n : list Z) (p : Z) (v : list Z) : Prop :=
  exists words values, parts n words /\ Forall2 (hasValue ev p) words values /\ v = join values /\ v <> [].
(* the evidence for a list of headers *)
Inductive adds (ev : list Pair) (order : list Z) : list (list Z) -> list (Z * list Z * list Z) -> Prop :=
| adds_nil : adds ev order [] []
| adds_plain n names l : ~ In separator n -> adds ev order names l -> adds ev order (n :: names) l
| adds_supplied n names l : supplied ev order n -> adds ev order names l -> adds ev order (n :: names) l
| adds_missing n names l : In separator n -> (forall p v, In p order -> ~ constructs ev n p v) ->
    adds ev order names l -> adds ev order (n :: names) l
| adds_new n names l order1 p order2 v : In separator n -> ~ supplied ev order n ->
    order = order1 ++ p :: order2 -> (forall q w, In q order1 -> ~ constructs ev n q w) -> constructs ev n p v ->
    adds ev order names l -> adds ev order (n :: names) ((p, n, v) :: l).
(* the text in a buffer: what is before the first zero *)
Fixpoint cstring (buf : list Z) : list Z :=
  match buf with
  | [] => []
  | c :: rest => if Z.eqb c 0 then [] else c :: cstring rest
  end.
