(* Specification of the binary search *)
From Verif Require Import SearchModel.

Section S.
  Context {A : Type} (get : Z -> option A * bool) (cmp : A -> Z -> Z * bool).

  (* what comparing the item at an index gives, if nothing fails *)
  Definition cmpAt (i : Z) : option Z :=
    match get i with
    | (Some a, true) => match cmp a i with (r, true) => Some r | _ => None end
    | _ => None
    end.
  (* comparison results along the bounds: negative, then zero, then positive *)
  Definition sortedFor (lo up : Z) : Prop :=
    (forall i j r s, lo <= i -> i < j -> j <= up -> cmpAt i = Some r -> cmpAt j = Some s ->
      (0 < r -> 0 < s) /\ (s < 0 -> r < 0))%Z.
  (* events of one search, newest first: each item released before the next get *)
  Fixpoint paired (tr : list sev) : bool :=
    match tr with
    | [] => true
    | SRelease i :: SGet j :: tr' => Z.eqb i j && paired tr'
    | _ => false
    end.
End S.
