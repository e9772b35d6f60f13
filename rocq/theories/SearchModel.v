(* Model of collection.c 1177-1228: binary search in a collection.

   [get i] is what collection->get returns for index i: an item or NULL, and
   whether the exception is clear afterwards; [cmp item i] the comparer's
   result and whether the exception is clear.  The calls made are recorded. *)
From Coq Require Export List Arith ZArith Lia Bool.
Export ListNotations.

(* items taken from and given back to the collection *)
Inductive sev := SGet (i : Z) | SRelease (i : Z).

Section Search.
  Context {A : Type}.
  Variable get : Z -> option A * bool.
  Variable cmp : A -> Z -> Z * bool.

  (* result: the long returned and whether the exception is clear; None: out
     of fuel *)
  Fixpoint search (fuel : nat) (lower upper : Z) (tr : list sev) : option (Z * bool * list sev) :=
    match fuel with
    | 0 => None
    | S fuel' =>
      if Z.leb lower upper then                               (* 1190 *)
        let middle := (lower + (upper - lower) / 2)%Z in      (* 1193; no wrap as lower <= upper *)
        let tr := SGet middle :: tr in
        match get middle with
        | (None, ok) => Some (0%Z, ok, tr)                    (* 1196-1199 *)
        | (Some _, false) => Some (0%Z, false, tr)
        | (Some a, true) =>
          match cmp a middle with
          | (_, false) => Some (0%Z, false, tr)               (* 1204-1206 *)
          | (r, true) =>
            if Z.eqb r 0 then Some (middle, true, tr)         (* 1208-1210 *)
            else
              let tr' := SRelease middle :: tr in             (* 1223 *)
              if Z.ltb 0 r then
                if Z.eqb middle 0
                then search fuel' ((lower + 1) mod 2 ^ 32)%Z upper tr'   (* 1216 *)
                else search fuel' lower (middle - 1)%Z tr'               (* 1213 *)
              else search fuel' ((middle + 1) mod 2 ^ 32)%Z upper tr'    (* 1220 *)
          end
        end
      else Some ((-1)%Z, true, tr)                             (* 1227 *)
    end.
  Definition BinarySearch (fuel : nat) (lower upper : Z) := search fuel lower upper [].
End Search.
