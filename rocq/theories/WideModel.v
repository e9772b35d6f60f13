(* pool.c where long has 64 bits: pool.h has the head as a union of a volatile long
   with the two 16 bit values, so the exchanged word has 32 more bits that no code
   assigns.  PoolInit sets them to 0 with the rest; the variable next is not
   initialised, so they are any bits of the stack there, and a successful exchange
   writes them to the head.  The steps are those of PoolModel. *)
From Verif Require Export CacheModel PoolModel.

(* pool.h:187-193: index, aba, and the other half *)
Definition exchange (h : head) (half : Z) : Z := (Z.of_nat (idx h) + 2 ^ 16 * aba h + 2 ^ 32 * half)%Z.

(* pool.h:187-193, pool.c:79-81, 107-108: the other half of pool->head and, for each thread, that of orig *)
Record wide := mkWide { narrow : pool; high : Z; saved : nat -> Z }.

(* pool.c:75-118: a step of thread t, where garbage is the half of next that is not
   assigned.  copies: whether "orig = pool->head" copies that half, as compilers do;
   C lets it be unspecified, and then it is garbage too *)
Definition wstep (copies : bool) (t : nat) (a : action) (garbage : Z) (w : wide) : option (wide * list event) :=
  let p := narrow w in
  match nth_error (threads p) t, a with
  (* pool.c:84, 111 *)
  | Some TGet, Continue | Some (TRel _), Continue =>
    option_map (fun r => (mkWide (fst r) (high w) (fun u => if Nat.eqb u t then (if copies then high w else garbage) else saved w u), snd r)) (pstep t a p)
  (* pool.c:97-100, 104 *)
  | Some (TGetNext o v nx), Continue =>
    if Z.eqb (exchange (hd_ p) (high w)) (exchange o (saved w t)) then
      Some (mkWide (mkpool (nexts p) (resources p) (mkhead nx (inc16 (aba o))) (S (ver p)) (lupd (threads p) t TIdle)) garbage (saved w), [Got t (idx o)])
    else Some (mkWide (setT t TGet p) (high w) (saved w), [])
  (* pool.c:115-118 *)
  | Some (TRelNext i o v), Continue =>
    if Z.eqb (exchange (hd_ p) (high w)) (exchange o (saved w t)) then
      Some (mkWide (mkpool (nexts p) (resources p) (mkhead i (inc16 (aba o))) (S (ver p)) (lupd (threads p) t TIdle)) garbage (saved w), [RelEnd t i])
    else Some (mkWide (setT t (TRel i) p) (high w) (saved w), [])
  | _, _ => option_map (fun r => (mkWide (fst r) (high w) (saved w), snd r)) (pstep t a p)
  end.
