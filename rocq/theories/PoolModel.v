(* Model of /repo/pool.c: a lock free stack of items with a 16 bit ABA counter.

   Item 0 is the null marker.  Every shared memory access made by get and
   release is a separate step, so all interleavings of threads are covered.
   Simplifications: "orig = pool->head" is one access (the union is as wide as
   the exchanged word); memory is sequentially consistent; the ghost fields
   [ver] (successful exchanges so far) and the version in a thread's saved
   head are not read by any step and only serve to state how many exchanges
   happened in between.  On LP64 the exchanged word has padding beside index
   and aba (pool.h: volatile long); the padding is not modelled. *)
From Coq Require Export List Arith ZArith Lia Bool.
Export ListNotations.
From Verif Require Import CacheModel.

(* pool.h: fiftyoneDegreesPoolHead.values *)
Record head := mkhead { idx : nat; aba : Z }.
(* the comparison of the exchange, pool.h *)
Definition head_eqb (a b : head) := Nat.eqb (idx a) (idx b) && Z.eqb (aba a) (aba b).

(* where a thread is; the nat beside a saved head is its ghost version *)
Inductive tstate :=
| TIdle
| TGet                                  (* pool.c 82: loop entry of get *)
| TGetRead (o : head) (v : nat)         (* after line 84 *)
| TGetNext (o : head) (v : nat) (nx : nat)  (* after line 96 *)
| TRel (i : nat)                        (* pool.c 110: loop entry of release *)
| TRelRead (i : nat) (o : head) (v : nat)   (* after line 111 *)
| TRelNext (i : nat) (o : head) (v : nat).  (* after line 114 *)

Record pool := mkpool {
  nexts : list nat;        (* stack[i].next *)
  resources : list bool;   (* stack[i].resource != NULL *)
  hd_ : head;
  ver : nat;
  threads : list tstate }.

(* what users see *)
Inductive event :=
| GetBegin (t : nat)
| Read (t : nat)             (* the get of thread t reads the head *)
| Got (t i : nat)            (* get returns item i *)
| Exhausted (t : nat)        (* get reports INSUFFICIENT_HANDLES *)
| RelBegin (t i : nat)
| RelEnd (t i : nat).

(* what a thread does next *)
Inductive action := CallGet | CallRelease (i : nat) | Continue.

(* uint16_t increment *)
Definition inc16 (z : Z) : Z := ((z + 1) mod 2 ^ 16)%Z.

(* the state of a thread is changed *)
Definition setT (t : nat) (x : tstate) (p : pool) : pool :=
  mkpool (nexts p) (resources p) (hd_ p) (ver p) (lupd (threads p) t x).

(* one step of thread t; None: the thread or array index does not exist, or
   the action does not apply *)
Definition pstep (t : nat) (a : action) (p : pool) : option (pool * list event) :=
  match nth_error (threads p) t with
  | None => None
  | Some TIdle =>
    match a with
    | CallGet => Some (setT t TGet p, [GetBegin t])
    | CallRelease i => Some (setT t (TRel i) p, [RelBegin t i])
    | Continue => None
    end
  | Some x =>
    match a with
    | Continue =>
      match x with
      | TIdle => None
      (* pool.c 84 *)
      | TGet => Some (setT t (TGetRead (hd_ p) (ver p)) p, [Read t])
      (* pool.c 89-92, 95-96 *)
      | TGetRead o v =>
        match nth_error (resources p) (idx o) with
        | None => None
        | Some false => Some (setT t TIdle p, [Exhausted t])
        | Some true =>
          match nth_error (nexts p) (idx o) with
          | None => None
          | Some nx => Some (setT t (TGetNext o v nx) p, [])
          end
        end
      (* pool.c 97-100, 104 *)
      | TGetNext o v nx =>
        if head_eqb (hd_ p) o then
          Some (mkpool (nexts p) (resources p) (mkhead nx (inc16 (aba o))) (S (ver p))
                       (lupd (threads p) t TIdle), [Got t (idx o)])
        else Some (setT t TGet p, [])
      (* pool.c 111 *)
      | TRel i => Some (setT t (TRelRead i (hd_ p) (ver p)) p, [])
      (* pool.c 112-114 *)
      | TRelRead i o v =>
        if Nat.ltb i (length (nexts p)) then
          Some (mkpool (lupd (nexts p) i (idx o)) (resources p) (hd_ p) (ver p)
                       (lupd (threads p) t (TRelNext i o v)), [])
        else None
      (* pool.c 115-118 *)
      | TRelNext i o v =>
        if head_eqb (hd_ p) o then
          Some (mkpool (nexts p) (resources p) (mkhead i (inc16 (aba o))) (S (ver p))
                       (lupd (threads p) t TIdle), [RelEnd t i])
        else Some (setT t (TRel i) p, [])
      end
    | _ => None
    end
  end.

(* pool.c 52-66: the loop; items are created until a creation sets an
   exception.  [creates] gives for each creation whether it returned a
   resource and whether EXCEPTION_OKAY holds afterwards.  The arrays hold
   listItems entries, entry 0 first. *)
Fixpoint poolInitLoop (listItems : nat) (i : nat) (todo : nat) (creates : nat -> bool * bool)
  (nx : list nat) (rs : list bool) (h : nat) (count : nat) : list nat * list bool * nat * nat :=
  match todo with
  | 0 => (nx, rs, h, count)
  | S todo' =>
    let (r, ok) := creates i in
    let nx := lupd nx i h in
    let rs := lupd rs i r in
    if ok then poolInitLoop listItems (S i) todo' creates nx rs i (S count)
    else (nx, rs, i, S count)
  end.

(* pool.c 27-74 for a successful allocation.  concurrency + 1 is stored in a
   uint16_t: when it wraps to 0 the null item is written outside the
   allocation (None).  The nexts of unused entries are whatever malloc left,
   here 0; resources of unused entries likewise, here false. *)
Definition PoolInit (concurrency : nat) (creates : nat -> bool * bool) (nthreads : nat)
  : option (pool * nat) :=
  let listItems := Z.to_nat (Z.of_nat (concurrency + 1) mod 2 ^ 16) in
  match listItems with
  | 0 => None
  | S n =>
    match poolInitLoop listItems 1 n creates (repeat 0 listItems) (repeat false listItems) 0 0 with
    | (nx, rs, h, count) =>
      Some (mkpool nx rs (mkhead h 0) 0 (repeat TIdle nthreads), count)
    end
  end.

(* pool.c 134-149: resources freed, in order *)
Definition PoolFree (p : pool) (count : nat) : list nat :=
  filter (fun i => nth i (resources p) false) (seq 0 (S count)).
