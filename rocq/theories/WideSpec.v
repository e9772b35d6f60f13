(* Executions of the pool with the wide word. *)
From Verif Require Import WideModel PoolSpec.

(* every interleaving and every garbage *)
Inductive wexec (copies : bool) (W : pool -> nat -> Prop) (w0 : wide) : list event -> wide -> Prop :=
| wexec_nil : wexec copies W w0 [] w0
| wexec_cons tr w t a garbage w' evs :
    wexec copies W w0 tr w -> wellUsed tr a -> W (narrow w) t -> wstep copies t a garbage w = Some (w', evs) ->
    wexec copies W w0 (evs ++ tr) w'.
(* a freshly initialised pool: the word was set to 0; the variables of the threads are
   not initialised *)
Definition wfresh (n nthreads : nat) (w0 : wide) : Prop := fresh n nthreads (narrow w0) /\ high w0 = 0%Z.
