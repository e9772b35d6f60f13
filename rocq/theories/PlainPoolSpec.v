(* Sequences of calls of the pool in the build without threads. *)
From Verif Require Import PlainPoolModel PoolSpec.

(* users release only items they hold *)
Inductive pexec (q0 : plain) : list event -> plain -> Prop :=
| pexec_nil : pexec q0 [] q0
| pexec_call tr q a q' evs : pexec q0 tr q -> wellUsed tr a -> plainCall a q = Some (q', evs) -> pexec q0 (evs ++ tr) q'.
