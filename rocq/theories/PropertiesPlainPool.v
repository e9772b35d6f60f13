(* C126: the pool in the build without threads (pool.c with FIFTYONE_DEGREES_NO_THREADING).
   Histories are those of PlainPoolSpec.pexec: any sequence of gets and of releases of what
   is held, of any length. *)
From Verif Require Import PoolSpec PoolProofs PropertiesPool PlainPoolSpec PlainPoolProofs.

(* C126.  No call is undefined. *)
Theorem plain_defined :
  forall n p0 tr q a, (Z.of_nat n < 2 ^ 16 - 1)%Z -> fresh n 1 p0 -> pexec (plainOf p0) tr q -> wellUsed tr a -> a <> Continue ->
  exists q' evs, plainCall a q = Some (q', evs).
Proof.
  intros n p0 tr q a Hn F X W Na. destruct (plain_sim n p0 tr q Hn F X) as (p & Y & <- & T).
  destruct (plain_call n p0 tr p a Hn F Y T W Na) as (q' & evs & _ & C & _). eauto.
Qed.
Print Assumptions plain_defined.

(* C126.  Both builds give a lone thread the same items in the same order. *)
Theorem plain_serial :
  forall n p0 tr q, (Z.of_nat n < 2 ^ 16 - 1)%Z -> fresh n 1 p0 -> pexec (plainOf p0) tr q ->
  exists p, exec window p0 tr p /\ plainOf p = q.
Proof. intros n p0 tr q Hn F X. destruct (plain_sim n p0 tr q Hn F X) as (p & Y & Q & _). eauto. Qed.
Print Assumptions plain_serial.

(* C126.  A get hands out a free item, and is refused just when all are held.  There is no
   limit on the number of calls, as there is for the ABA value with threads. *)
Theorem plain_get_exact :
  forall n p0 tr q, (Z.of_nat n < 2 ^ 16 - 1)%Z -> fresh n 1 p0 -> pexec (plainOf p0) tr q ->
  (exists i q', plainGet q = Some (q', [Got 0 i; Read 0; GetBegin 0]) /\ 1 <= i <= n /\ status tr i = Free) \/
  (plainGet q = Some (q, [Exhausted 0; Read 0; GetBegin 0]) /\ forall i, 1 <= i <= n -> status tr i = Held).
Proof.
  intros n p0 tr q Hn F X. destruct (plain_sim n p0 tr q Hn F X) as (p & Y & <- & T). destruct (exec_PI _ _ _ Hn F _ _ Y) as (L & HI).
  unfold plainGet, plainOf. cbn [presources pnexts phead]. pose proof (pi_chain _ _ _ _ HI) as Hc. rewrite (pi_res _ _ _ _ HI), res_nth.
  destruct L as [|b L].
  - right. cbn [chain] in Hc. rewrite Hc. split; [reflexivity|]. intros i Hi. destruct (status tr i) as [| |t] eqn:S; [|reflexivity|].
    + destruct (proj2 (pi_free _ _ _ _ HI i) (conj Hi S)).
    + destruct (pi_rel _ _ _ _ HI _ _ S) as (x & E & M). rewrite T in E. destruct t as [|[|t]]; cbn in E; try discriminate E. injection E as <-. destruct M.
  - left. cbn [chain] in Hc. destruct Hc as (Eb & _). destruct (proj1 (pi_free _ _ _ _ HI b) (or_introl eq_refl)) as (Hb & S).
    rewrite Eb. destruct (Nat.eqb_spec b 0); [lia|]. rewrite (proj2 (Nat.leb_le _ _)) by lia.
    destruct (nth_error (nexts p) b) as [k|] eqn:E; [|apply nth_error_None in E; rewrite (pi_len _ _ _ _ HI) in E; lia]. eauto 6.
Qed.
Print Assumptions plain_get_exact.

(* C126.  The item released last is handed out next, and the pool is then as it was. *)
Theorem plain_last_first :
  forall n p0 tr q i, (Z.of_nat n < 2 ^ 16 - 1)%Z -> fresh n 1 p0 -> pexec (plainOf p0) tr q -> status tr i = Held ->
  exists q1 q2, plainRelease i q = Some (q1, [RelEnd 0 i; RelBegin 0 i]) /\
    plainGet q1 = Some (q2, [Got 0 i; Read 0; GetBegin 0]) /\ phead q2 = phead q.
Proof.
  intros n p0 tr q i Hn F X S. destruct (plain_sim n p0 tr q Hn F X) as (p & Y & <- & T). destruct (exec_PI _ _ _ Hn F _ _ Y) as (L & HI).
  assert (Hi : 1 <= i <= n) by (apply (pi_held _ _ _ _ HI); congruence). pose proof (pi_len _ _ _ _ HI) as Hl.
  unfold plainRelease, plainOf. cbn [pnexts presources phead]. rewrite (proj2 (Nat.ltb_lt _ _)) by lia. do 2 eexists. split; [reflexivity|].
  unfold plainGet. cbn [pnexts presources phead]. rewrite (pi_res _ _ _ _ HI), res_nth. destruct (Nat.eqb_spec i 0); [lia|]. rewrite (proj2 (Nat.leb_le _ _)) by lia.
  rewrite nth_lupd_eq by lia. split; reflexivity.
Qed.
Print Assumptions plain_last_first.

(* two items: get, get, refused, release of the first, get *)
Fixpoint plainCalls (l : list action) (tr : list event) (q : plain) : option (list event * plain) :=
  match l with
  | [] => Some (tr, q)
  | a :: l' => match plainCall a q with Some (q', evs) => plainCalls l' (evs ++ tr) q' | None => None end
  end.
Example plain_example :
  exists p0, fresh 2 1 p0 /\
  plainCalls [CallGet; CallGet; CallGet; CallRelease 2; CallGet; CallRelease 1; CallRelease 2] [] (plainOf p0) =
  Some ([RelEnd 0 2; RelBegin 0 2; RelEnd 0 1; RelBegin 0 1; Got 0 2; Read 0; GetBegin 0; RelEnd 0 2; RelBegin 0 2;
         Exhausted 0; Read 0; GetBegin 0; Got 0 1; Read 0; GetBegin 0; Got 0 2; Read 0; GetBegin 0],
        mkPlain [0; 0; 1] [false; true; true] 2) /\
  (exists tr q, pexec (plainOf p0) tr q /\ status tr 2 = Held /\ status tr 1 = Free) /\
  plainCall (CallRelease 3) (plainOf p0) = None.
Proof.
  eexists. split; [reflexivity|]. split; [vm_compute; reflexivity|]. split; [|vm_compute; reflexivity]. do 2 eexists. split.
  - eapply pexec_call with (a := CallGet); [constructor|exact I|reflexivity].
  - split; reflexivity.
Qed.
