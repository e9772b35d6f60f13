(* C125: the resource manager in the build without threads (resource.c with
   FIFTYONE_DEGREES_NO_THREADING).  Histories are those of UnthreadedSpec.uexec. *)
From Verif Require Import ResourceSpec ResourceProofs ResourceRun ResourceSeq PropertiesResource UnthreadedSpec UnthreadedProofs.

(* C125.  No call is undefined. *)
Theorem unthreaded_defined :
  forall tr u a, uexec tr u -> ucallable tr a -> exists u' evs, ucall a u = Some (u', evs).
Proof.
  intros tr u a X W. destruct (unthreaded_sim tr u X) as (m & Y & S). destruct (sim_call tr u m a Y S W) as (u' & evs & _ & C & _). eauto.
Qed.
Print Assumptions unthreaded_defined.

Lemma sim_quiet u m : SIM u m -> quiescent m.
Proof. intros S t x E. rewrite (si_thr _ _ S) in E. destruct t as [|[|t]]; cbn in E; congruence. Qed.
(* C125.  Both builds give a lone thread the same handles and free the same resources in
   the same order. *)
Theorem unthreaded_serial :
  forall tr u, uexec tr u -> exists m, exec sequential 1 tr m /\ quiescent m /\ active m = uactive u.
Proof. intros tr u X. destruct (unthreaded_sim tr u X) as (m & Y & S). exists m. split; [exact Y|]. split; [eapply sim_quiet; exact S|apply S]. Qed.
Print Assumptions unthreaded_serial.

(* C125.  Nothing freed is used; a get returns the active handle; a resource is freed,
   once, just when it is not active and has no users; freeing the manager frees the handle
   it made. *)
Theorem unthreaded_frees :
  forall tr u, uexec tr u ->
  utouched u = false /\
  (forall t, ~ In (GotNull t) tr) /\
  (forall tr1 t h tr2, tr = tr1 ++ Got t h :: tr2 -> h = activeOf tr2) /\
  (forall h, In (Created h) tr \/ h = 0 ->
     timesFreed tr h = if Nat.eqb h (activeOf tr) then 0 else if Nat.eqb (users tr h) 0 then 1 else 0) /\
  (forall t, In (FreeBegin t) tr -> In (HandleFreed (activeOf tr)) tr /\ users tr (activeOf tr) = 0).
Proof.
  intros tr u X. destruct (unthreaded_sim tr u X) as (m & Y & S). pose proof (sim_quiet _ _ S) as Q.
  destruct (resource_sequential 1 tr m Y) as (A & B & C & D & _ & E). rewrite <- (si_tch _ _ S).
  split; [exact A|]. split; [exact B|]. split; [exact C|]. split; [exact (D Q)|]. intros t I. exact (E t Q I).
Qed.
Print Assumptions unthreaded_frees.

(* C125.  Each handle is there until it is freed, and its count is the number of its users. *)
Theorem unthreaded_counts :
  forall tr u, uexec tr u -> forall h, In (Created h) tr \/ h = 0 ->
  exists hd, nth_error (uhs u) h = Some hd /\
    (timesFreed tr h = 0 -> ~ In (HandleFreed h) tr -> alive hd = true) /\
    (alive hd = true -> inUse hd = Z.of_nat (users tr h) /\ timesFreed tr h = 0).
Proof.
  intros tr u X h Hc. destruct (unthreaded_sim tr u X) as (m & Y & S). pose proof (sim_quiet _ _ S) as Q. pose proof (exec_RI _ _ _ _ Y) as HI.
  apply (exec_created _ _ _ _ Y) in Hc. destruct (nth_error (hs m) h) as [hd|] eqn:E; [|apply nth_error_None in E; lia].
  destruct (Forall2_nth _ _ _ _ _ (si_hs _ _ S) E) as (hu & Eu & L1 & L2 & L3 & L4). exists hu. split; [exact Eu|].
  pose proof (ri_h _ _ HI _ _ E) as K. unfold HInv in K. rewrite !tsum_quiet in K by (first [exact Q|reflexivity]). unfold timesFreed, users. split.
  - intros F N. rewrite L2. destruct (alive hd); [reflexivity|]. exfalso.
    assert (HF : count (isHFreed h) tr = 0).
    { clear -N. induction tr as [|e tr IH]; [reflexivity|]. rewrite count_cons, IH by (intros I; apply N; now right). rewrite Nat.add_0_r. destruct e as [| | | | | | | |j| | |]; try reflexivity.
      cbn [isHFreed]. destruct (Nat.eqb_spec j h) as [->|]; [exfalso; apply N; now left|reflexivity]. }
    lia.
  - intros A. rewrite L2 in A. rewrite (L4 A) in K. rewrite L1. lia.
Qed.
Print Assumptions unthreaded_counts.

(* get, replace while it is held, get of the new one, both released, the manager freed *)
Fixpoint ucalls (l : list action) (tr : list event) (u : umanager) : option (list event * umanager) :=
  match l with
  | [] => Some (tr, u)
  | a :: l' => match ucall a u with Some (u', evs) => ucalls l' (evs ++ tr) u' | None => None end
  end.
Example unthreaded_example :
  ucalls [CallGet; CallReplace; CallGet; CallRelease 0; CallReplace; CallFree; CallRelease 1] [Activated 0] uInit =
  Some ([Done 0; Freed 1; RelBegin 0 1; Done 0; HandleFreed 3; Freed 2; Activated 3; Created 3; FreeBegin 0;
         Done 0; Activated 2; Created 2; Done 0; Freed 0; RelBegin 0 0; Got 0 1; GetBegin 0; Done 0; Activated 1; Created 1;
         Got 0 0; GetBegin 0; Activated 0],
        mkU [mkH 0 true false; mkH 0 true false; mkH 0 true false; mkH 0 true false] 3 false) /\
  (exists tr u, uexec tr u /\ users tr 0 = 1 /\ activeOf tr = 1 /\ timesFreed tr 0 = 0 /\ In (Created 1) tr).
Proof.
  split; [vm_compute; reflexivity|]. do 2 eexists. split.
  - eapply uexec_call with (a := CallReplace); [eapply uexec_call with (a := CallGet); [apply uexec_init| |reflexivity]| |reflexivity].
    + intros t [I|[]]. discriminate I.
    + intros t [I|[I|[I|[]]]]; discriminate I.
  - repeat split. cbn. tauto.
Qed.
(* a release of what is not held, or a get after the manager was freed, would use freed
   memory *)
Example unthreaded_misuse :
  option_map (fun r => utouched (snd r)) (ucalls [CallFree; CallGet] [] uInit) = Some true /\
  option_map (fun r => utouched (snd r)) (ucalls [CallReplace; CallRelease 0] [] uInit) = Some true.
Proof. split; vm_compute; reflexivity. Qed.
