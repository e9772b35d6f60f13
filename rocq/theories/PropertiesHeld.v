(* C106 and C107: the memory of override values, lists of results and components *)
From Coq Require Import Permutation.
From Verif Require Import ItemModel LifeModel LifeSpec LifeProofs HeldModel HeldSpec HeldProofs.
Local Open Scope Z_scope.

(* C106, override values and the list of results neither leak nor free twice: after any
   operations both can be freed, in either order, and the memory is as it was *)
Theorem results_memory : forall m cap n m1 v m2 l ops m3 v3 l3, older m ->
  OverrideValuesCreate m cap true = (m1, Some v) -> ListInit m1 n true = (m2, Some l) -> Forall fits ops ->
  rrun ops (m2, v, l) = Some (m3, v3, l3) ->
  (exists m4 m5, OverrideValuesFree m3 v3 = Some m4 /\ ListFree m4 l3 = Some m5 /\ live m5 = live m) /\
  (exists m4 m5, ListFree m3 l3 = Some m4 /\ OverrideValuesFree m4 v3 = Some m5 /\ live m5 = live m).
Proof.
  intros m cap n m1 v m2 l ops m3 v3 l3 Ho C I F R.
  destruct (create_owns _ _ _ _ _ _ _ (owns_start m Ho) C) as (O1 & V & _). destruct (listInit_owns _ _ _ _ _ _ _ O1 I) as (O2 & L & _).
  assert (resultsOK (live m) (m2, v, l)) as K. { split; [|auto]. eapply owns_perm; [|exact O2]. rewrite app_nil_r. apply Permutation_app_comm. }
  destruct (rrun_ok _ _ F _ _ K R) as (O & V3 & L3). split.
  - destruct (valuesFree_owns _ _ _ _ O V3) as (m4 & -> & O4). rewrite <- (app_nil_r (listBlocks l3)) in O4. destruct (listFree_owns _ _ _ _ O4 L3) as (m5 & E & O5).
    exists m4, m5. split; [reflexivity|]. split; [exact E|]. now apply owns_end.
  - apply (owns_perm _ _ _ _ (Permutation_app_comm _ _)) in O. destruct (listFree_owns _ _ _ _ O L3) as (m4 & -> & O4).
    rewrite <- (app_nil_r (valuesBlocks v3)) in O4. destruct (valuesFree_owns _ _ _ _ O4 V3) as (m5 & E & O5).
    exists m4, m5. split; [reflexivity|]. split; [exact E|]. now apply owns_end.
Qed.
Print Assumptions results_memory.

(* C106, all is defined as long as memory is granted and there is room in the list for
   what is read *)
Theorem results_defined : forall m cap n m1 v m2 l ops, older m ->
  OverrideValuesCreate m cap true = (m1, Some v) -> ListInit m1 n true = (m2, Some l) -> Forall fits ops -> Forall granted ops ->
  rrun ops (m2, v, l) = None ->
  exists before w after m3 v3 l3, ops = before ++ RFetch w :: after /\ readable w /\
    rrun before (m2, v, l) = Some (m3, v3, l3) /\ length (lentries l3) = lcapacity l3.
Proof.
  intros m cap n m1 v m2 l ops Ho C I F G.
  destruct (create_owns _ _ _ _ _ _ _ (owns_start m Ho) C) as (O1 & V & _). destruct (listInit_owns _ _ _ _ _ _ _ O1 I) as (O2 & L & _).
  assert (resultsOK (live m) (m2, v, l)) as K. { split; [|auto]. eapply owns_perm; [|exact O2]. rewrite app_nil_r. apply Permutation_app_comm. }
  generalize dependent (m2, v, l). clear C I O1 O2 V L. intros s K. revert s K. induction ops as [|o ops IH]; intros s K E; cbn [rrun] in E; [discriminate|].
  inversion F as [|? ? F1 F2]; subst. inversion G as [|? ? G1 G2]; subst. destruct (rstep o s) as [s1|] eqn:E1.
  - destruct (IH F2 G2 s1 (rstep_ok _ o s K F1 s1 E1) E) as (b & w & a & m3 & v3 & l3 & -> & Rd & Rb & Le).
    exists (o :: b), w, a, m3, v3, l3. split; [reflexivity|]. split; [exact Rd|]. split; [|exact Le]. cbn [rrun]. rewrite E1. exact Rb.
  - destruct s as ((m', v'), l'). destruct (rstep_none _ _ _ _ _ K F1 G1 E1) as ((w & -> & Rd) & Le).
    exists [], w, ops, m', v', l'. auto.
Qed.
Print Assumptions results_defined.
Example results_ex : let m := mkMem 5 [(2%nat, 8)] in
  exists m1 v m2 l m3 v3 l3 m4 m5, OverrideValuesCreate m 2 true = (m1, Some v) /\ ListInit m1 3 true = (m2, Some l) /\
  rrun [RAdd 4 10 true; RFetch (Try 20 true true); RList 4; RFetch (Try 30 true false); RAdd 4 30 true; RReset; RAdd 7 5 true; RFetch (Try 9 true true)] (m2, v, l) = Some (m3, v3, l3) /\
  length (lentries l3) = 3%nat /\ vcount v3 = 1%nat /\ length (live m3) = 6%nat /\
  OverrideValuesFree m3 v3 = Some m4 /\ ListFree m4 l3 = Some m5 /\ live m5 = [(2%nat, 8)].
Proof. vm_compute. do 9 eexists. repeat (split; [reflexivity|]). reflexivity. Qed.

(* C106, refuted when memory for a text is missing: NULL is written to *)
Theorem override_no_memory_refuted : forall m cap m1 v i len, older m -> OverrideValuesCreate m (S cap) true = (m1, Some v) -> 0 <= i ->
  OverridesAdd m1 v i len false = None.
Proof.
  intros m cap m1 v i len Ho C Hi. cbn in C. injection C as <- <-. unfold OverridesAdd. cbn [arr live sizeOf vcount vitems repeat firstn findValue nth_error length Nat.ltb Nat.leb].
  rewrite Nat.eqb_refl. destruct (Z.leb_spec 0 i); [|lia]. reflexivity.
Qed.
Print Assumptions override_no_memory_refuted.

(* C107, the string of an override that was got stays where it is until the property's
   value is set again or the overrides are reset *)
Theorem override_held : forall m cap n m1 v m2 l ops m3 v3 l3 i r, older m ->
  OverrideValuesCreate m cap true = (m1, Some v) -> ListInit m1 n true = (m2, Some l) -> Forall fits ops ->
  rrun ops (m2, v, l) = Some (m3, v3, l3) -> OverrideValuesGetFirst v3 i = Some r ->
  exists p size, r = Some p /\ sizeOf (live m3) p = Some size /\
  forall ops2 m4 v4 l4, Forall fits ops2 -> Forall (spares i) ops2 -> rrun ops2 (m3, v3, l3) = Some (m4, v4, l4) ->
    OverrideValuesGetFirst v4 i = Some (Some p) /\ sizeOf (live m4) p = Some size.
Proof.
  intros m cap n m1 v m2 l ops m3 v3 l3 i r Ho C I F R E.
  destruct (create_owns _ _ _ _ _ _ _ (owns_start m Ho) C) as (O1 & V & _). destruct (listInit_owns _ _ _ _ _ _ _ O1 I) as (O2 & L & _).
  assert (resultsOK (live m) (m2, v, l)) as K. { split; [|auto]. eapply owns_perm; [|exact O2]. rewrite app_nil_r. apply Permutation_app_comm. }
  pose proof (rrun_ok _ _ F _ _ K R) as K3. rewrite getFirst_firstOf in E. destruct (firstOf _ _) as [d|] eqn:D; [|discriminate]. injection E as <-.
  destruct (first_live _ _ _ _ _ _ K3 D) as (p & P & Q). exists p, (allocated d). split; [exact P|]. split; [exact Q|].
  intros ops2 m4 v4 l4 F2 S2 R2. pose proof (rrun_ok _ _ F2 _ _ K3 R2) as K4. pose proof (rrun_first _ _ i F2 S2 _ _ K3 R2) as X. cbn [fst snd] in X. rewrite D in X.
  rewrite getFirst_firstOf, X. cbn [option_map]. rewrite P. split; [reflexivity|]. destruct (first_live _ _ _ _ _ _ K4 X) as (p' & P' & Q'). congruence.
Qed.
Print Assumptions override_held.
Example override_held_ex : let m := mkMem 0 [] in
  exists m1 v m2 l m3 v3 l3 m4 v4 l4, OverrideValuesCreate m 3 true = (m1, Some v) /\ ListInit m1 3 true = (m2, Some l) /\
  rrun [RAdd 4 10 true] (m2, v, l) = Some (m3, v3, l3) /\ OverrideValuesGetFirst v3 4 = Some (Some 2%nat) /\
  rrun [RAdd 5 40 true; RList 4; RAdd 5 90 true; RRelease] (m3, v3, l3) = Some (m4, v4, l4) /\ OverrideValuesGetFirst v4 4 = Some (Some 2%nat) /\ sizeOf (live m4) 2 = Some 21.
Proof. vm_compute. do 10 eexists. repeat (split; [reflexivity|]). reflexivity. Qed.

(* C107, refuted otherwise: a longer value for the property, or one for another property
   after a reset, frees the memory that the list still refers to *)
Theorem override_stale_refuted : exists m1 v m2 l m3 v3 l3 p,
  OverrideValuesCreate (mkMem 0 []) 2 true = (m1, Some v) /\ ListInit m1 2 true = (m2, Some l) /\
  rrun [RAdd 4 10 true; RList 4] (m2, v, l) = Some (m3, v3, l3) /\ lentries l3 = [Borrowed (Some p)] /\ sizeOf (live m3) p = Some 21 /\
  (exists m4 v4 l4, rrun [RAdd 4 11 true] (m3, v3, l3) = Some (m4, v4, l4) /\ lentries l4 = [Borrowed (Some p)] /\ sizeOf (live m4) p = None) /\
  (exists m4 v4 l4, rrun [RReset; RAdd 9 11 true] (m3, v3, l3) = Some (m4, v4, l4) /\ lentries l4 = [Borrowed (Some p)] /\ sizeOf (live m4) p = None).
Proof. vm_compute. do 8 eexists. do 5 (split; [reflexivity|]). split; do 3 eexists; (split; [reflexivity|]); (split; [reflexivity|]); reflexivity. Qed.
Print Assumptions override_stale_refuted.

(* C108, the list of components: those read before the first that cannot be, and freeing the
   list leaves the memory as it was *)
Theorem component_list_memory : forall m ways n ok, older m -> (forall i, sized (ways i)) ->
  exists m1 r b, ComponentInitList m ways n ok = Some (m1, r, b) /\
  match r with
  | None => ok = false /\ live m1 = live m
  | Some l => ok = true /\ readUpTo ways n (length (lentries l)) /\ (b = true <-> length (lentries l) = n) /\
    exists m2, ListFree m1 l = Some m2 /\ live m2 = live m
  end.
Proof.
  intros m ways n ok Ho Hs. unfold ComponentInitList. destruct (ListInit m n ok) as (m1, r) eqn:I.
  pose proof (listInit_owns _ _ _ _ _ _ _ (owns_start m Ho) I) as H. destruct r as [l|].
  - destruct H as (O & L & C & E). rewrite app_nil_r in O.
    destruct (initLoop_owns _ ways n Hs n m1 l O L C) as (m2 & l2 & b & X & O2 & L2 & R & B); [now rewrite E|rewrite E; cbn; lia|].
    rewrite X. do 3 eexists. split; [reflexivity|]. cbn beta iota. split; [destruct ok; [reflexivity|discriminate]|]. split; [exact R|]. split; [exact B|].
    rewrite <- (app_nil_r (listBlocks l2)) in O2. destruct (listFree_owns _ _ _ _ O2 L2) as (m3 & Y & O3). exists m3. split; [exact Y|]. now apply owns_end.
  - destruct H as (-> & ->). do 3 eexists. split; [reflexivity|]. cbn beta iota. auto.
Qed.
Print Assumptions component_list_memory.
Example component_list_ex : let ways := fun i => if Nat.ltb i 2 then Try 20 true true else Try 30 true false in
  exists m1 l m2, ComponentInitList (mkMem 3 [(1%nat, 5)]) ways 4 true = Some (m1, Some l, false) /\ length (lentries l) = 2%nat /\
  length (live m1) = 4%nat /\ ListFree m1 l = Some m2 /\ live m2 = [(1%nat, 5)].
Proof. vm_compute. do 3 eexists. repeat (split; [reflexivity|]). reflexivity. Qed.

(* C108, refuted that a missing list is reported: without memory the exception is okay *)
Theorem component_list_refuted : forall m ways n, ComponentInitList m ways n false = Some (m, None, true).
Proof. reflexivity. Qed.
Print Assumptions component_list_refuted.
