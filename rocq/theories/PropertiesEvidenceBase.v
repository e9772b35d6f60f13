(* The properties of EvidenceBase.cpp *)
From Verif Require Import EvidenceBaseProofs.

(* C86, a map of evidence gives with every get the evidence of its entries in the order of
   the keys; when all objects are deleted so are the arrays; no call is undefined *)
Theorem evidence_map : forall relevant ops s rs, usesAll relevant [] ops s rs ->
  exists w, performAll relevant ops nothing = Some (w, rs) /\
    (Forall (fun o => o = None) s -> Forall (fun b => b = false) (blocks w)) /\
    count_occ Bool.bool_dec (blocks w) true <= List.length s.
Proof.
  intros relevant ops s rs U. destruct (steps_ok relevant ops [] s rs nothing) as (w & E & (F & N & O)); [|exact U|].
  - split; [constructor|]. split; [constructor|]. intros b. cbn. destruct b; split; try tauto; discriminate.
  - exists w. split; [exact E|]. split.
    + intros D. assert (Z0 : owned (objects w) = []). { clear -F D. induction F as [|so ob s obs Fo F IH]; [reflexivity|]. inversion D as [|x y D1 D2]; subst. destruct Fo as (_ & Ev). unfold owned. cbn [flat_map]. rewrite Ev. cbn [app]. exact (IH D2). }
      apply Forall_forall. intros b I. destruct b; [|reflexivity]. exfalso. apply (In_nth _ _ false) in I. destruct I as (n & _ & Q). apply O in Q. rewrite Z0 in Q. exact Q.
    + assert (Lo : List.length (owned (objects w)) <= List.length s). { clear -F. induction F as [|so ob s obs Fo F IH]; [reflexivity|]. unfold owned in *. cbn [flat_map]. rewrite app_length. destruct (evidence ob); cbn [List.length]; lia. }
      assert (Lc : count_occ Bool.bool_dec (blocks w) true <= List.length (owned (objects w))); [|lia].
      assert (G : forall bs (ow : list nat) k, NoDup ow -> (forall i, nth i bs false = true -> In (k + i) ow) -> count_occ Bool.bool_dec bs true <= List.length ow).
      { induction bs as [|x bs IH]; intros ow k Nd H; [cbn; lia|]. cbn [count_occ]. destruct (Bool.bool_dec x true) as [->|Nx].
        - pose proof (H 0 eq_refl) as I. rewrite Nat.add_0_r in I. destruct (in_split _ _ I) as (a & b & Q). rewrite Q in Nd. apply NoDup_remove in Nd. destruct Nd as (Nd & Nk). rewrite Q, app_length. cbn [List.length].
          specialize (IH (a ++ b) (S k) Nd). rewrite app_length in IH. rewrite Nat.add_succ_r. apply le_n_S, IH. intros i T. specialize (H (S i) T). rewrite Nat.add_succ_r in H. change (S (k + i)) with (S k + i) in H. rewrite Q in H. apply in_app_or in H. apply in_or_app. destruct H as [H|[H|H]]; [now left|lia|now right].
        - apply (IH ow (S k) Nd). intros i T. specialize (H (S i) T). now rewrite Nat.add_succ_r in H. }
      apply (G (blocks w) (owned (objects w)) 0 N). intros i T. now apply O.
Qed.
Print Assumptions evidence_map.
(* every map has its evidence, and only one *)
Theorem evidence_map_total : forall relevant m, exists l, given relevant m l /\ forall l', given relevant m l' -> l' = l.
Proof.
  intros relevant m. destruct (given_total relevant m) as (l & G). exists l. split; [exact G|]. intros l' G'.
  pose proof (add_ok relevant m l G (List.length m) [] ltac:(cbn; lia)) as A. rewrite (add_ok relevant m l' G' (List.length m) [] ltac:(cbn; lia)) in A. now injection A.
Qed.
Print Assumptions evidence_map_total.

(* "header.a" -> "1", "query.b" -> "2\0x", "header." -> "3", "other.c" -> "4" *)
Definition headerA : list Z := [104; 101; 97; 100; 101; 114; 46; 97]%Z.
Definition queryB : list Z := [113; 117; 101; 114; 121; 46; 98]%Z.
Definition headerOnly : list Z := [104; 101; 97; 100; 101; 114; 46]%Z.
Definition otherC : list Z := [111; 116; 104; 101; 114; 46; 99]%Z.
Definition evidenceOps : list op := [New; Assign 0 queryB [50; 0; 120]; Assign 0 headerA [48]; Assign 0 otherC [52]; Assign 0 headerOnly [51]; Assign 0 headerA [49]; Get 0 true; Get 0 true; Erase 0 0; Clear 0; Get 0 false; Delete 0]%Z.
Example evidence_map_example :
  given (fun _ => true) [(headerOnly, [51]); (headerA, [49]); (otherC, [52]); (queryB, [50; 0; 120])]%Z [mkPair 1 [97] (Some [49]) None; mkPair 8 [98] (Some [50]) None]%Z /\
  option_map (fun '(w, rs) => (blocks w, nth 7 rs Nothing)) (performAll (fun _ => true) evidenceOps nothing) =
    Some ([false; false], Array (Some (mkEvidence 4 [mkPair 1 [97] (Some [49]) None; mkPair 8 [98] (Some [50]) None] None)))%Z /\
  option_map (fun '(w, rs) => nth 2 rs Nothing) (performAll (fun p => Z.eqb p 8) [New; Assign 0 headerA [49]; Get 0 true]%Z nothing) = Some (Array (Some (mkEvidence 1 [] None))).
Proof.
  split; [|vm_compute; auto]. 
  apply given_out; [apply evidence_none; left; reflexivity|]. apply given_in; [apply (evidence_some _ headerA [49]%Z [104; 101; 97; 100; 101; 114; 46]%Z 1%Z); reflexivity|].
  apply given_out; [apply evidence_none; left; reflexivity|]. apply given_in; [|constructor]. apply (evidence_some _ queryB [50; 0; 120]%Z [113; 117; 101; 114; 121; 46]%Z 8%Z); reflexivity.
Qed.
Example evidence_map_uses : usesAll (fun _ => true) [] [New; Assign 0 otherC [52]%Z; Assign 0 headerA [48]%Z; Get 0 true; Delete 0] [None] [Nothing; Nothing; Nothing; Array (Some (mkEvidence 2 [mkPair 1 [97] (Some [48]) None] None))%Z; Nothing].
Proof.
  eapply uses_more; [apply uses_new|]. cbn [app].
  eapply uses_more; [apply (uses_assign _ [] [] []); apply assign_ok; exact I|]. cbn [assign app].
  eapply uses_more; [apply (uses_assign _ [] _ []); apply assign_ok; split; [constructor|exact I]|]. change (assign headerA [48]%Z [(otherC, [52]%Z)]) with [(headerA, [48]); (otherC, [52])]%Z. cbn [app].
  eapply uses_more; [apply (uses_get _ [] [(headerA, [48]); (otherC, [52])]%Z []); [|cbn; lia]|].
  - apply given_in; [apply (evidence_some _ headerA [48]%Z [104; 101; 97; 100; 101; 114; 46]%Z 1%Z); reflexivity|]. apply given_out; [apply evidence_none; left; reflexivity|constructor].
  - eapply uses_more; [apply (uses_delete _ [])|]. constructor.
Qed.

(* Refuted for copies: the array is freed by both *)
Theorem evidence_map_copy_refuted : forall relevant,
  performAll relevant [New; Get 0 true; Copy 0; Delete 0; Delete 1] nothing = None /\
  performAll relevant [New; Get 0 true; Copy 0; Get 0 true; Clear 1] nothing = None.
Proof. intros. split; reflexivity. Qed.
Print Assumptions evidence_map_copy_refuted.
