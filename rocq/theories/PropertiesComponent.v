(* The properties of component.c *)
From Verif Require Import ComponentProofs.
Open Scope Z_scope.

(* C85, the size that is computed is that of the component as it is written *)
Theorem component_size : forall c rest, valid c -> getFinalComponentSize (encode c ++ rest) = Some (Z.of_nat (length (encode c))).
Proof. exact size_ok. Qed.
Print Assumptions component_size.
Definition compA := mkComp 1 300 70000 [(7, 8); (9, 4294967295)].
Definition compB := mkComp 255 4294967295 0 [].
Example component_size_example : valid compA /\ valid compB /\ getFinalComponentSize (encode compA ++ [5]) = Some 27 /\ getFinalComponentSize (encode compB) = Some 11.
Proof. unfold valid, uint; cbn; repeat split; try lia; repeat constructor; cbn; lia. Qed.

(* C85, the list has an item for each of the first n components, in their order, at the
   places they are *)
Theorem component_list : forall cs get n fuel, Forall valid cs ->
  Z.of_nat (length (flat_map encode cs)) < 2 ^ 32 -> 0 <= n <= Z.of_nat (length cs) -> n < 2 ^ 32 ->
  (forall o, In o (places 0 cs) -> get o = (Some (skipn (Z.to_nat o) (flat_map encode cs)), true)) -> (length cs < fuel)%nat ->
  exists w r, ComponentInitList fuel get true n closed0 = Some (true, w) /\
    performAll (Init n :: map (fun o => Add (itemAt o)) (firstn (Z.to_nat n) (places 0 cs))) closed0 = Some (r, w) /\
    count (list_ w) = n /\ released w = [].
Proof.
  intros cs get n fuel V L N N32 G F.
  destruct (init_loop cs [] fuel get (flat_map encode cs) n (snd (ListInit true n closed0)) [None] V eq_refl L (proj2 N) (proj1 N) N32 G) as (w & r & H & P); [reflexivity|exact F|].
  cbn [app] in P. exists w, r. split; [exact H|]. split; [exact P|].
  assert (U : usesAll Closed (Init n :: map Add (map itemAt (firstn (Z.to_nat n) (places 0 cs)))) (Open n ([] ++ map itemAt (firstn (Z.to_nat n) (places 0 cs)))) ([] ++ []) (None :: map (fun _ => None) (map itemAt (firstn (Z.to_nat n) (places 0 cs))))).
  { eapply uses_more; [apply uses_init; lia|]. apply uses_adds; [rewrite map_length, firstn_length, places_length; cbn [length]; lia|]. apply Forall_forall. intros x Ix. apply in_map_iff in Ix. destruct Ix as (o & <- & _). discriminate. }
  destruct (steps_ok _ _ _ _ _ U closed0) as (w1 & P1 & R1 & S1); [cbn; auto|]. rewrite map_map in P1. rewrite P1 in P. injection P as _ <-.
  destruct S1 as (b & cells & rest & E & Nb & EC & L1 & K & C & T & V1 & F1). split; [|exact R1]. rewrite T. cbn [app]. rewrite map_length, firstn_length, places_length. lia.
Qed.
Print Assumptions component_list.
Definition compGet (o : Z) : option (list Z) * bool := (Some (skipn (Z.to_nat o) (flat_map encode [compA; compB; compA])), true).
Example component_list_example : places 0 [compA; compB; compA] = [0; 27; 38] /\
  option_map (fun '(ok, w) => (ok, count (list_ w), map (fun i => ListGetAsString i w) [0; 1; 2])) (ComponentInitList 4 compGet true 3 closed0) = Some (true, 3, [Some 0; Some 27; Some 38]) /\
  option_map (fun '(ok, w) => (ok, count (list_ w))) (ComponentInitList 4 compGet true 2 closed0) = Some (true, 2) /\
  option_map (fun '(ok, w) => (ok, count (list_ w))) (ComponentInitList 4 compGet false 2 closed0) = Some (true, 0).
Proof. vm_compute. auto. Qed.

(* C85, when a component can not be got the exception is set and the list has those
   before it *)
Theorem component_list_fails : forall done c rest get n fuel p, Forall valid (done ++ c :: rest) ->
  Z.of_nat (length (flat_map encode (done ++ c :: rest))) < 2 ^ 32 -> Z.of_nat (length done) < n < 2 ^ 32 ->
  (forall o, In o (places 0 done) -> get o = (Some (skipn (Z.to_nat o) (flat_map encode (done ++ c :: rest))), true)) ->
  get (Z.of_nat (length (flat_map encode done))) = (p, false) -> (length done + 1 < fuel)%nat ->
  exists w r, ComponentInitList fuel get true n closed0 = Some (false, w) /\
    performAll (Init n :: map (fun o => Add (itemAt o)) (places 0 done)) closed0 = Some (r, w).
Proof.
  intros done c rest get n fuel p V L N G Gf F.
  assert (H : forall todo before fuel w r, done = before ++ todo -> performAll (Init n :: map (fun o => Add (itemAt o)) (places 0 before)) closed0 = Some (r, w) -> (length todo + 1 < fuel)%nat ->
    exists w' r', initLoop fuel get n (Z.of_nat (length (flat_map encode before))) true w = Some (false, w') /\ performAll (Init n :: map (fun o => Add (itemAt o)) (places 0 done)) closed0 = Some (r', w')).
  { induction todo as [|d todo IH]; intros before fuel' w r E P F'.
    - rewrite app_nil_r in E. subst before. exists w, r. split; [|exact P]. eapply init_fails; [exact V|reflexivity|exact L|exact N|exact Gf|exact P|cbn in F'; lia].
    - destruct fuel' as [|fuel']; [lia|].
      assert (U2 : forall pre, (Z.of_nat (length pre) <= n) -> usesAll Closed (Init n :: map Add (map itemAt (places 0 pre))) (Open n ([] ++ map itemAt (places 0 pre))) ([] ++ []) (None :: map (fun _ => None) (map itemAt (places 0 pre)))).
      { intros pre Lp. eapply uses_more; [apply uses_init; lia|]. apply uses_adds; [rewrite map_length, places_length; cbn [length]; lia|]. apply Forall_forall. intros x Ix. apply in_map_iff in Ix. destruct Ix as (o' & <- & _). discriminate. }
      assert (Ld : (length done = length before + S (length todo))%nat) by (rewrite E, app_length; reflexivity).
      destruct (steps_ok _ _ _ _ _ (U2 before ltac:(lia)) closed0) as (w1 & P1 & R1 & S1); [cbn; auto|]. rewrite map_map in P1. rewrite P1 in P. injection P as _ <-.
      destruct S1 as (b & cells & rest' & E1 & Nb & EC & L1 & K & C & T & V1 & F1). cbn [app] in T. rewrite map_length, places_length in T.
      cbn [initLoop]. rewrite T. replace (Z.of_nat (length before) <? n) with true by lia. cbn [andb]. set (o := Z.of_nat (length (flat_map encode before))) in *.
      rewrite (G o) by (rewrite E, places_app; apply in_or_app; right; cbn [places]; left; unfold o; lia).
      assert (Sk : skipn (Z.to_nat o) (flat_map encode (done ++ c :: rest)) = encode d ++ flat_map encode (todo ++ c :: rest)).
      { rewrite E. rewrite <- app_assoc, flat_map_app. unfold o. rewrite Nat2Z.id, skipn_past by reflexivity. reflexivity. }
      rewrite Sk. assert (Vd : valid d). { rewrite Forall_forall in V. apply V. rewrite E. apply in_or_app. left. apply in_or_app. right. now left. }
      rewrite size_ok by exact Vd.
      destruct (steps_ok _ _ _ _ _ (U2 (before ++ [d]) ltac:(rewrite app_length; cbn [length]; lia)) closed0) as (w2 & P2 & R2 & S2); [cbn; auto|]. rewrite map_map in P2.
      pose proof P2 as P2'. rewrite places_app, map_app in P2'. change (Init n :: map (fun x => Add (itemAt x)) (places 0 before) ++ ?l) with ((Init n :: map (fun x => Add (itemAt x)) (places 0 before)) ++ l) in P2'.
      destruct (performAll_app _ _ _ _ _ P2') as (r1 & w3 & r2 & A & B & _). rewrite P1 in A. injection A as _ <-. cbn [places map performAll perform] in B. rewrite Z.add_0_l in B. fold o in B. change (mkItem (Some 1) o 0) with (itemAt o). destruct (ListAdd (itemAt o) w1) as [w4|] eqn:EA; [|discriminate B]. cbn [option_map] in B. injection B as _ ->.
      assert (OL : (o + Z.of_nat (length (encode d)) = Z.of_nat (length (flat_map encode (before ++ [d]))))). { unfold o. rewrite flat_map_app, app_length. cbn [flat_map]. rewrite app_nil_r. lia. }
      rewrite OL. replace (before ++ d :: todo) with ((before ++ [d]) ++ todo) in E by (rewrite <- app_assoc; reflexivity).
      assert (Ll : Z.of_nat (length (flat_map encode (before ++ [d]))) < 2 ^ 32). { rewrite E in L. rewrite <- app_assoc, flat_map_app, app_length in L. lia. }
      rewrite Z.mod_small by lia. eapply IH; [exact E|exact P2|cbn [length] in F'; lia]. }
  destruct (H done [] fuel (snd (ListInit true n closed0)) [None] eq_refl eq_refl F) as (w & r & A & B). exists w, r. split; [exact A|exact B].
Qed.
Print Assumptions component_list_fails.
Example component_list_fails_example : option_map (fun '(ok, w) => (ok, count (list_ w))) (ComponentInitList 3 (fun o => if o =? 27 then (None, false) else compGet o) true 3 closed0) = Some (false, 1).
Proof. vm_compute. reflexivity. Qed.
(* Refuted, that it ends: a get method that gives NULL without an exception is asked for
   ever *)
Theorem component_list_refuted : forall fuel n, 0 < n -> ComponentInitList fuel (fun _ => (None, true)) true n closed0 = None.
Proof.
  intros fuel n N. unfold ComponentInitList. cbn [ListInit]. assert (C : count (list_ (snd (ListInit true n closed0))) = 0) by reflexivity. cbn [ListInit snd] in C.
  induction fuel as [|fuel IH]; [reflexivity|]. cbn [initLoop]. rewrite C. replace (0 <? n) with true by lia. cbn [andb]. exact IH.
Qed.
Print Assumptions component_list_refuted.

(* C85, the name and the default profile are got at the offsets written, and the profile
   is released *)
Theorem component_name : forall get c rest, valid c -> ComponentGetName get (encode c ++ rest) = Some (get (cName c)).
Proof. intros get c rest V. unfold ComponentGetName. now rewrite member_name. Qed.
Print Assumptions component_name.
Theorem component_profile : forall get c rest head id tail, valid c -> uint 4 id -> get (cProfile c) = (Some (head :: bytes 4 id ++ tail), true) ->
  ComponentGetDefaultProfileId get (encode c ++ rest) = Some (id, true, [Got (cProfile c); Released (cProfile c)]).
Proof.
  intros get c rest head id tail V U G. unfold ComponentGetDefaultProfileId. rewrite member_profile by exact V. rewrite G. unfold profileId, member. cbn [skipn]. now rewrite le_bytes.
Qed.
Print Assumptions component_profile.
Theorem component_profile_fails : forall get c rest p, valid c -> get (cProfile c) = p -> fst p = None \/ snd p = false ->
  ComponentGetDefaultProfileId get (encode c ++ rest) = Some (0, snd p, [Got (cProfile c)]).
Proof.
  intros get c rest (p, ok) V G F. unfold ComponentGetDefaultProfileId. rewrite member_profile by exact V. rewrite G. destruct F as [F|F]; cbn [fst snd] in *; subst; [reflexivity|]. destruct p; reflexivity.
Qed.
Print Assumptions component_profile_fails.
Example component_profile_example : ComponentGetDefaultProfileId (fun o => if o =? 70000 then (Some [1; 3; 1; 0; 0; 9], true) else (None, false)) (encode compA) = Some (259, true, [Got 70000; Released 70000]) /\
  ComponentGetDefaultProfileId (fun o => if o =? 70000 then (Some [1; 3; 1; 0; 0; 9], true) else (None, false)) (encode compB) = Some (0, false, [Got 0]) /\
  ComponentGetName (fun o => (Some [o], true)) (encode compA) = Some (Some [300], true).
Proof. vm_compute. auto. Qed.

(* C85, a key value pair that is there is given, one well past the end is refused *)
Theorem component_pair : forall c rest index p, valid c -> nth_error (cPairs c) index = Some p ->
  exists more, ComponentGetKeyValuePair (encode c ++ rest) (Z.of_nat index) = Some (Some (encodePair p ++ more), true).
Proof.
  intros c rest index p V N. unfold ComponentGetKeyValuePair. rewrite member_count by exact V. assert (L : (index < length (cPairs c))%nat) by (apply nth_error_Some; congruence).
  replace (Z.of_nat (length (cPairs c)) <? Z.of_nat index) with false by lia.
  destruct (nth_error_split _ _ N) as (a & b & E & La). exists (flat_map encodePair b ++ rest). f_equal. f_equal. f_equal.
  replace (Z.to_nat (sizeofPair * Z.of_nat index)) with (8 * index)%nat by (unfold sizeofPair; lia).
  unfold encode. rewrite <- !app_assoc. change (11 + 8 * index)%nat with (1 + (4 + (4 + (2 + 8 * index))))%nat.
  do 4 (rewrite skipn_add, skipn_past by apply bytes_length). rewrite E, flat_map_app. cbn [flat_map]. rewrite <- !app_assoc. rewrite skipn_past by (rewrite pairs_length; lia). reflexivity.
Qed.
Print Assumptions component_pair.
Theorem component_pair_outside : forall c rest index, valid c -> Z.of_nat (length (cPairs c)) < index -> ComponentGetKeyValuePair (encode c ++ rest) index = Some (None, false).
Proof. intros c rest index V L. unfold ComponentGetKeyValuePair. rewrite member_count by exact V. now replace (Z.of_nat (length (cPairs c)) <? index) with true by lia. Qed.
Print Assumptions component_pair_outside.
Example component_pair_example : ComponentGetKeyValuePair (encode compA) 1 = Some (Some [9; 0; 0; 0; 255; 255; 255; 255], true) /\ ComponentGetKeyValuePair (encode compA) 3 = Some (None, false).
Proof. vm_compute. auto. Qed.
(* Refuted, that every index out of range is: the one that is the count gives what comes
   after the component *)
Theorem component_pair_refuted : forall c rest, valid c -> ComponentGetKeyValuePair (encode c ++ rest) (Z.of_nat (length (cPairs c))) = Some (Some rest, true).
Proof.
  intros c rest V. unfold ComponentGetKeyValuePair. rewrite member_count by exact V. rewrite Z.ltb_irrefl. f_equal. f_equal. f_equal. rewrite skipn_past; [reflexivity|]. rewrite encode_length. unfold sizeofPair. lia.
Qed.
Print Assumptions component_pair_refuted.
