(* Helper lemmas for component.c *)
From Verif Require Export ComponentModel ComponentSpec ListProofs.

Lemma bytes_length : forall n z, length (bytes n z) = n.
Proof. induction n; intros; cbn; auto. Qed.
Lemma le_bytes : forall n z rest, uint n z -> le n (bytes n z ++ rest) = Some z.
Proof.
  induction n as [|n IH]; intros z rest U; unfold uint in *; cbn [le bytes app].
  - change (256 ^ Z.of_nat 0)%Z with 1%Z in U. f_equal. lia.
  - rewrite Nat2Z.inj_succ, Z.pow_succ_r in U by lia. rewrite IH.
    + cbn [option_map]. f_equal. pose proof (Z.div_mod z 256). lia.
    + split; [apply Z.div_pos; lia|]. apply Z.div_lt_upper_bound; lia.
Qed.
Lemma skipn_past : forall {A} n (a b : list A), length a = n -> skipn n (a ++ b) = b.
Proof. intros A n a b <-. rewrite skipn_app, skipn_all, Nat.sub_diag. reflexivity. Qed.
Lemma skipn_add : forall {A} a b (l : list A), skipn (a + b) l = skipn b (skipn a l).
Proof. induction a; intros b l; [reflexivity|]. destruct l; cbn; [now rewrite skipn_nil|apply IHa]. Qed.
Lemma encodePair_length : forall p, length (encodePair p) = 8.
Proof. intros. unfold encodePair. rewrite app_length, !bytes_length. reflexivity. Qed.
Lemma pairs_length : forall l, length (flat_map encodePair l) = 8 * length l.
Proof. induction l as [|p l IH]; [reflexivity|]. cbn [flat_map]. rewrite app_length, encodePair_length, IH. cbn [length]. lia. Qed.
Lemma encode_length : forall c, length (encode c) = 11 + 8 * length (cPairs c).
Proof. intros c. unfold encode. rewrite !app_length, !bytes_length, pairs_length. lia. Qed.

Lemma member_id : forall c rest, valid c -> componentId (encode c ++ rest) = Some (cId c).
Proof. intros c rest (V & _). unfold componentId, member, encode. rewrite <- !app_assoc. cbn [skipn]. now apply le_bytes. Qed.
Lemma member_name : forall c rest, valid c -> nameOffset (encode c ++ rest) = Some (cName c).
Proof. intros c rest (_ & V & _). unfold nameOffset, member, encode. rewrite <- !app_assoc. rewrite skipn_past by apply bytes_length. now apply le_bytes. Qed.
Lemma member_profile : forall c rest, valid c -> defaultProfileOffset (encode c ++ rest) = Some (cProfile c).
Proof.
  intros c rest (_ & _ & V & _). unfold defaultProfileOffset, member, encode. rewrite <- !app_assoc. change 5 with (1 + 4). rewrite skipn_add, skipn_past by apply bytes_length. rewrite skipn_past by apply bytes_length. now apply le_bytes.
Qed.
Lemma member_count : forall c rest, valid c -> keyValuesCount (encode c ++ rest) = Some (Z.of_nat (length (cPairs c))).
Proof.
  intros c rest (_ & _ & _ & V & _). unfold keyValuesCount, member, encode. rewrite <- !app_assoc. change 9 with (1 + (4 + 4)). rewrite skipn_add, skipn_past by apply bytes_length. rewrite skipn_add, skipn_past by apply bytes_length. rewrite skipn_past by apply bytes_length. now apply le_bytes.
Qed.
Lemma size_ok : forall c rest, valid c -> getFinalComponentSize (encode c ++ rest) = Some (Z.of_nat (length (encode c))).
Proof.
  intros c rest V. unfold getFinalComponentSize. rewrite member_count by exact V. cbn [option_map]. f_equal. rewrite encode_length. destruct V as (_ & _ & _ & U & _). unfold uint in U. change (256 ^ Z.of_nat 2)%Z with 65536%Z in U.
  set (n := Z.of_nat (length (cPairs c))) in *. unfold sizeofPair, sizeofComponent, toInt32. rewrite Zmult_mod_idemp_l.
  replace (((n - 1) * 8) mod 2 ^ 64 + 2 ^ 31)%Z with (((n - 1) * 8) mod 2 ^ 64 + 2 ^ 31)%Z by reflexivity.
  assert (E : ((((n - 1) * 8) mod 2 ^ 64 + 2 ^ 31) mod 2 ^ 32 = (n - 1) * 8 + 2 ^ 31)%Z).
  { rewrite <- Z.add_mod_idemp_l by lia. rewrite <- Znumtheory.Zmod_div_mod; [|lia|lia|exists (2 ^ 32)%Z; lia]. rewrite Z.add_mod_idemp_l by lia. apply Z.mod_small. lia. }
  rewrite E. rewrite Z.mod_small by lia. unfold n. lia.
Qed.

(* ---- the list ---- *)
Lemma add_perform : forall x w w', ListAdd x w = Some w' -> forall ops, performAll (Add x :: ops) w = option_map (fun '(rs, v) => (None :: rs, v)) (performAll ops w').
Proof. intros x w w' H ops. cbn [performAll perform]. rewrite H. reflexivity. Qed.
Lemma uses_adds : forall xs c held, (Z.of_nat (length held + length xs) <= c)%Z -> Forall (fun x => collection x <> None) xs ->
  usesAll (Open c held) (map Add xs) (Open c (held ++ xs)) [] (map (fun _ => None) xs).
Proof.
  induction xs as [|x xs IH]; intros c held L F; cbn [map]; [rewrite app_nil_r; constructor|]. inversion F as [|y z Fx Fxs]; subst. cbn [length] in L.
  change (@nil Item) with ([] ++ @nil Item) at 1. eapply uses_more; [apply uses_add; [lia|exact Fx]|]. replace (held ++ x :: xs) with ((held ++ [x]) ++ xs) by (rewrite <- app_assoc; reflexivity).
  apply IH; [rewrite app_length; cbn [length]; lia|exact Fxs].
Qed.
Lemma performAll_app : forall a b w r w', performAll (a ++ b) w = Some (r, w') -> exists r1 w1 r2, performAll a w = Some (r1, w1) /\ performAll b w1 = Some (r2, w') /\ r = r1 ++ r2.
Proof.
  induction a as [|o a IH]; intros b w r w' H; [exists [], w, r; auto|]. cbn [app performAll] in *. destruct (perform o w) as [(x, v)|]; [|discriminate]. destruct (performAll (a ++ b) v) as [(rs, v')|] eqn:E; [|discriminate]. cbn [option_map] in H. injection H as <- <-.
  destruct (IH b v rs v' E) as (r1 & w1 & r2 & A & B & ->). exists (x :: r1), w1, r2. rewrite A. auto.
Qed.
Lemma places_app : forall a b o, places o (a ++ b) = places o a ++ places (o + Z.of_nat (length (flat_map encode a))) b.
Proof.
  induction a as [|c a IH]; intros b o; cbn [app places flat_map]; [f_equal; cbn; lia|]. rewrite IH. f_equal. f_equal. f_equal. rewrite app_length. lia.
Qed.
Lemma places_length : forall l o, length (places o l) = length l.
Proof. induction l; intros; cbn; auto. Qed.

(* one component after another is added *)
Lemma init_loop : forall todo done fuel get region n w ok1,
  Forall valid (done ++ todo) -> region = flat_map encode (done ++ todo) -> (Z.of_nat (length region) < 2 ^ 32)%Z ->
  (n <= Z.of_nat (length (done ++ todo)))%Z -> (Z.of_nat (length done) <= n)%Z -> (n < 2 ^ 32)%Z ->
  (forall o, In o (places 0 (done ++ todo)) -> get o = (Some (skipn (Z.to_nat o) region), true)) ->
  performAll (Init n :: map (fun o => Add (itemAt o)) (places 0 done)) closed0 = Some (ok1, w) -> length todo < fuel ->
  exists w' r, initLoop fuel get n (Z.of_nat (length (flat_map encode done))) true w = Some (true, w') /\
    performAll (Init n :: map (fun o => Add (itemAt o)) (firstn (Z.to_nat n) (places 0 (done ++ todo)))) closed0 = Some (r, w').
Proof.
  induction todo as [|c todo IH]; intros done fuel get region n w ok1 V R L N D N32 G P F; (destruct fuel as [|fuel]; [cbn in F; lia|]).
  - (* all are done *)
    assert (U : usesAll Closed (Init n :: map Add (map itemAt (places 0 done))) (Open n ([] ++ map itemAt (places 0 done))) ([] ++ []) (None :: map (fun _ => None) (map itemAt (places 0 done)))).
    { eapply uses_more; [apply uses_init; rewrite app_length in N; cbn [length] in N; lia|]. apply uses_adds; [rewrite map_length, places_length; cbn [length]; lia|]. apply Forall_forall. intros x Ix. apply in_map_iff in Ix. destruct Ix as (o & <- & _). discriminate. }
    destruct (steps_ok _ _ _ _ _ U closed0) as (w1 & P1 & R1 & S1); [cbn; auto|]. rewrite map_map in P1. rewrite P1 in P. injection P as _ <-.
    destruct S1 as (b & cells & rest & E & Nb & EC & L1 & K & C & T & V1 & F1). cbn [app] in T. rewrite map_length, places_length in T. rewrite app_nil_r in *. cbn [initLoop]. rewrite T.
    assert (Q : n = Z.of_nat (length done)) by lia. rewrite <- Q, Z.ltb_irrefl. cbn [andb]. exists w1, (None :: map (fun _ => None) (map itemAt (places 0 done))). split; [reflexivity|]. rewrite firstn_all2 by (rewrite places_length; lia). exact P1.
  - assert (U : usesAll Closed (Init n :: map Add (map itemAt (places 0 done))) (Open n ([] ++ map itemAt (places 0 done))) ([] ++ []) (None :: map (fun _ => None) (map itemAt (places 0 done)))).
    { eapply uses_more; [apply uses_init; lia|]. apply uses_adds; [rewrite map_length, places_length; cbn [length]; lia|]. apply Forall_forall. intros x Ix. apply in_map_iff in Ix. destruct Ix as (o & <- & _). discriminate. }
    destruct (steps_ok _ _ _ _ _ U closed0) as (w1 & P1 & R1 & S1); [cbn; auto|]. rewrite map_map in P1. rewrite P1 in P. injection P as _ <-.
    pose proof S1 as S1'. destruct S1' as (b & cells & rest & E & Nb & EC & L1 & K & C & T & V1 & F1). cbn [app] in T. rewrite map_length, places_length in T. cbn [initLoop]. rewrite T.
    destruct (Z.ltb_spec (Z.of_nat (length done)) n) as [Lt|Ge].
    + cbn [andb]. set (o := Z.of_nat (length (flat_map encode done))) in *.
      assert (Io : In o (places 0 (done ++ c :: todo))). { rewrite places_app. apply in_or_app. right. cbn [places]. left. unfold o. lia. }
      rewrite (G o Io). 
      assert (Sk : skipn (Z.to_nat o) region = encode c ++ flat_map encode todo). { rewrite R, flat_map_app. unfold o. rewrite Nat2Z.id. rewrite skipn_past by reflexivity. reflexivity. }
      rewrite Sk.
      assert (Vc : valid c). { rewrite Forall_forall in V. apply V. apply in_or_app. right. now left. }
      rewrite size_ok by exact Vc.
      assert (U2 : usesAll Closed (Init n :: map Add (map itemAt (places 0 (done ++ [c])))) (Open n ([] ++ map itemAt (places 0 (done ++ [c])))) ([] ++ []) (None :: map (fun _ => None) (map itemAt (places 0 (done ++ [c]))))).
      { eapply uses_more; [apply uses_init; lia|]. apply uses_adds; [rewrite map_length, places_length, app_length; cbn [length]; lia|]. apply Forall_forall. intros x Ix. apply in_map_iff in Ix. destruct Ix as (o' & <- & _). discriminate. }
      destruct (steps_ok _ _ _ _ _ U2 closed0) as (w2 & P2 & R2 & S2); [cbn; auto|]. rewrite map_map in P2.
      pose proof P2 as P2'. rewrite places_app, map_app in P2'. change (Init n :: map (fun x => Add (itemAt x)) (places 0 done) ++ ?l) with ((Init n :: map (fun x => Add (itemAt x)) (places 0 done)) ++ l) in P2'.
      destruct (performAll_app _ _ _ _ _ P2') as (r1 & w3 & r2 & A & B & _). rewrite P1 in A. injection A as _ <-. cbn [places map performAll perform] in B. rewrite Z.add_0_l in B. fold o in B. change (mkItem (Some 1%Z) o 0) with (itemAt o). destruct (ListAdd (itemAt o) w1) as [w4|] eqn:EA; [|discriminate B]. cbn [option_map] in B. injection B as _ ->.
      assert (OL : (o + Z.of_nat (length (encode c)) = Z.of_nat (length (flat_map encode (done ++ [c]))))%Z). { unfold o. rewrite flat_map_app, app_length. cbn [flat_map]. rewrite app_nil_r. lia. }
      rewrite OL. assert (Ll : (Z.of_nat (length (flat_map encode (done ++ [c]))) < 2 ^ 32)%Z). { rewrite R in L. replace (done ++ c :: todo) with ((done ++ [c]) ++ todo) in L by (rewrite <- app_assoc; reflexivity). rewrite flat_map_app, app_length in L. lia. }
      rewrite Z.mod_small by lia. replace (done ++ c :: todo) with ((done ++ [c]) ++ todo) in * by (rewrite <- app_assoc; reflexivity).
      eapply (IH (done ++ [c]) fuel get region n w2); [exact V|exact R|exact L|exact N|rewrite app_length; cbn [length]; lia|exact N32|exact G|exact P2|cbn [length] in F; lia].
    + assert (Q : n = Z.of_nat (length done)) by lia. cbn [andb]. exists w1, (None :: map (fun _ => None) (map itemAt (places 0 done))). split; [reflexivity|]. rewrite places_app, firstn_app, firstn_all2 by (rewrite places_length; lia). rewrite places_length. replace (Z.to_nat n - length done) with 0 by lia. cbn [firstn]. rewrite app_nil_r. exact P1.
Qed.

(* a get method that fails ends the loop with what was added until then *)
Lemma init_fails : forall done c rest fuel get region n w ok1,
  Forall valid (done ++ c :: rest) -> region = flat_map encode (done ++ c :: rest) -> (Z.of_nat (length region) < 2 ^ 32)%Z ->
  (Z.of_nat (length done) < n < 2 ^ 32)%Z -> forall p, get (Z.of_nat (length (flat_map encode done))) = (p, false) ->
  performAll (Init n :: map (fun o => Add (itemAt o)) (places 0 done)) closed0 = Some (ok1, w) -> 2 <= fuel ->
  initLoop fuel get n (Z.of_nat (length (flat_map encode done))) true w = Some (false, w).
Proof.
  intros done c rest fuel get region n w ok1 V R L N p G P F. destruct fuel as [|[|fuel]]; [lia|lia|].
  assert (U : usesAll Closed (Init n :: map Add (map itemAt (places 0 done))) (Open n ([] ++ map itemAt (places 0 done))) ([] ++ []) (None :: map (fun _ => None) (map itemAt (places 0 done)))).
  { eapply uses_more; [apply uses_init; lia|]. apply uses_adds; [rewrite map_length, places_length; cbn [length]; lia|]. apply Forall_forall. intros x Ix. apply in_map_iff in Ix. destruct Ix as (o & <- & _). discriminate. }
  destruct (steps_ok _ _ _ _ _ U closed0) as (w1 & P1 & R1 & S1); [cbn; auto|]. rewrite map_map in P1. rewrite P1 in P. injection P as _ <-.
  destruct S1 as (b & cells & rest' & E & Nb & EC & L1 & K & C & T & V1 & F1). cbn [app] in T. rewrite map_length, places_length in T.
  cbn [initLoop]. rewrite T. replace (Z.of_nat (length done) <? n)%Z with true by lia. cbn [andb]. rewrite G. destruct p; reflexivity.
Qed.
