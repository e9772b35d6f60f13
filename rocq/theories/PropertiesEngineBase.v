(* The properties of EngineBase.cpp *)
From Verif Require Import EngineBaseProofs PropertiesEvidence EvidenceSpec.

(* C87, the keys of overriding properties: each once, after those there are; a NULL name
   throws after the keys of the names before it *)
Theorem engine_override_keys : forall prefixed names keys, exists out,
  distinct keys (flat_map (overrideKeys prefixed) names) out /\
  initOverrideKeys (Some (prefixed, List.map Some names)) keys = (keys ++ out, false) /\
  (forall rest, initOverrideKeys (Some (prefixed, List.map Some names ++ None :: rest)) keys = (keys ++ out, true)) /\
  initOverrideKeys None keys = (keys, false).
Proof.
  intros prefixed names keys. destruct (add_list (flat_map (overrideKeys prefixed) names) keys) as (out & D & F). exists out. split; [exact D|]. cbn [initOverrideKeys]. rewrite override_some, F. split; [reflexivity|]. split; [|reflexivity]. intros rest. now rewrite override_none, F.
Qed.
Print Assumptions engine_override_keys.
(* C87, the keys of headers that are not pseudo headers *)
Theorem engine_header_keys : forall upper names keys, exists real out,
  (forall n, In n real <-> In n names /\ ~ isPseudo n) /\ distinct keys (flat_map (headerKeys upper) real) out /\ initHttpHeaderKeys upper names keys = keys ++ out.
Proof.
  intros upper names keys. exists (filter (fun n => negb (existsb (Z.eqb 31) n)) names). destruct (add_list (flat_map (headerKeys upper) (filter (fun n => negb (existsb (Z.eqb 31) n)) names)) keys) as (out & D & F). exists out.
  split; [|split; [exact D|now rewrite header_fold]]. intros n. rewrite filter_In, negb_true_iff, <- not_true_iff_false, existsb_exists. unfold isPseudo. split; intros (I & N); (split; [exact I|]); intros H; apply N; [exists 31; split; [exact H|reflexivity]|]. destruct H as (x & Ix & E). apply Z.eqb_eq in E. now subst x.
Qed.
Print Assumptions engine_header_keys.
(* so the keys are those wanted, and no key is there twice *)
Theorem engine_keys : forall prefixed upper names headers,
  let keys := initHttpHeaderKeys upper headers (fst (initOverrideKeys (Some (prefixed, List.map Some names)) [])) in
  NoDup keys /\ forall k, In k keys <-> (exists n, In n names /\ In k (overrideKeys prefixed n)) \/ (exists n, In n headers /\ ~ isPseudo n /\ In k (headerKeys upper n)).
Proof.
  intros prefixed upper names headers keys. destruct (engine_override_keys prefixed names []) as (out1 & D1 & E1 & _). destruct (engine_header_keys upper headers out1) as (real & out2 & R & D2 & E2).
  assert (K : keys = out1 ++ out2) by (unfold keys; rewrite E1; exact E2). rewrite K. destruct (distinct_in _ _ _ D1) as (A1 & B1). destruct (distinct_in _ _ _ D2) as (A2 & B2). cbn [app] in A1, B1. split; [apply B2, B1; constructor|].
  intros k. rewrite A2, A1, !in_flat_map. split.
  - intros [[[]|H]|(n & I & H)]; [now left|]. right. apply R in I. exists n. tauto.
  - intros [H|(n & I & N & H)]; [left; now right|]. right. exists n. split; [now apply R|exact H].
Qed.
Print Assumptions engine_keys.
Definition nameA : list Z := [65].
Example engine_keys_example : initHttpHeaderKeys true [nameA; [66; 31; 67]; nameA] (fst (initOverrideKeys (Some (false, [Some nameA; None])) [])) =
  [bytesOf "cookie.A"; bytesOf "query.A"; bytesOf "header.HTTP_A"; bytesOf "query.HTTP_A"] /\
  initHttpHeaderKeys false [nameA] (fst (initOverrideKeys (Some (false, [Some nameA])) [])) = [bytesOf "cookie.A"; bytesOf "query.A"; bytesOf "header.A"] /\
  initOverrideKeys (Some (true, [Some nameA; None; Some [66]])) [] = ([bytesOf "cookie.51D_A"; bytesOf "query.51D_A"], true).
Proof. vm_compute. auto. Qed.

(* C87, every key of a name that is not empty is understood as evidence *)
Theorem engine_keys_understood : forall flag name, name <> [] ->
  (exists tag, Forall2 (fun k p => exists t, EvidenceMapPrefix k = Some (t, p) /\ k = t ++ tag ++ name) (overrideKeys flag name) [16; 8]) /\
  (exists tag, Forall2 (fun k p => exists t, EvidenceMapPrefix k = Some (t, p) /\ k = t ++ tag ++ name) (headerKeys flag name) [1; 8]).
Proof.
  intros flag name Ne.
  assert (M : forall t p tag, keyPrefix t p -> exists t', EvidenceMapPrefix (t ++ tag ++ name) = Some (t', p) /\ t ++ tag ++ name = t' ++ tag ++ name).
  { intros t p tag K. exists t. split; [|reflexivity]. apply evidence_map_prefix. split; [exact K|]. exists (tag ++ name). split; [|reflexivity]. intros Q. apply app_eq_nil in Q. tauto. }
  pose proof (fun tag => M _ _ tag key_cookie) as C. pose proof (fun tag => M _ _ tag key_query) as Q. pose proof (fun tag => M _ _ tag key_header) as H.
  split; destruct flag; [exists (bytesOf "51D_")|exists []|exists (bytesOf "HTTP_")|exists []]; repeat constructor; [apply C|apply Q|apply (C [])|apply (Q [])|apply H|apply Q|apply (H [])|apply (Q [])].
Qed.
Print Assumptions engine_keys_understood.
(* Refuted for an empty name: the key is listed but not accepted as evidence *)
Theorem engine_keys_understood_refuted : initHttpHeaderKeys false [[]] [] = [bytesOf "header."; bytesOf "query."] /\ EvidenceMapPrefix (bytesOf "header.") = None /\ EvidenceMapPrefix (bytesOf "query.") = None.
Proof. vm_compute. auto. Qed.
Print Assumptions engine_keys_understood_refuted.

(* C87, the update URL is the one that was set, else one with the licence key, else empty;
   updates are enabled if it is not *)
Theorem engine_update_url : forall url licence type product,
  (url <> [] -> getDataUpdateUrl url licence type product = url) /\
  (licence <> [] -> ~ In 0 licence -> getDataUpdateUrl [] licence type product =
     bytesOf "https://distributor.51degrees.com/api/v2/download?LicenceKeys=" ++ licence ++ bytesOf "&Type=" ++ type ++ bytesOf "&Product=" ++ product) /\
  (getAutomaticUpdatesEnabled url licence type product = true <-> url <> [] \/ licence <> []).
Proof.
  intros url licence type product. assert (C : ~ In 0 licence -> cText licence = licence). { clear. induction licence as [|c l IH]; intros N; [reflexivity|]. cbn [cText]. cbn [In] in N. destruct (Z.eqb_spec c 0) as [->|Ne]; [tauto|]. rewrite IH by tauto. reflexivity. }
  split; [|split].
  - intros N. destruct url; [congruence|reflexivity].
  - intros N Z0. unfold getDataUpdateUrl. destruct licence as [|c l]; [congruence|]. rewrite C by exact Z0. rewrite !literal_bytes. reflexivity.
  - unfold getAutomaticUpdatesEnabled, getDataUpdateUrl. destruct url as [|u url]; [|split; [intros _; left; discriminate|reflexivity]]. destruct licence as [|c l]; [split; [discriminate|intros [H|H]; congruence]|]. split; [intros _; right; discriminate|reflexivity].
Qed.
Print Assumptions engine_update_url.
Example engine_update_url_example : getDataUpdateUrl [] (bytesOf "KEY") (bytesOf "HashV41") (bytesOf "V4TAC") = bytesOf "https://distributor.51degrees.com/api/v2/download?LicenceKeys=KEY&Type=HashV41&Product=V4TAC" /\ getAutomaticUpdatesEnabled [] [] [72] [86] = false.
Proof. vm_compute. auto. Qed.
