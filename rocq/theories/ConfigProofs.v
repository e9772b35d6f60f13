(* Helper lemmas for ConfigBase.cpp *)
From Verif Require Export ConfigSpec.

Lemma ctext_before : forall s, textBefore s (cText s).
Proof.
  induction s as [|c s IH]; [split; [intros []|now left]|]. cbn [cText]. destruct (Z.eqb_spec c 0) as [->|N]; [split; [intros []|right; exists s; reflexivity]|].
  destruct IH as (I & H). split; [intros [E|E]; [congruence|contradiction]|]. destruct H as [H|(r & H)]; [left; congruence|right; exists r; cbn [app]; congruence].
Qed.
(* the directories that the configuration has are those of the vector *)
Definition good (w : World) (n : nat) : Prop :=
  tempDirCount (config w) = Z.of_nat (List.length (strings w)) /\ Forall (fun x => (fst x < next w)%nat) (arrays w) /\ List.length (arrays w) = n /\ next w = n /\
  match n with
  | O => tempDirs (config w) = None /\ strings w = []
  | S _ => exists a rest, tempDirs (config w) = Some a /\ arrays w = (a, map (mkPointer (now w)) (seq 0 (List.length (strings w)))) :: rest
  end.
Lemma run_good : forall c w n, good w n -> exists w', run true c w = Some w' /\ good w' (n + setsDirs [c])%nat /\
  strings w' = match dirsOf c with Some l => l | None => strings w end /\
  usesUpperPrefixedHeaders (config w') = match upperOf c with Some b => b | None => usesUpperPrefixedHeaders (config w) end /\
  useTempFile (config w') = match useOf c with Some b => b | None => useTempFile (config w) end /\
  reuseTempFile (config w') = match reuseOf c with Some b => b | None => reuseTempFile (config w) end.
Proof.
  intros c w n (G1 & G2 & G3 & G4 & G5). destruct c as [b|b|b|l]; cbn [run].
  1-3: (eexists; split; [reflexivity|]; split; [|repeat split]; cbn [setsDirs]; rewrite Nat.add_0_r; unfold good; cbn [config strings now arrays next tempDirs tempDirCount setUseUpperPrefixHeaders setUseTempFile setReuseTempFile]; auto).
  unfold setTempDirectories, mapTempDirectories. eexists. split; [reflexivity|]. split; [|repeat split]. cbn [setsDirs]. rewrite Nat.add_1_r.
  unfold good. cbn [config strings now arrays next tempDirs tempDirCount fst List.length]. split; [reflexivity|]. split; [constructor; [cbn; lia|]; eapply Forall_impl; [|exact G2]; cbn; lia|]. split; [lia|]. split; [lia|]. do 2 eexists. split; reflexivity.
Qed.
Lemma sets_app : forall c l, setsDirs (c :: l) = (setsDirs [c] + setsDirs l)%nat.
Proof. intros [] l; reflexivity. Qed.
Lemma runs_good : forall l w n, good w n -> exists w', runs true l w = Some w' /\ good w' (n + setsDirs l)%nat /\
  strings w' = lastOf dirsOf (strings w) l /\ usesUpperPrefixedHeaders (config w') = lastOf upperOf (usesUpperPrefixedHeaders (config w)) l /\
  useTempFile (config w') = lastOf useOf (useTempFile (config w)) l /\ reuseTempFile (config w') = lastOf reuseOf (reuseTempFile (config w)) l.
Proof.
  induction l as [|c l IH]; intros w n G.
  - exists w. cbn [runs setsDirs lastOf]. rewrite Nat.add_0_r. auto 10.
  - destruct (run_good c w n G) as (w1 & E1 & G1 & A1 & A2 & A3 & A4). destruct (IH w1 _ G1) as (w2 & E2 & G2 & B1 & B2 & B3 & B4).
    exists w2. cbn [runs lastOf]. rewrite E1. split; [exact E2|]. rewrite sets_app, Nat.add_assoc. split; [exact G2|]. rewrite B1, B2, B3, B4, A1, A2, A3, A4. auto.
Qed.
