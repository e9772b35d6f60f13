(* Threads whose gets overlap go on, and the mutexes of the shards *)
From Verif Require Import TreeModel CacheModel CacheSpec CollectionModel CollectionSpec ProfileModel DbModel DbSpec.
From Verif Require ItemModel.
From Verif Require Import CallsModel CallsSpec.
From Verif Require Import ThreadsModel ThreadsSpec ThreadsProofs OverlapModel OverlapSpec OverlapProofs.
Local Open Scope Z_scope.

Section Go.
  Context (file : list Z) (d : db) (u : uses) (cmp : list Z -> list Z -> Z) (cap limit count : nat) (w0 : world).
  Notation ostep := (ostep file (fuelOf u) cmp).
  Notation step := (step file (fuelOf u) cmp).
  Notation exec := (ThreadsSpec.exec file d u cmp cap count w0).
  Notation oexec := (oexec file d u cmp cap limit count w0).
  Notation goes := (goes file u cmp).
  Notation OI := (OI w0).

  Lemma not_reading os t : OI os -> getting (inner os) t = false -> ~ In t (map fst (reading os)).
  Proof using Type. intros H G X. apply in_map_iff in X. destruct X as ((z, l) & E & X). cbn [fst] in E. subst z. rewrite (oi_get _ _ H _ _ X) in G. discriminate. Qed.
  (* a step that could be done if no get had begun can be done, or waits for a mutex *)
  Lemma done_or_waits t a os st' e : OI os -> step t a (before os) = Some (st', e) ->
    (exists os' e', ostep t a os = Some (os', e')) \/ (exists l t', needs os t a l /\ In (t', Some l) (reading os) /\ t' <> t).
  Proof using Type.
    intros H Hs. assert ((getting (inner os) t = true -> ~ In t (map fst (reading os))) -> exists x e', step t a (inner os) = Some (x, e')) as Plain.
    { intros No. unfold before in Hs. rewrite step_more in Hs; [|intros G; exact (handle_there w0 os t H G (No G))]. destruct (step t a (inner os)) as [(x, e')|]; [eauto|discriminate]. }
    assert ((getting (inner os) t = true -> ~ In t (map fst (reading os))) -> exists os' e', plainStep file (fuelOf u) cmp t a (inner os) (reading os) = Some (os', e')) as Plain'.
    { intros No. destruct (Plain No) as (x & e' & E). unfold plainStep. rewrite E. eauto. }
    unfold OverlapModel.ostep. pose proof Hs as Hd. unfold ThreadsModel.step in Hd. change (threads (before os)) with (threads (inner os)) in Hd.
    destruct (nth_error (threads (inner os)) t) as [th|] eqn:E; [|discriminate].
    assert (forall x, isHeld x (reading os) = true -> ~ In t (map fst (reading os)) -> (forall l, x = Some l -> needs os t a l) -> exists l t', needs os t a l /\ In (t', Some l) (reading os) /\ t' <> t) as Waits.
    { intros x Hx No Hn. apply held_in in Hx. destruct Hx as (m & t' & Em & Hm). exists m, t'. split; [exact (Hn m Em)|]. split; [exact Hm|]. intros ->. apply No. apply in_map_iff. exists (t, Some m). auto. }
    destruct a as [q| |k].
    - left. assert (getting (inner os) t = true -> ~ In t (map fst (reading os))) as No by (intros G; unfold getting in G; rewrite E in G; destruct (running th) as [(q', p)|]; discriminate). destruct (running th); exact (Plain' No).
    - destruct (running th) as [(q, p)|] eqn:Er; [|discriminate]. destruct p as [r| |s i okay it kk|s it kk|s kk]; try (left; apply Plain'; unfold getting; rewrite E, Er; discriminate).
      + destruct (isReading t (reading os)) eqn:Ei.
        * left. apply reading_in in Ei. rewrite (before_give w0 os t H Ei), step_more in Hs by (intros _; cbn; lia). unfold plainStep.
          destruct (step t Go (mkState (giveHandle (shared (inner os))) (threads (inner os)))) as [(x, e')|]; [eauto|discriminate].
        * assert (~ In t (map fst (reading os))) as No by (intros X; apply reading_in in X; congruence).
          destruct (isHeld (lockOfGet (shared (inner os)) s i) (reading os)) eqn:Eh.
          -- right. apply (Waits _ Eh No). intros l El. exists th. split; [exact E|]. rewrite Er. auto.
          -- left. destruct (okay && _ && _)%bool; [eauto|]. exact (Plain' (fun _ => No)).
      + assert (getting (inner os) t = false) as G by (unfold getting; rewrite E, Er; reflexivity). destruct (isHeld (lockOfRelease (shared (inner os)) s it) (reading os)) eqn:Eh.
        * right. apply (Waits _ Eh (not_reading os t H G)). intros l El. exists th. split; [exact E|]. rewrite Er. exact El.
        * left. apply Plain'. congruence.
    - destruct (running th) as [(q, p)|] eqn:Er; [discriminate|]. assert (getting (inner os) t = false) as G by (unfold getting; rewrite E, Er; reflexivity).
      destruct (nth_error (items th) k) as [(s, it)|] eqn:Ek; [|discriminate]. destruct (isHeld (lockOfRelease (shared (inner os)) s it) (reading os)) eqn:Eh.
      + right. apply (Waits _ Eh (not_reading os t H G)). intros l El. exists th. split; [exact E|]. rewrite Er. eauto.
      + left. apply Plain'. congruence.
  Qed.
  Context (lim : (limit <= handles w0)%nat).
  Context (kept : forall tr n st, exec tr n st -> handles (shared st) = handles w0).
  Context (defined : forall tr n st t a, exec tr n st -> possible st t a -> admissible d u cap st a -> exists st' e, step t a st = Some (st', e)).
  Lemma oi tr n os : oexec tr n os -> OI os.
  Proof using lim kept. intros E. exact (proj1 (serial file d u cmp cap limit count w0 lim kept tr n os E)). Qed.
  Lemma possible_before os t a : possible (before os) t a <-> possible (inner os) t a.
  Proof using Type. reflexivity. Qed.
  Lemma o_defined tr n os t a : oexec tr n os -> possible (inner os) t a -> oadmissible d u cap limit os a -> exists st' e, step t a (before os) = Some (st', e).
  Proof using lim kept defined.
    intros E P Ad. destruct (serial file d u cmp cap limit count w0 lim kept tr n os E) as (_ & n' & X & _). apply (defined _ _ _ t a X P). destruct a as [q| |k]; cbn [admissible oadmissible] in *; auto. destruct Ad as (A1 & A2 & _). split; [exact A1|exact A2].
  Qed.
  (* a thread that reads can go on *)
  Lemma reader_goes tr n os t : oexec tr n os -> In t (map fst (reading os)) -> exists os', ostep t Go os = Some (os', []) /\ reading os' = finished t (reading os) /\ (forall x, x <> t -> nth_error (threads (inner os')) x = nth_error (threads (inner os)) x).
  Proof using lim kept defined.
    intros E X. pose proof (oi _ _ _ E) as H. pose proof X as X'. apply in_map_iff in X'. destruct X' as ((z, l) & Ez & Hl). cbn [fst] in Ez. subst z. pose proof (oi_get _ _ H _ _ Hl) as G.
    destruct (getting_running (inner os) t G) as (th & E1 & E2). destruct (o_defined tr n os t Go E) as (st' & e & Hs); [exists th; auto|exact Logic.I|].
    unfold getting in G. rewrite E1 in G. destruct (running th) as [(q, p)|] eqn:Er; [|discriminate]. destruct p as [r| |s i okay it kk|s it kk|s kk]; try discriminate.
    pose proof Hs as Hs'. rewrite (before_give w0 os t H X), step_more in Hs' by (intros _; cbn; lia).
    destruct (step t Go (mkState (giveHandle (shared (inner os))) (threads (inner os)))) as [(x, e')|] eqn:Ex; [|discriminate]. clear Hs'.
    assert (e' = []) as ->.
    { unfold ThreadsModel.step in Ex. cbn [threads] in Ex. rewrite E1, Er in Ex. cbn [stepProg] in Ex. destruct (CallsModel.get file (fuelOf u) s i okay it _) as [(((b, ok), it'), w')|]; [|discriminate]. now injection Ex as _ <-. }
    exists (mkO x (finished t (reading os))). split; [|split; [reflexivity|]].
    - unfold OverlapModel.ostep. rewrite E1, Er. assert (isReading t (reading os) = true) as -> by now apply reading_in. unfold plainStep. now rewrite Ex.
    - intros y Hy. exact (step_others file u cmp _ _ _ _ _ y Ex Hy).
  Qed.
  Lemma go_step tr n os t os' e : oexec tr n os -> ostep t Go os = Some (os', e) -> oexec (e ++ tr) (counted t Go n) os'.
  Proof using Type. intros E Hs. refine (oexec_step file d u cmp cap limit count w0 tr n os t Go os' e E _ Hs). exact Logic.I. Qed.
  (* the other readers finish *)
  Lemma others_finish t : forall m tr n os, oexec tr n os -> (length (reading os) <= m)%nat ->
    exists l n' os', goes l os [] os' /\ oexec tr n' os' /\ (forall x, In x (map fst (reading os')) -> x = t) /\ (length l <= m)%nat /\ nth_error (threads (inner os')) t = nth_error (threads (inner os)) t.
  Proof using lim kept defined.
    induction m as [|m IH]; intros tr n os E Hm.
    - exists [], n, os. split; [constructor|]. split; [exact E|]. destruct (reading os); [|cbn [length] in Hm; lia]. split; [intros x []|]. cbn [length]. auto.
    - destruct (existsb (fun x => negb (Nat.eqb (fst x) t)) (reading os)) eqn:Ex.
      + apply existsb_exists in Ex. destruct Ex as (x & Hx & Ne). apply Bool.negb_true_iff, Nat.eqb_neq in Ne. assert (In (fst x) (map fst (reading os))) as Hi by now apply in_map.
        destruct (reader_goes tr n os (fst x) E Hi) as (os1 & Hs & R & Th). pose proof (go_step _ _ _ _ _ _ E Hs) as E1. cbn [app] in E1.
        destruct (IH tr _ os1 E1) as (l & n' & os' & G & E' & A & L & T); [rewrite R; pose proof (finished_length _ _ (oi_nodup _ _ (oi _ _ _ E)) Hi); lia|].
        exists (fst x :: l), n', os'. split; [exact (goes_on file u cmp _ _ _ _ _ _ _ Hs G)|]. split; [exact E'|]. split; [exact A|]. split; [cbn [length]; lia|]. rewrite T. apply Th. auto.
      + exists [], n, os. split; [constructor|]. split; [exact E|]. split; [|cbn [length]; split; [lia|reflexivity]].
        intros x Hx. apply in_map_iff in Hx. destruct Hx as (y & <- & Hy). destruct (Nat.eq_dec (fst y) t) as [Ey|Ne]; [exact Ey|exfalso].
        apply Nat.eqb_neq in Ne. assert (existsb (fun x => negb (Nat.eqb (fst x) t)) (reading os) = true) as X; [|congruence]. apply existsb_exists. exists y. split; [exact Hy|]. now rewrite Ne.
  Qed.
  (* a thread alone: at most two steps for one *)
  Lemma alone_step tr n os t st' e : oexec tr n os -> (forall x, In x (map fst (reading os)) -> x = t) -> step t Go (before os) = Some (st', e) ->
    exists l n' os', goes l os e os' /\ oexec (e ++ tr) n' os' /\ before os' = st' /\ (forall x, In x (map fst (reading os')) -> x = t) /\ (length l <= 2)%nat.
  Proof using lim kept.
    intros E A Hs. pose proof (oi _ _ _ E) as H. destruct (done_or_waits t Go os st' e H Hs) as [(os1 & e1 & Ho)|(l & t' & _ & Hl & Ne)].
    2: { exfalso. apply Ne, A. apply in_map_iff. exists (t', Some l). auto. }
    destruct (kind_before file u cmp w0 t Go os os1 e1 H (kind_step file u cmp t Go os os1 e1 Ho)) as [(_ & -> & B & I1 & I2 & Ei)|(B & I1)].
    - pose proof (go_step _ _ _ _ _ _ E Ho) as E1. cbn [app] in E1. pose proof (oi _ _ _ E1) as H1. rewrite <- B in Hs.
      assert (forall x, In x (map fst (reading os1)) -> x = t) as A1.
      { intros x Hx. destruct (kind_step file u cmp t Go os os1 [] Ho) as [m _ _ _ _ _ _ ->|y _ Z _ _|y _ _ ->]; cbn [reading map fst In] in *; [destruct Hx; auto|contradiction|auto]. }
      destruct (done_or_waits t Go os1 st' e H1 Hs) as [(os2 & e2 & Ho2)|(l & t' & _ & Hl & Ne)].
      2: { exfalso. apply Ne, A1. apply in_map_iff. exists (t', Some l). auto. }
      destruct (kind_before file u cmp w0 t Go os1 os2 e2 H1 (kind_step file u cmp t Go os1 os2 e2 Ho2)) as [(_ & _ & _ & _ & I3 & _)|(B2 & I3)]; [contradiction|].
      rewrite Hs in B2. injection B2 as X1 X2. subst st' e2. exists [t; t], (counted t Go (counted t Go n)), os2. split.
      + rewrite <- (app_nil_r e) at 1. apply (goes_on file u cmp t [t] os os1 [] e os2 Ho). change e with ([] ++ e). apply (goes_on file u cmp t [] os1 os2 e [] os2 Ho2). constructor.
      + split; [exact (go_step _ _ _ _ _ _ E1 Ho2)|]. split; [reflexivity|]. split; [|cbn [length]; lia]. intros x Hx. apply I3 in Hx. apply A1, Hx.
    - rewrite Hs in B. injection B as X1 X2. subst st' e1. exists [t], (counted t Go n), os1. split.
      + change e with ([] ++ e). apply (goes_on file u cmp t [] os os1 e [] os1 Ho). constructor.
      + split; [exact (go_step _ _ _ _ _ _ E Ho)|]. split; [reflexivity|]. split; [|cbn [length]; lia]. intros x Hx. apply I1 in Hx. apply A, Hx.
  Qed.
  Lemma goes_app l1 os e1 os1 : goes l1 os e1 os1 -> forall l2 e2 os2, goes l2 os1 e2 os2 -> goes (l1 ++ l2) os (e2 ++ e1) os2.
  Proof using Type.
    induction 1 as [os|t l os os1 e1 e2 os2 Hs G IH]; intros l2 e3 os3 G2; cbn [app]; [rewrite app_nil_r; exact G2|]. rewrite app_assoc. exact (goes_on file u cmp _ _ _ _ _ _ _ Hs (IH _ _ _ G2)).
  Qed.
  Lemma alone_returns t k st q r : returns file u cmp t k st q r -> forall tr n os, oexec tr n os -> (forall x, In x (map fst (reading os)) -> x = t) -> before os = st ->
    exists l os', goes l os [Returned t q r] os' /\ (length l <= 2 * k)%nat.
  Proof using lim kept.
    induction 1 as [st st' q r Hs|k st st' q r Hs _ IH]; intros tr n os E A <-; destruct (alone_step tr n os t st' _ E A Hs) as (l & n' & os1 & G & E1 & B & A1 & L).
    - exists l, os1. split; [exact G|lia].
    - destruct (IH tr n' os1 E1 A1 B) as (l2 & os2 & G2 & L2). exists (l ++ l2), os2. split; [rewrite <- (app_nil_r [Returned t q r]); exact (goes_app _ _ _ _ G _ _ _ G2)|]. rewrite app_length. lia.
  Qed.
End Go.

