From Coq Require Import List Arith ZArith Lia Bool.
Import ListNotations.
From Verif Require Import TreeModel TreeSpec CacheModel CacheShard CacheSpec CacheRun CacheProps LockModel LockSpec LockProofs LockRun LockProps.

(* the counters when there is only one shard *)
Section C.
  Context {D : Type}.
  Variable hash : Z -> Z.
  Variable fuel : nat.
  Variables (capacity : Z) (slots : nat) (c0 : cache D).
  Hypothesis HS : setup capacity 1 slots hash fuel c0.

  Definition hitOut (o : out D) : bool := match o with OHit _ _ => true | _ => false end.
  (* the counter was stored *)
  Inductive paid (hit : bool) : prog D -> Prop :=
  | pd_unlock o : hitOut o = hit -> paid hit (Unlock (Some o))
  | pd_access f : (forall s p s', f s = Some (p, s') -> paid hit p) -> paid hit (Access f).
  (* was loaded as z *)
  Inductive loaded (hit : bool) (z : Z) : prog D -> Prop :=
  | ld_store p : paid hit p -> loaded hit z (StoreCounter hit ((z + 1) mod 2 ^ 64)%Z p).
  (* was not used yet; a release uses none *)
  Inductive due : prog D -> Prop :=
  | du_none : due (Unlock None)
  | du_load hit k : (forall z, loaded hit z (k z)) -> due (LoadCounter hit k)
  | du_access f : (forall s p s', f s = Some (p, s') -> due p) -> due (Access f).

  Lemma due_count hit p : paid hit p -> due (count hit p).
  Proof using. intros H. constructor. intros z. constructor. exact H. Qed.
  Lemma due_load ok i : due (@loadDone D ok i).
  Proof using. apply due_count. apply pd_access. intros s p s' H. injection H as <- <-. constructor. destruct ok; reflexivity. Qed.
  Lemma due_hit i : due (@hitDone D i).
  Proof using. apply due_count. apply pd_access. intros s p s' H. injection H as <- <-. constructor. reflexivity. Qed.
  Lemma due_remove hk ok d i : due (removeProg fuel hk ok d i).
  Proof using.
    apply du_access. intros s p s' H. destruct (onTree _ s) as [(x, s3)|]; [|discriminate]. injection H as <- <-.
    apply du_access. intros s0 p s' H. injection H as <- <-. apply du_access. intros s1 p s' H. injection H as <- <-. destruct ok; [|apply due_load].
    apply du_access. intros s2 p s' H. destruct (onTree _ s2) as [(x', s4)|]; [|discriminate]. injection H as <- <-.
    apply du_access. intros s5 p s' H. destruct (onTree _ s5) as [(x'', s6)|]; [|discriminate]. injection H as <- <-. apply due_load.
  Qed.
  Lemma due_call o : due (callProg hash fuel o).
  Proof using.
    destruct o as [k ok d|(j, i)]; cbn [callProg].
    - apply du_access. intros s p s' H. destruct (TreeFind fuel (hash k) (tree s)) as [([q|], h)|]; [| |discriminate]; injection H as <- <-.
      + apply du_access. intros s1 p s' H. destruct (Z.ltb _ _); [|discriminate]. injection H as <- <-. destruct (Z.eqb _ _); [|apply due_hit].
        apply du_access. intros s2 p s' H. injection H as <- <-. apply due_hit.
      + apply du_access. intros s1 p s' H. destruct (Nat.ltb _ _); [injection H as <- <-; apply due_remove|].
        destruct (last s1) as [i|]; [|injection H as <- <-; apply due_count; constructor; reflexivity]. destruct (Z.eqb _ _); [|discriminate]. injection H as <- <-.
        apply du_access. intros s2 p s' H. injection H as <- <-. apply du_access. intros s3 p s' H. destruct (onTree _ s3) as [(x, s4)|]; [|discriminate]. injection H as <- <-. apply due_remove.
    - apply du_access. intros s p s' H. destruct (Z.eqb _ _); [discriminate|]. injection H as <- <-. destruct (Z.eqb _ _); [|constructor].
      apply du_access. intros s1 p s' H. destruct (cacheAddToHead i s1); [|discriminate]. injection H as <- <-. constructor.
  Qed.

  Definition ctr (hit : bool) (m : machine D) : Z := if hit then hits (shared m) else misses (shared m).
  Definition tally (hit : bool) (tr : trace D) : Z := (Z.of_nat (countEv (if hit then isHit else fun e => isLoad e || isRefused e) tr) mod 2 ^ 64)%Z.
  Definition exact (tr : list (levent D)) (m : machine D) : Prop := forall b, ctr b m = tally b (ended tr).
  Definition waits (tr : list (levent D)) (m : machine D) (p : prog D) : Prop :=
    due p /\ exact tr m \/ (exists hit, loaded hit (ctr hit m) p /\ exact tr m) \/
    (exists hit, paid hit p /\ ctr hit m = ((tally hit (ended tr) + 1) mod 2 ^ 64)%Z /\ ctr (negb hit) m = tally (negb hit) (ended tr)).
  Definition LC (tr : list (levent D)) (m : machine D) : Prop :=
    ((forall t j, ~ inside m t j) -> exact tr m) /\ (forall t o j p, nth_error (threads m) t = Some (Inside o j p) -> waits tr m p).

  Lemma one_shard tr m c : LI hash fuel c0 tr m c -> length (shards c) = 1.
  Proof using HS. intros L. destruct (reach _ _ _ _ _ _ HS _ _ (l_ex _ _ _ _ _ _ L)) as (as_ & HC). exact (ci_len _ _ _ _ _ _ HC). Qed.
  Lemma one_inside tr m c t u j j' : LI hash fuel c0 tr m c -> inside m t j -> inside m u j' -> t = u.
  Proof using HS.
    intros L H H'. pose proof (one_shard _ _ _ L) as E. pose proof H as (o & p & X). pose proof H' as (o' & p' & X').
    destruct (l_op _ _ _ _ _ _ L _ _ _ _ X eq_refl) as (_ & A & _). destruct (l_op _ _ _ _ _ _ L _ _ _ _ X' eq_refl) as (_ & B & _).
    assert (j = j') as -> by lia. eapply inside_one; eauto.
  Qed.
  Lemma tally_cons b e (tr : trace D) : tally b (e :: tr) = if (if b then isHit e else isLoad e || isRefused e) then ((tally b tr + 1) mod 2 ^ 64)%Z else tally b tr.
  Proof using.
    unfold tally. destruct b; rewrite countEv_cons.
    - destruct (isHit e); auto. rewrite Nat2Z.inj_succ, mod_succ by lia. reflexivity.
    - destruct (isLoad e || isRefused e); auto. rewrite Nat2Z.inj_succ, mod_succ by lia. reflexivity.
  Qed.
  Lemma lc_all n tr m : lexec hash fuel c0 n tr m -> LC tr m.
  Proof using HS.
    induction 1 as [|tr m t a m' evs He (I1 & I2) Hu Hs].
    - split.
      + intros _ b. destruct HS as (_ & _ & _ & _ & (h & d0 & _ & Hc) & _). unfold cacheCreate in Hc. repeat match type of Hc with context [match ?x with _ => _ end] => destruct x; try discriminate end. injection Hc as <-. destruct b; reflexivity.
      + intros u o j p Hx. cbn in Hx. apply nth_error_In, repeat_spec in Hx. discriminate.
    - destruct (lexec_LI _ _ _ _ _ _ HS _ _ _ He) as (c & L). pose proof (lexec_step _ _ _ _ _ _ _ _ _ _ He Hu Hs) as He'. destruct (lexec_LI _ _ _ _ _ _ HS _ _ _ He') as (c' & L').
      unfold lstep in Hs. destruct (nth_error (threads m) t) as [z|] eqn:Et; [|discriminate].
      (* a step of a thread that is not inside and does not get there *)
      assert (forall y, threads m' = lupd (threads m) t y -> shared m' = shared m -> ended (evs ++ tr) = ended tr -> (forall o j p, y <> Inside o j p) -> (forall o j p, z <> Inside o j p) -> LC (evs ++ tr) m') as Side.
      { intros y E1 E2 E3 Ny Nz.
        assert (forall u o j p, nth_error (threads m') u = Some (Inside o j p) <-> nth_error (threads m) u = Some (Inside o j p)) as Same.
        { intros u o j p. rewrite E1. destruct (Nat.eq_dec u t) as [->|Ne]; [|rewrite nth_lupd_ne' by auto; tauto]. rewrite (nth_lupd_eq' _ _ _ _ Et), Et. split; intros E; injection E as E; exfalso; [eapply Ny; eauto|eapply Nz; eauto]. }
        unfold LC, waits, exact, ctr in *. rewrite E2, E3. split.
        - intros Ni. apply I1. intros u j (o & p & X). apply (Ni u j). exists o, p. now apply Same.
        - intros u o j p X. apply Same in X. eapply I2; eauto. }
      (* a step inside *)
      assert (forall o j p p', z = Inside o j p -> threads m' = lupd (threads m) t (Inside o j p') -> (waits tr m p -> waits (evs ++ tr) m' p') -> LC (evs ++ tr) m') as Stay.
      { intros o j p p' -> E1 W. split.
        - intros Ni. exfalso. apply (Ni t j). exists o, p'. rewrite E1. eapply nth_lupd_eq'; eauto.
        - intros u o1 j1 p1 X. assert (u = t) as ->.
          { eapply (one_inside _ _ _ u t j1 j L'); [exists o1, p1; exact X|exists o, p'; rewrite E1; eapply nth_lupd_eq'; eauto]. }
          rewrite E1, (nth_lupd_eq' _ _ _ _ Et) in X. injection X as <- <- <-. apply W. eapply I2; eauto. }
      destruct a as [o|].
      + destruct z; try discriminate. destruct (shardOf hash o (shared m)) as [j|]; [|discriminate]. injection Hs as <- <-. apply (Side (Want o j)); auto; discriminate.
      + destruct z as [|o j|o j p|j i]; try discriminate.
        * destruct (nth_error (owner m) j) as [[w|]|] eqn:Eo; try discriminate. injection Hs as <- <-.
          assert (forall u j', ~ inside m u j') as Ni.
          { intros u j' (o' & p' & X). pose proof (l_in _ _ _ _ _ _ L _ _ _ _ X) as Y. pose proof (one_shard _ _ _ L) as E.
            destruct (l_op _ _ _ _ _ _ L _ _ _ _ X eq_refl) as (_ & A & _). destruct (l_op _ _ _ _ _ _ L _ _ _ _ Et eq_refl) as (_ & B & _). assert (j' = j) as -> by lia. congruence. }
          specialize (I1 Ni). split.
          { intros N. exfalso. apply (N t j). exists o, (callProg hash fuel o). cbn. eapply nth_lupd_eq'; eauto. }
          { intros u o1 j1 p1 X. cbn in X. destruct (Nat.eq_dec u t) as [->|Ne].
            - rewrite (nth_lupd_eq' _ _ _ _ Et) in X. injection X as <- <- <-. left. split; [apply due_call|exact I1].
            - rewrite nth_lupd_ne' in X by auto. exfalso. apply (Ni u j1). exists o1, p1. exact X. }
        * destruct p as [r|g|hit k|hit v p].
          { (* the unlock *)
            destruct (endOf o j r) as [e|] eqn:Ee; [|discriminate]. pose proof (I2 _ _ _ _ Et) as W.
            assert (forall b, ctr b m = tally b (e :: ended tr)) as Ex.
            { intros b. rewrite tally_cons. destruct W as [(Hd & X)|[(hit & Hl & _)|(hit & Hp & X1 & X2)]]; [|inversion Hl|].
              - inversion Hd; subst. destruct o as [k ok d|s]; [discriminate|]. injection Ee as <-. rewrite X. destruct b; reflexivity.
              - inversion Hp; subst. destruct o as [k ok d|s]; [|discriminate]. cbn in Ee. injection Ee as <-.
                destruct o0; cbn [hitOut] in *; cbn [eventOf isHit isLoad isRefused orb]; destruct b; auto. }
            assert (exists y, threads m' = lupd (threads m) t y /\ shared m' = shared m /\ ended (evs ++ tr) = e :: ended tr /\ forall o j p, y <> Inside o j p) as (y & E1 & E2 & E3 & Ny).
            { destruct (nodeOf r); injection Hs as <- <-; eexists; (split; [reflexivity|]); (split; [reflexivity|]); (split; [reflexivity|discriminate]). }
            split.
            - intros _ b. rewrite E3. unfold ctr. rewrite E2. apply Ex.
            - intros u o1 j1 p1 X. rewrite E1 in X. exfalso. destruct (Nat.eq_dec u t) as [->|Ne]; [rewrite (nth_lupd_eq' _ _ _ _ Et) in X; injection X as X; eapply Ny; eauto|].
              rewrite nth_lupd_ne' in X by auto. apply Ne. eapply (one_inside _ _ _ u t j1 j L); [exists o1, p1; exact X|exists o, (Unlock r); exact Et]. }
          { destruct (nth_error (shards (shared m)) j) as [s|]; [|discriminate]. destruct (g s) as [(p, s')|] eqn:Eg; [|discriminate]. injection Hs as <- <-.
            eapply Stay; [reflexivity|reflexivity|]. intros [(Hd & X)|[(hit & Hl & _)|(hit & Hp & X1 & X2)]]; [|inversion Hl|].
            - left. split; [inversion Hd; subst; eauto|exact X].
            - right. right. exists hit. split; [inversion Hp; subst; eauto|split; [exact X1|exact X2]]. }
          { injection Hs as <- <-. eapply Stay; [reflexivity|reflexivity|]. intros [(Hd & X)|[(hit' & Hl & _)|(hit' & Hp & _)]]; [|inversion Hl|inversion Hp].
            right. left. exists hit. inversion Hd as [|h' k' Hk|]; subst. split; [exact (Hk (ctr hit m))|exact X]. }
          { injection Hs as <- <-. eapply Stay; [reflexivity|reflexivity|]. intros [(Hd & X)|[(hit' & Hl & X)|(hit' & Hp & _)]]; [inversion Hd| |inversion Hp].
            right. right. exists hit. inversion Hl as [p' Hp]; subst. split; [exact Hp|]. destruct hit; cbn [negb]; unfold ctr; cbn [shared setT setCounter hits misses app].
            - split; [rewrite <- (X true); reflexivity|exact (X false)].
            - split; [rewrite <- (X false); reflexivity|exact (X true)]. }
        * destruct (nth_error (shards (shared m)) j) as [s|]; [|discriminate]. destruct (Z.ltb 0 (active s i)); [|discriminate]. injection Hs as <- <-. apply (Side Idle); auto; discriminate.
  Qed.
End C.
