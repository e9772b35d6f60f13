From Coq Require Import List Arith ZArith Lia Bool.
Import ListNotations.
From Verif Require Import TreeModel TreeSpec CacheModel CacheShard CacheSpec CacheRun CacheProps LockModel LockSpec LockProofs.

Lemma sum_lupd {A} (f : A -> nat) l t x y : nth_error l t = Some x -> list_sum (map f (lupd l t y)) + f x = list_sum (map f l) + f y.
Proof.
  revert t. induction l as [|z l IH]; intros [|t] H; cbn in *; try discriminate.
  - injection H as ->. lia.
  - specialize (IH _ H). unfold list_sum in *. cbn in *. lia.
Qed.
Lemma sum_ge {A} (f : A -> nat) l t x : nth_error l t = Some x -> f x <= list_sum (map f l).
Proof. revert t. induction l as [|z l IH]; intros [|t] H; cbn in *; try discriminate; [injection H as ->; lia|specialize (IH _ H); unfold list_sum in *; cbn in *; lia]. Qed.
Lemma sum_two {A} (f : A -> nat) l t x u y : t <> u -> nth_error l t = Some x -> nth_error l u = Some y -> f x + f y <= list_sum (map f l).
Proof.
  revert t u. induction l as [|z l IH]; intros [|t] [|u] Ne Hx Hy; cbn in *; try discriminate; try congruence.
  - injection Hx as ->. pose proof (sum_ge f _ _ _ Hy). unfold list_sum in *; cbn in *; lia.
  - injection Hy as ->. pose proof (sum_ge f _ _ _ Hx). unfold list_sum in *; cbn in *; lia.
  - assert (t <> u) by congruence. specialize (IH t u H Hx Hy). unfold list_sum in *; cbn in *; lia.
Qed.
Lemma nth_lupd_eq' {A} (l : list A) i v x : nth_error l i = Some x -> nth_error (lupd l i v) i = Some v.
Proof. intros H. rewrite nth_lupd, Nat.eqb_refl, H. reflexivity. Qed.
Lemma nth_lupd_ne' {A} (l : list A) i v j : j <> i -> nth_error (lupd l i v) j = nth_error l j.
Proof. intros H. rewrite nth_lupd. destruct (Nat.eqb_spec j i); [contradiction|reflexivity]. Qed.

Section R.
  Context {D : Type}.
  Variable hash : Z -> Z.
  Variable fuel : nat.
  Variables (capacity conc : Z) (slots : nat) (c0 : cache D).
  Hypothesis HS : setup capacity conc slots hash fuel c0.

  Definition okHash (o : cop D) : Prop := match o with Get k _ _ => toInt32 (hash k) <> (- 2 ^ 31)%Z | Release _ => True end.
  Definition opOf (x : tstate D) : option (cop D * nat) := match x with Want o j | Inside o j _ => Some (o, j) | _ => None end.

  Record LI (tr : list (levent D)) (m : machine D) (c : cache D) : Prop := {
    l_ex : exec hash fuel c0 (ended tr) c;
    l_own : length (owner m) = length (shards c);
    l_len : length (shards (shared m)) = length (shards c);
    l_sh : forall j s a, nth_error (shards (shared m)) j = Some s -> nth_error (shards c) j = Some a ->
      match nth_error (owner m) j with
      | Some None => s = a
      | Some (Some t) => exists o p r f, nth_error (threads m) t = Some (Inside o j p) /\ shardRun hash fuel o a = Some (r, f) /\ path (mid a f) p s r f
      | None => False
      end;
    l_in : forall t o j p, nth_error (threads m) t = Some (Inside o j p) -> nth_error (owner m) j = Some (Some t);
    l_op : forall t x o j, nth_error (threads m) t = Some x -> opOf x = Some (o, j) -> shardOf hash o c = Some j /\ j < length (shards c) /\ okHash o;
    l_as : forall t j i, nth_error (threads m) t = Some (Assert j i) -> j < length (shards c);
    l_tied : forall s, sum (tied s) (threads m) <= held (ended tr) s;
    l_get : sum getting (threads m) = 0 \/ forall s, (Z.of_nat (held (ended tr) s + sum getting (threads m)) <= 2 ^ 31 - 1)%Z }.

  Lemma pending_used tr m c t x o j : LI tr m c -> nth_error (threads m) t = Some x -> opOf x = Some (o, j) -> wellUsed hash (ended tr) o.
  Proof using.
    intros L Ht Hx. destruct (l_op _ _ _ L _ _ _ _ Ht Hx) as (_ & _ & Ho). destruct o as [k ok d|s]; cbn in *.
    - split; auto. intros s. assert (1 <= sum getting (threads m)) as G.
      { pose proof (sum_ge getting _ _ _ Ht) as G. unfold sum. destruct x as [|[]|[]|]; cbn in Hx, G; try discriminate; lia. }
      destruct (l_get _ _ _ L) as [Z|Z]; [lia|]. specialize (Z s). lia.
    - pose proof (sum_ge (tied s) _ _ _ Ht) as G. pose proof (l_tied _ _ _ L s) as T. unfold sum in T.
      assert (tied s x = 1) as E. { destruct x as [|[]|[]|]; cbn in Hx; try discriminate; injection Hx as -> ->; cbn; now rewrite slot_eqb_refl. } lia.
  Qed.
  Lemma shardOf_len o (c c' : cache D) : length (shards c) = length (shards c') -> shardOf hash o c = shardOf hash o c'.
  Proof using. destruct o as [|(j, i)]; cbn; [intros ->; reflexivity|reflexivity]. Qed.
  (* a pending call can be done at once *)
  Lemma pending_run tr m c t x o j a : LI tr m c -> nth_error (threads m) t = Some x -> opOf x = Some (o, j) -> nth_error (shards c) j = Some a ->
    exists r f e c', shardRun hash fuel o a = Some (r, f) /\ runCop hash fuel o c = Some (e, c') /\ endOf o j r = Some e /\ shards c' = lupd (shards c) j f /\
      goodEvent hash (Z.to_nat conc) slots (ended tr) o e.
  Proof using HS.
    intros L Ht Hx Ha. pose proof (pending_used _ _ _ _ _ _ _ L Ht Hx) as W. destruct (next _ _ _ _ _ _ HS _ _ _ (l_ex _ _ _ L) W) as (e & c' & E & G).
    destruct (l_op _ _ _ L _ _ _ _ Ht Hx) as (Ej & _ & _). destruct (run_shard hash fuel o c j a e c' Ej Ha E) as (r & f & E1 & E2 & E3).
    exists r, f, e, c'. auto.
  Qed.

  Lemma held_cons (e : event D) tr s : held (e :: tr) s =
    match e with Hit _ s' _ | Load _ s' _ _ => if slot_eqb s s' then S (held tr s) else held tr s | Refused _ => held tr s | Rel s' => if slot_eqb s s' then pred (held tr s) else held tr s end.
  Proof using. destruct e; reflexivity. Qed.

  Lemma li_init n : LI [] (machineInit c0 n) c0.
  Proof using.
    assert (forall f : tstate D -> nat, f Idle = 0 -> sum f (repeat Idle n) = 0) as Z by (intros f E; unfold sum; induction n as [|k IH]; cbn in *; [reflexivity|unfold list_sum in *; cbn in *; lia]).
    split; cbn.
    - constructor.
    - apply repeat_length.
    - reflexivity.
    - intros j s a E1 E2. assert (j < length (shards c0)) by (apply nth_error_Some; congruence). rewrite (nth_error_repeat None) by auto. congruence.
    - intros t o j p H. apply nth_error_In, repeat_spec in H. discriminate.
    - intros t x o j H. apply nth_error_In, repeat_spec in H. subst. discriminate.
    - intros t j i H. apply nth_error_In, repeat_spec in H. discriminate.
    - intros s. apply Nat.eq_le_incl. exact (Z (tied s) eq_refl).
    - left. exact (Z getting eq_refl).
  Qed.

  (* a step that changes only the state of t, from x to y with the same call, and its shard *)
  Lemma li_inner tr m c t x o j p s s' r f a hm p' : LI tr m c -> nth_error (threads m) t = Some x -> x = Inside o j p ->
    nth_error (shards (shared m)) j = Some s -> nth_error (shards c) j = Some a -> shardRun hash fuel o a = Some (r, f) -> path (mid a f) p' s' r f ->
    LI tr (mkMachine (mkcache (lupd (shards (shared m)) j s') (fst hm) (snd hm)) (owner m) (lupd (threads m) t (Inside o j p'))) c.
  Proof using.
    intros L Ht -> Es Ea Er Hp. pose proof (l_in _ _ _ L _ _ _ _ Ht) as Ow. split; cbn [shared owner threads shards].
    - apply L.
    - apply L.
    - rewrite length_lupd. apply L.
    - intros j' s1 a1 E1 E2. destruct (Nat.eq_dec j' j) as [->|Nj].
      + rewrite (nth_lupd_eq' _ _ _ _ Es) in E1. injection E1 as <-. rewrite Ea in E2. injection E2 as <-. rewrite Ow.
        exists o, p', r, f. split; [eapply nth_lupd_eq'; eauto|]. split; auto.
      + rewrite nth_lupd_ne' in E1 by auto. pose proof (l_sh _ _ _ L _ _ _ E1 E2) as Hs. destruct (nth_error (owner m) j') as [[u|]|] eqn:Eo; auto.
        destruct Hs as (o1 & p1 & r1 & f1 & A & B & C). exists o1, p1, r1, f1. split; auto.
        destruct (Nat.eq_dec u t) as [->|Nu]; [rewrite Ht in A; injection A as -> -> ->; contradiction|]. now rewrite nth_lupd_ne'.
    - intros u o1 j1 p1 H. destruct (Nat.eq_dec u t) as [->|Nu]; [rewrite (nth_lupd_eq' _ _ _ _ Ht) in H; injection H as <- <- <-; auto|].
      rewrite nth_lupd_ne' in H by auto. exact (l_in _ _ _ L _ _ _ _ H).
    - intros u y o1 j1 H Hy. destruct (Nat.eq_dec u t) as [->|Nu].
      + rewrite (nth_lupd_eq' _ _ _ _ Ht) in H. injection H as <-. injection Hy as <- <-. exact (l_op _ _ _ L _ _ _ _ Ht eq_refl).
      + rewrite nth_lupd_ne' in H by auto. exact (l_op _ _ _ L _ _ _ _ H Hy).
    - intros u j1 i1 H. destruct (Nat.eq_dec u t) as [->|Nu]; [rewrite (nth_lupd_eq' _ _ _ _ Ht) in H; discriminate|]. rewrite nth_lupd_ne' in H by auto. exact (l_as _ _ _ L _ _ _ H).
    - intros s1. pose proof (sum_lupd (tied s1) _ _ _ (Inside o j p') Ht) as E. pose proof (l_tied _ _ _ L s1). unfold sum in *. cbn [tied getting] in E. lia.
    - pose proof (sum_lupd getting _ _ _ (Inside o j p') Ht) as E. pose proof (l_get _ _ _ L) as G. unfold sum in *. cbn [tied getting] in E.
      assert (list_sum (map getting (lupd (threads m) t (Inside o j p'))) = list_sum (map getting (threads m))) as -> by lia. exact G.
  Qed.

  Lemma lupd_same {A} (l : list A) j s : nth_error l j = Some s -> lupd l j s = l.
  Proof using. revert j. induction l as [|z l IH]; intros [|j] H; cbn in *; try discriminate; [congruence|]. f_equal. auto. Qed.

  Lemma li_step tr m c t a m' evs : LI tr m c -> lockUsed hash tr m a -> lstep hash fuel t a m = Some (m', evs) -> exists c', LI (evs ++ tr) m' c'.
  Proof using HS.
    intros L Hu Hs. unfold lstep in Hs. destruct (nth_error (threads m) t) as [x|] eqn:Et; [|discriminate].
    destruct a as [o|].
    - (* a call *)
      destruct x; try discriminate. destruct (shardOf hash o (shared m)) as [j|] eqn:Ej; [|discriminate]. injection Hs as <- <-. exists c.
      rewrite (shardOf_len o (shared m) c (l_len _ _ _ L)) in Ej.
      assert (j < length (shards c) /\ okHash o) as (Lj & Ho).
      { destruct (reach _ _ _ _ _ _ HS _ _ (l_ex _ _ _ L)) as (as_ & HC). destruct o as [k ok d|(j', i)]; cbn in *.
        - split; [|apply Hu]. destruct (shardIndex (Z.of_nat (length (shards c))) (hash k)) as [z|] eqn:Ez; [|discriminate]. injection Ej as <-.
          pose proof (setup_conc _ _ _ _ _ _ HS) as Hc. rewrite (ci_len _ _ _ _ _ _ HC) in Ez |- *. assert (0 < Z.of_nat (Z.to_nat conc))%Z as Hp by lia. pose proof (shardIndex_range _ _ _ Hp Ez). lia.
        - injection Ej as ->. split; auto. destruct (Nat.lt_ge_cases j (length (shards c))) as [|G]; auto. rewrite (ci_len _ _ _ _ _ _ HC) in G.
          destruct (ci_out _ _ _ _ _ _ HC j i G) as (Z & _). lia. }
      split; cbn [app shared setT owner threads ended].
      + apply L.
      + apply L.
      + apply L.
      + intros j' s1 a1 E1 E2. pose proof (l_sh _ _ _ L _ _ _ E1 E2) as Hs. destruct (nth_error (owner m) j') as [[u|]|] eqn:Eo; auto.
        destruct Hs as (o1 & p1 & r1 & f1 & A & B & C). exists o1, p1, r1, f1. split; auto.
        destruct (Nat.eq_dec u t) as [->|Nu]; [congruence|]. now rewrite nth_lupd_ne'.
      + intros u o1 j1 p1 H. destruct (Nat.eq_dec u t) as [->|Nu]; [rewrite (nth_lupd_eq' _ _ _ _ Et) in H; discriminate|]. rewrite nth_lupd_ne' in H by auto. exact (l_in _ _ _ L _ _ _ _ H).
      + intros u y o1 j1 H Hy. destruct (Nat.eq_dec u t) as [->|Nu].
        * rewrite (nth_lupd_eq' _ _ _ _ Et) in H. injection H as <-. injection Hy as <- <-. auto.
        * rewrite nth_lupd_ne' in H by auto. exact (l_op _ _ _ L _ _ _ _ H Hy).
      + intros u j1 i1 H. destruct (Nat.eq_dec u t) as [->|Nu]; [rewrite (nth_lupd_eq' _ _ _ _ Et) in H; discriminate|]. rewrite nth_lupd_ne' in H by auto. exact (l_as _ _ _ L _ _ _ H).
      + intros s1. pose proof (sum_lupd (tied s1) _ _ _ (Want o j) Et) as E. pose proof (l_tied _ _ _ L s1) as T. unfold sum in *. cbn [tied getting] in E.
        destruct o as [k ok d|s0]; [lia|]. cbn [lockUsed] in Hu. unfold sum in Hu. destruct (slot_eqb_spec s1 s0) as [Eq|]; [subst s0|]; lia.
      + pose proof (sum_lupd getting _ _ _ (Want o j) Et) as E. pose proof (l_get _ _ _ L) as G. unfold sum in *. cbn [tied getting] in E.
        destruct o as [k ok d|s0]; cbn [lockUsed] in Hu.
        * right. intros s1. destruct Hu as (_ & Hu). specialize (Hu s1). unfold sum in Hu. lia.
        * assert (list_sum (map getting (lupd (threads m) t (Want (Release s0) j))) = list_sum (map getting (threads m))) as -> by lia. exact G.
    - destruct x as [|o j|o j p|j i]; try discriminate.
      + (* the lock *)
        destruct (nth_error (owner m) j) as [[u|]|] eqn:Eo; try discriminate. injection Hs as <- <-. exists c.
        destruct (l_op _ _ _ L _ _ _ _ Et eq_refl) as (Ej & Lj & Ho).
        destruct (nth_error (shards c) j) as [a|] eqn:Ea; [|apply nth_error_None in Ea; lia].
        destruct (pending_run _ _ _ _ _ _ _ _ L Et eq_refl Ea) as (r & f & e & c' & E1 & _). pose proof (call_path hash fuel _ _ _ _ E1) as Hp.
        split; cbn [app shared setT setOwner owner threads ended].
        * apply L.
        * rewrite length_lupd. apply L.
        * apply L.
        * intros j' s1 a1 Es1 Ea1. pose proof (l_sh _ _ _ L _ _ _ Es1 Ea1) as Hs. destruct (Nat.eq_dec j' j) as [->|Nj].
          { rewrite (nth_lupd_eq' _ _ _ _ Eo). rewrite Eo in Hs. subst s1. rewrite Ea in Ea1. injection Ea1 as <-. exists o, (callProg hash fuel o), r, f. split; [eapply nth_lupd_eq'; eauto|auto]. }
          { rewrite nth_lupd_ne' by auto. destruct (nth_error (owner m) j') as [[u|]|] eqn:Eo'; auto. destruct Hs as (o1 & p1 & r1 & f1 & A & B & C). exists o1, p1, r1, f1. split; auto.
            destruct (Nat.eq_dec u t) as [->|Nu]; [congruence|]. now rewrite nth_lupd_ne'. }
        * intros u o1 j1 p1 H. destruct (Nat.eq_dec u t) as [->|Nu].
          { rewrite (nth_lupd_eq' _ _ _ _ Et) in H. injection H as <- <- <-. eapply nth_lupd_eq'; eauto. }
          { rewrite nth_lupd_ne' in H by auto. pose proof (l_in _ _ _ L _ _ _ _ H) as X. destruct (Nat.eq_dec j1 j) as [->|]; [congruence|]. now rewrite nth_lupd_ne'. }
        * intros u y o1 j1 H Hy. destruct (Nat.eq_dec u t) as [->|Nu].
          { rewrite (nth_lupd_eq' _ _ _ _ Et) in H. injection H as <-. injection Hy as <- <-. auto. }
          { rewrite nth_lupd_ne' in H by auto. exact (l_op _ _ _ L _ _ _ _ H Hy). }
        * intros u j1 i1 H. destruct (Nat.eq_dec u t) as [->|Nu]; [rewrite (nth_lupd_eq' _ _ _ _ Et) in H; discriminate|]. rewrite nth_lupd_ne' in H by auto. exact (l_as _ _ _ L _ _ _ H).
        * intros s1. pose proof (sum_lupd (tied s1) _ _ _ (Inside o j (callProg hash fuel o)) Et) as E. pose proof (l_tied _ _ _ L s1). unfold sum in *. cbn [tied getting] in E. lia.
        * pose proof (sum_lupd getting _ _ _ (Inside o j (callProg hash fuel o)) Et) as E. pose proof (l_get _ _ _ L) as G. unfold sum in *. cbn [tied getting] in E.
          assert (list_sum (map getting (lupd (threads m) t (Inside o j (callProg hash fuel o)))) = list_sum (map getting (threads m))) as -> by lia. exact G.
      + (* with the lock *)
        destruct (l_op _ _ _ L _ _ _ _ Et eq_refl) as (Ej & Lj & Ho). pose proof (l_in _ _ _ L _ _ _ _ Et) as Ow.
        destruct (nth_error (shards c) j) as [a|] eqn:Ea; [|apply nth_error_None in Ea; lia].
        destruct (nth_error (shards (shared m)) j) as [s|] eqn:Es; [|apply nth_error_None in Es; rewrite (l_len _ _ _ L) in Es; lia].
        pose proof (l_sh _ _ _ L _ _ _ Es Ea) as Hsh. rewrite Ow in Hsh. destruct Hsh as (o1 & p1 & r & f & A & B & C). rewrite Et in A. injection A as <- <-.
        destruct p as [r0|g|hit k|hit v p]; inversion C; subst.
        * (* the unlock *)
          destruct (pending_run _ _ _ _ _ _ _ _ L Et eq_refl Ea) as (r1 & f1 & e & c' & E1 & E2 & E3 & E4 & G). rewrite B in E1. injection E1 as <- <-.
          rewrite E3 in Hs. exists c'. pose proof (pending_used _ _ _ _ _ _ _ L Et eq_refl) as W.
          assert (exec hash fuel c0 (e :: ended tr) c') as Ex by (econstructor; [apply L|exact W|exact E2]).
          assert (exists y l, m' = setT t y (setOwner j None m) /\ evs = l /\ ended (evs ++ tr) = e :: ended tr /\ opOf y = None /\
            (y = Idle /\ nodeOf r = None \/ exists i, y = Assert j i /\ nodeOf r = Some i)) as (y & l & Em & El & Ee & Oy & Hy).
          { destruct (nodeOf r) as [i|] eqn:En; injection Hs as <- <-; eexists _, _; (split; [reflexivity|]); (split; [reflexivity|]); cbn; eauto 8. }
          clear Hs El l. subst m'. split; cbn [shared setT setOwner owner threads]; rewrite ?Ee.
          { exact Ex. }
          { rewrite E4, !length_lupd. apply L. }
          { rewrite E4, length_lupd. apply L. }
          { intros j' s1 a1 Es1 Ea1. rewrite E4 in Ea1. destruct (Nat.eq_dec j' j) as [->|Nj].
            - rewrite (nth_lupd_eq' _ _ _ _ Ow). rewrite (nth_lupd_eq' _ _ _ _ Ea) in Ea1. congruence.
            - rewrite nth_lupd_ne' in Ea1 by auto. rewrite nth_lupd_ne' by auto. pose proof (l_sh _ _ _ L _ _ _ Es1 Ea1) as Hsh.
              destruct (nth_error (owner m) j') as [[u|]|] eqn:Eo'; auto. destruct Hsh as (o1 & p1 & r1 & f1 & A & B' & C'). exists o1, p1, r1, f1. split; auto.
              destruct (Nat.eq_dec u t) as [->|Nu]; [rewrite Et in A; injection A as _ A _; congruence|]. now rewrite nth_lupd_ne'. }
          { intros u o1 j1 p1 H. destruct (Nat.eq_dec u t) as [->|Nu].
            - rewrite (nth_lupd_eq' _ _ _ _ Et) in H. injection H as ->. discriminate.
            - rewrite nth_lupd_ne' in H by auto. pose proof (l_in _ _ _ L _ _ _ _ H) as X. destruct (Nat.eq_dec j1 j) as [->|]; [congruence|]. now rewrite nth_lupd_ne'. }
          { intros u y1 o1 j1 H Hy1. rewrite E4, length_lupd. destruct (Nat.eq_dec u t) as [->|Nu].
            - rewrite (nth_lupd_eq' _ _ _ _ Et) in H. injection H as <-. congruence.
            - rewrite nth_lupd_ne' in H by auto. destruct (l_op _ _ _ L _ _ _ _ H Hy1) as (X1 & X2 & X3). split; auto. rewrite <- X1. apply shardOf_len. rewrite E4. apply length_lupd. }
          { intros u j1 i1 H. rewrite E4, length_lupd. destruct (Nat.eq_dec u t) as [->|Nu].
            - rewrite (nth_lupd_eq' _ _ _ _ Et) in H. injection H as ->. destruct Hy as [(X & _)|(i & X & _)]; [discriminate|]. injection X as -> ->. exact Lj.
            - rewrite nth_lupd_ne' in H by auto. exact (l_as _ _ _ L _ _ _ H). }
          { intros s1. pose proof (sum_lupd (tied s1) _ _ _ y Et) as E. pose proof (l_tied _ _ _ L s1) as T. unfold sum in *. cbn [tied] in E. rewrite held_cons.
            destruct o as [k ok d|s0].
            - destruct r as [x|]; [|discriminate]. cbn in E3. injection E3 as <-.
              destruct Hy as [(-> & Hn)|(i & -> & Hn)]; destruct x; cbn in Hn; try discriminate; try (injection Hn as ->); cbn [eventOf tied] in *; try (destruct (slot_eqb s1 _)); lia.
            - destruct r as [x|]; [discriminate|]. injection E3 as <-. destruct Hy as [(-> & _)|(i & _ & X)]; [|discriminate]. cbn [tied] in E. destruct (slot_eqb s1 s0); lia. }
          { pose proof (sum_lupd getting _ _ _ y Et) as E. pose proof (l_get _ _ _ L) as Gt. unfold sum in *. cbn [getting] in E.
            assert (getting y = 0) as Gy by (destruct Hy as [(-> & _)|(i & -> & _)]; reflexivity). rewrite Gy in E.
            destruct o as [k ok d|s0].
            - right. intros s1. destruct Gt as [Z|Z]; [lia|]. specialize (Z s1). rewrite held_cons. destruct r as [x|]; [|discriminate]. cbn in E3. injection E3 as <-.
              destruct x; cbn [eventOf]; try (destruct (slot_eqb s1 _)); lia.
            - destruct Gt as [Z|Z]; [left; lia|]. right. intros s1. specialize (Z s1). rewrite held_cons. destruct r as [x|]; [discriminate|]. injection E3 as <-. destruct (slot_eqb s1 s0); lia. }
        * (* a use of the shard *)
          match goal with H : g s = Some _ |- _ => rewrite H in Hs end. injection Hs as <- <-. exists c.
          eapply (li_inner tr m c t _ o j _ s _ r f a (hits (shared m), misses (shared m))); eauto.
        * injection Hs as <- <-. exists c. pose proof (li_inner tr m c t _ o j _ s s r f a (hits (shared m), misses (shared m)) (k (if hit then hits (shared m) else misses (shared m))) L Et eq_refl Es Ea B) as X.
          cbn [fst snd] in X. rewrite (lupd_same _ _ _ Es) in X. destruct m as [[sh h1 h2] ow th]. apply X. auto.
        * injection Hs as <- <-. exists c. pose proof (li_inner tr m c t _ o j _ s s r f a (if hit then v else hits (shared m), if hit then misses (shared m) else v) p L Et eq_refl Es Ea B) as X.
          cbn [fst snd] in X. rewrite (lupd_same _ _ _ Es) in X. apply X. auto.
      + (* the assert *)
        destruct (nth_error (shards (shared m)) j) as [s|] eqn:Es; [|discriminate]. destruct (Z.ltb 0 (active s i)); [|discriminate]. injection Hs as <- <-. exists c.
        split; cbn [app shared setT setOwner owner threads ended].
        * apply L.
        * apply L.
        * apply L.
        * intros j' s1 a1 E1 E2. pose proof (l_sh _ _ _ L _ _ _ E1 E2) as Hs. destruct (nth_error (owner m) j') as [[u|]|] eqn:Eo; auto.
          destruct Hs as (o1 & p1 & r1 & f1 & A & B & C). exists o1, p1, r1, f1. split; auto.
          destruct (Nat.eq_dec u t) as [->|Nu]; [congruence|]. now rewrite nth_lupd_ne'.
        * intros u o1 j1 p1 H. destruct (Nat.eq_dec u t) as [->|Nu]; [rewrite (nth_lupd_eq' _ _ _ _ Et) in H; discriminate|]. rewrite nth_lupd_ne' in H by auto. exact (l_in _ _ _ L _ _ _ _ H).
        * intros u y o1 j1 H Hy. destruct (Nat.eq_dec u t) as [->|Nu].
          { rewrite (nth_lupd_eq' _ _ _ _ Et) in H. injection H as <-. discriminate. }
          { rewrite nth_lupd_ne' in H by auto. exact (l_op _ _ _ L _ _ _ _ H Hy). }
        * intros u j1 i1 H. destruct (Nat.eq_dec u t) as [->|Nu]; [rewrite (nth_lupd_eq' _ _ _ _ Et) in H; discriminate|]. rewrite nth_lupd_ne' in H by auto. exact (l_as _ _ _ L _ _ _ H).
        * intros s1. pose proof (sum_lupd (tied s1) _ _ _ Idle Et) as E. pose proof (l_tied _ _ _ L s1). unfold sum in *. cbn [tied getting] in E. lia.
        * pose proof (sum_lupd getting _ _ _ Idle Et) as E. pose proof (l_get _ _ _ L) as G. unfold sum in *. cbn [tied getting] in E.
          assert (list_sum (map getting (lupd (threads m) t Idle)) = list_sum (map getting (threads m))) as -> by lia. exact G.
  Qed.
  Lemma lexec_LI n tr m : lexec hash fuel c0 n tr m -> exists c, LI tr m c.
  Proof using HS.
    induction 1 as [|tr m t a m' evs He (c & L) Hu Hs]; [exists c0; apply li_init|]. eapply li_step; eauto.
  Qed.
End R.
