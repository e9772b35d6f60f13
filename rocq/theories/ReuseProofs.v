From Verif Require Import CacheModel CacheRun PoolProofs ResourceModel ResourceSpec ResourceProofs ResourceRun ResourceSeq ReuseModel ReuseSpec.

(* ---- renaming of blocks ---- *)
Definition renC (f : nat -> nat) (c : counter) : counter := (fst c, option_map f (snd c)).
Definition renF (f : nat -> nat) (k : incFor) : incFor := match k with ForUser => ForUser | ForReplace nh fin => ForReplace (f nh) fin end.
Definition renT (f : nat -> nat) (x : tstate) : tstate :=
  match x with
  | Idle => Idle
  | Crashed => Crashed
  | RepStart fin => RepStart fin
  | RepRead fin a => RepRead fin (f a)
  | Inc k => Inc (renF f k)
  | IncRead k a => IncRead (renF f k) (f a)
  | IncAgain k c => IncAgain (renF f k) (renC f c)
  | IncCas k c a => IncCas (renF f k) (renC f c) (f a)
  | RepCas nh fin old => RepCas (f nh) fin (f old)
  | Dec h k => Dec (f h) (option_map f k)
  | DecCas h k c => DecCas (f h) (option_map f k) (renC f c)
  | DecZero h k => DecZero (f h) (option_map f k)
  | DecEmpty h k => DecEmpty (f h) (option_map f k)
  | DecFree h k => DecFree (f h) (option_map f k)
  | FreeNew nh => FreeNew (f nh)
  end.
Definition renA (f : nat -> nat) (a : action) : action := match a with CallRelease h => CallRelease (f h) | a => a end.
Definition renE (f : nat -> nat) (e : event) : event :=
  match e with
  | Got t h => Got t (f h)
  | RelBegin t h => RelBegin t (f h)
  | Created h => Created (f h)
  | Activated h => Activated (f h)
  | Lost h => Lost (f h)
  | Freed h => Freed (f h)
  | HandleFreed h => HandleFreed (f h)
  | e => e
  end.
Lemma view_note m evs : view (note m evs) = map (renE (resOf m)) evs.
Proof. unfold view, note. rewrite map_map. apply map_ext. intros []; reflexivity. Qed.

Definition at_ (rs : list nat) (h : nat) : nat := nth h rs 0.

Record Sim (rs : list nat) (mk : nat) (c n : manager) : Prop := {
  s_len : length rs = length (hs c);
  s_made : length (hs n) = mk;
  s_h : forall h hd, nth_error (hs c) h = Some hd -> nth_error (hs n) (at_ rs h) = Some hd;
  s_inj : forall h k, h < length (hs c) -> k < length (hs c) -> at_ rs h = at_ rs k -> h = k;
  s_in : active c < length (hs c);
  s_act : active n = at_ rs (active c);
  s_touch : touched n = touched c;
  s_thr : thr n = map (renT (at_ rs)) (thr c);
  s_ref : forall t x h, nth_error (thr c) t = Some x -> refersTo x h -> h < length (hs c) }.

Lemma map_lupd {A B} (f : A -> B) : forall l i x, map f (lupd l i x) = lupd (map f l) i (f x).
Proof. induction l as [|y l IH]; intros [|i] x; cbn; congruence. Qed.

Section S.
  Context (rs : list nat) (mk : nat).
  Let f := at_ rs.
  Lemma sim_setT c n t y : Sim rs mk c n -> (forall h, refersTo y h -> h < length (hs c)) -> Sim rs mk (setT t y c) (setT t (renT f y) n).
  Proof.
    intros [] H. split; cbn [setT hs active touched thr]; auto.
    - unfold f. rewrite map_lupd, s_thr0. reflexivity.
    - intros t' x h Hx. rewrite nth_lupd in Hx. destruct (Nat.eqb t' t); [destruct (nth_error (thr c) t) eqn:E1; [injection Hx as <-; auto|discriminate]|eauto].
  Qed.
  Lemma sim_touch c n hd : Sim rs mk c n -> Sim rs mk (touch hd c) (touch hd n).
  Proof. intros []. split; cbn [touch hs active touched thr]; auto. now rewrite s_touch0. Qed.
  Lemma sim_setH c n h hd hd' : Sim rs mk c n -> nth_error (hs c) h = Some hd -> Sim rs mk (setH h hd' c) (setH (f h) hd' n).
  Proof.
    intros [] H. assert (h < length (hs c)) as Lh by (apply nth_error_Some; congruence). split; cbn [setH hs active touched thr]; rewrite ?length_lupd; auto.
    intros k hk Hk. rewrite nth_lupd in Hk. destruct (Nat.eqb_spec k h) as [->|Ne].
    - rewrite H in Hk. injection Hk as <-. rewrite nth_lupd_eq; auto. apply nth_error_Some. unfold f. erewrite s_h0 by eauto. discriminate.
    - rewrite nth_lupd_ne; auto. unfold f. intros E. apply Ne. apply s_inj0; auto. apply nth_error_Some. congruence.
  Qed.
  Lemma sim_setActive c n a : Sim rs mk c n -> a < length (hs c) -> Sim rs mk (setActive a c) (setActive (f a) n).
  Proof. intros [] H. split; cbn [setActive hs active touched thr]; auto. Qed.
  Lemma sim_eqb c n a b : Sim rs mk c n -> a < length (hs c) -> b < length (hs c) -> Nat.eqb (f a) (f b) = Nat.eqb a b.
  Proof.
    intros [] Ha Hb. destruct (Nat.eqb_spec a b) as [->|Ne]; [apply Nat.eqb_refl|]. apply Nat.eqb_neq. intros E. apply Ne. apply s_inj0; auto.
  Qed.
  Lemma sim_counter h hd : counterOf (f h) hd = renC f (counterOf h hd).
  Proof. unfold counterOf, renC. cbn. destruct (self hd); reflexivity. Qed.
  Lemma sim_ceqb c n a b : Sim rs mk c n -> (forall h, inCounter a h -> h < length (hs c)) -> (forall h, inCounter b h -> h < length (hs c)) ->
    counter_eqb (renC f a) (renC f b) = counter_eqb a b.
  Proof.
    intros S Ha Hb. destruct a as [x [i|]], b as [y [j|]]; unfold counter_eqb; cbn [renC fst snd option_map]; auto. rewrite (sim_eqb c n); auto; [apply Ha|apply Hb]; reflexivity.
  Qed.
  Lemma afterDec_ren c n t k : Sim rs mk c n -> (forall nh, k = Some nh -> nh < length (hs c)) ->
    exists n', afterDec t (option_map f k) n = (n', map (renE f) (snd (afterDec t k c))) /\ Sim rs mk (fst (afterDec t k c)) n'.
  Proof.
    intros S Hk. destruct k as [nh|]; cbn [afterDec option_map fst snd].
    - eexists. split; [reflexivity|]. apply (sim_setT c n t (FreeNew nh)); [exact S|]. cbn. intros h ->. auto.
    - eexists. split; [reflexivity|]. apply (sim_setT c n t Idle); [exact S|]. cbn. tauto.
  Qed.

  Lemma sim_step c n t a c' evs : Sim rs mk c n -> (forall h, a = CallRelease h -> h < length (hs c)) ->
    (a = Continue -> forall fin b, nth_error (thr c) t <> Some (RepRead fin b)) ->
    rstep t a c = Some (c', evs) -> exists n', rstep t (renA f a) n = Some (n', map (renE f) evs) /\ Sim rs mk c' n'.
  Proof.
    intros S Hr Hn Hs. pose proof (s_ref _ _ _ _ S t) as Rf. unfold rstep in *. rewrite (s_thr _ _ _ _ S), nth_error_map. fold f.
    destruct (nth_error (thr c) t) as [x|] eqn:Et; [|discriminate]. cbn [option_map].
    assert (forall h, refersTo x h -> h < length (hs c)) as R by (intros h; apply Rf; reflexivity). clear Rf.
    assert (forall h hd, nth_error (hs c) h = Some hd -> nth_error (hs n) (f h) = Some hd) as Hh by apply (s_h _ _ _ _ S).
    assert (forall h hd, nth_error (hs c) h = Some hd -> forall k, inCounter (counterOf h hd) k -> k < length (hs c)) as Hc.
    { intros h hd E k. unfold inCounter, counterOf. cbn. destruct (self hd); [|discriminate]. intros X. injection X as <-. apply nth_error_Some. congruence. }
    pose proof (s_in _ _ _ _ S) as Ha. pose proof (s_act _ _ _ _ S) as Ea. fold f in Ea.
    destruct x as [| |fin|fin b|k|k b|k ct|k ct b|nh fin old|h k|h k ct|h k|h k|h k|nh]; cbn [renT]; destruct a; try discriminate; cbn [renA] in *.
    - injection Hs as <- <-. eexists. split; [reflexivity|]. apply (sim_setT c n t (Inc ForUser)); auto.
    - injection Hs as <- <-. eexists. split; [reflexivity|]. apply (sim_setT c n t (Dec h None)); [exact S|]. cbn. intros k [->|X]; [auto|discriminate].
    - injection Hs as <- <-. eexists. split; [reflexivity|]. apply (sim_setT c n t (RepStart false)); [exact S|]. cbn. tauto.
    - injection Hs as <- <-. eexists. split; [reflexivity|]. apply (sim_setT c n t (RepStart true)); [exact S|]. cbn. tauto.
    - injection Hs as <- <-. eexists. split; [reflexivity|]. rewrite Ea. apply (sim_setT c n t (RepRead fin (active c))); [exact S|]. cbn. intros h ->. auto.
    - exfalso. exact (Hn eq_refl _ _ eq_refl).
    - injection Hs as <- <-. eexists. split; [reflexivity|]. rewrite Ea. apply (sim_setT c n t (IncRead k (active c))); [exact S|]. cbn in *. intros h [X| ->]; auto.
    - destruct (nth_error (hs c) b) as [hd|] eqn:Eb; [|discriminate]. injection Hs as <- <-. rewrite (Hh _ _ Eb). eexists. split; [reflexivity|]. rewrite sim_counter.
      apply (sim_setT (touch hd c) (touch hd n) t (IncAgain k (counterOf b hd))); [apply sim_touch; auto|]. cbn in *. intros h [X|X]; eauto.
    - injection Hs as <- <-. eexists. split; [reflexivity|]. rewrite Ea. apply (sim_setT c n t (IncCas k ct (active c))); [exact S|]. cbn in *. intros h [X|[X| ->]]; auto.
    - destruct (nth_error (hs c) b) as [hd|] eqn:Eb; [|discriminate]. rewrite (Hh _ _ Eb), sim_counter, (sim_ceqb c n); eauto; [|intros h X; apply R; cbn; auto].
      destruct (counter_eqb (counterOf b hd) ct) eqn:Ec.
      + assert (nth_error (hs (touch hd c)) b = Some hd) as Eb' by exact Eb.
        pose proof (sim_setH _ _ b hd (mkH (inUse hd + 1) (self hd) (alive hd)) (sim_touch c n hd S) Eb') as S'.
        assert (length (hs (setH b (mkH (inUse hd + 1) (self hd) (alive hd)) (touch hd c))) = length (hs c)) as El by (cbn; now rewrite length_lupd).
        destruct ct as [z [h|]]; destruct k as [|nh fin]; cbn [renC renF fst snd option_map] in *; injection Hs as <- <-; (eexists; split; [reflexivity|]).
        * apply (sim_setT _ _ t Idle S'). cbn. tauto.
        * apply (sim_setT _ _ t (RepCas nh fin h) S'). rewrite El. cbn in *. intros j [->| ->]; apply R; auto. right. left. reflexivity.
        * apply (sim_setT _ _ t Idle S'). cbn. tauto.
        * apply (sim_setT _ _ t Crashed S'). cbn. tauto.
      + injection Hs as <- <-. eexists. split; [reflexivity|]. apply (sim_setT _ _ t (Inc k) (sim_touch c n hd S)). cbn in *. intros h X. apply R. auto.
    - rewrite Ea, (sim_eqb c n); auto; [|apply R; cbn; auto].
      assert (forall h, refersTo (Dec old (if fin then Some nh else None)) h -> h < length (hs c)) as R'.
      { cbn in *. intros h [->|X]; [apply R; auto|]. destruct fin; [injection X as <-; apply R; auto|discriminate]. }
      replace (if fin then Some (f nh) else None) with (option_map f (if fin then Some nh else None)) by (destruct fin; reflexivity).
      destruct (Nat.eqb (active c) old); injection Hs as <- <-; (eexists; split; [reflexivity|]).
      + apply (sim_setT _ _ t (Dec old _) (sim_setActive c n nh S ltac:(apply R; cbn; auto))). exact R'.
      + apply (sim_setT _ _ t (Dec old _) S). exact R'.
    - destruct (nth_error (hs c) h) as [hd|] eqn:Eb; [|discriminate]. injection Hs as <- <-. rewrite (Hh _ _ Eb). eexists. split; [reflexivity|]. rewrite sim_counter.
      apply (sim_setT _ _ t (DecCas h k (counterOf h hd)) (sim_touch c n hd S)). cbn in *. intros j [X|[X|X]]; eauto.
    - destruct (nth_error (hs c) h) as [hd|] eqn:Eb; [|discriminate]. rewrite (Hh _ _ Eb), sim_counter, (sim_ceqb c n); eauto; [|intros j X; apply R; cbn; auto].
      destruct (counter_eqb (counterOf h hd) ct) eqn:Ec.
      + assert (nth_error (hs (touch hd c)) h = Some hd) as Eb' by exact Eb.
        pose proof (sim_setH _ _ h hd (mkH (inUse hd - 1) (self hd) (alive hd)) (sim_touch c n hd S) Eb') as S'.
        assert (length (hs (setH h (mkH (inUse hd - 1) (self hd) (alive hd)) (touch hd c))) = length (hs c)) as El by (cbn; now rewrite length_lupd).
        destruct (Z.eqb (inUse hd - 1) 0).
        * injection Hs as <- <-. eexists. split; [reflexivity|]. apply (sim_setT _ _ t (DecZero h k) S'). rewrite El. cbn in *. intros j [X|X]; apply R; auto.
        * destruct (afterDec_ren _ _ t k S') as (n' & E1 & E2). { rewrite El. intros nh ->. apply R. cbn. auto. }
          rewrite E1. destruct (afterDec t k _) as (c1, e1). injection Hs as <- <-. eexists. split; [reflexivity|exact E2].
      + injection Hs as <- <-. eexists. split; [reflexivity|]. apply (sim_setT _ _ t (Dec h k) (sim_touch c n hd S)). cbn in *. intros j [X|X]; apply R; auto.
    - destruct (nth_error (hs c) h) as [hd|] eqn:Eb; [|discriminate]. rewrite (Hh _ _ Eb). cbv zeta in *.
      change (active (touch hd n)) with (active n). change (active (touch hd c)) with (active c) in Hs. rewrite Ea, (sim_eqb c n); auto; [|apply R; cbn; auto].
      destruct (Nat.eqb (active c) h).
      + destruct (afterDec_ren _ _ t k (sim_touch c n hd S)) as (n' & E1 & E2). { cbn. intros nh ->. apply R. cbn. auto. }
        rewrite E1. destruct (afterDec t k _) as (c1, e1). injection Hs as <- <-. eexists. split; [reflexivity|exact E2].
      + injection Hs as <- <-. eexists. split; [reflexivity|]. apply (sim_setT _ _ t (DecEmpty h k) (sim_touch c n hd S)). cbn in *. intros j [X|X]; apply R; auto.
    - destruct (nth_error (hs c) h) as [hd|] eqn:Eb; [|discriminate]. rewrite (Hh _ _ Eb). cbv zeta in *.
      change (0%Z, Some (f h)) with (renC f (0%Z, Some h)). rewrite sim_counter, (sim_ceqb c n); eauto; [|intros j X; injection X as <-; apply R; cbn; auto].
      assert (nth_error (hs (touch hd c)) h = Some hd) as Eb' by exact Eb.
      destruct (counter_eqb (counterOf h hd) (0%Z, Some h)).
      + injection Hs as <- <-. eexists. split; [reflexivity|].
        apply (sim_setT _ _ t (DecFree h k) (sim_setH _ _ h hd (mkH 0 false (alive hd)) (sim_touch c n hd S) Eb')). cbn [setH touch hs]. rewrite length_lupd. cbn in *. intros j [X|X]; apply R; auto.
      + destruct (afterDec_ren _ _ t k (sim_touch c n hd S)) as (n' & E1 & E2). { cbn. intros nh ->. apply R. cbn. auto. }
        rewrite E1. destruct (afterDec t k _) as (c1, e1). injection Hs as <- <-. eexists. split; [reflexivity|exact E2].
    - destruct (nth_error (hs c) h) as [hd|] eqn:Eb; [|discriminate]. rewrite (Hh _ _ Eb). cbv zeta in *.
      assert (nth_error (hs (touch hd c)) h = Some hd) as Eb' by exact Eb.
      pose proof (sim_setH _ _ h hd (mkH (inUse hd) (self hd) false) (sim_touch c n hd S) Eb') as S'.
      destruct (afterDec_ren _ _ t k S') as (n' & E1 & E2). { cbn [setH touch hs]. rewrite length_lupd. intros nh ->. apply R. cbn. auto. }
      rewrite E1. destruct (afterDec t k _) as (c1, e1). injection Hs as <- <-. eexists. split; [rewrite map_app; reflexivity|exact E2].
    - destruct (nth_error (hs c) nh) as [hd|] eqn:Eb; [|discriminate]. rewrite (Hh _ _ Eb). injection Hs as <- <-.
      assert (nth_error (hs (touch hd c)) nh = Some hd) as Eb' by exact Eb.
      eexists. split; [reflexivity|]. apply (sim_setT _ _ t Idle (sim_setH _ _ nh hd (mkH (inUse hd) (self hd) false) (sim_touch c n hd S) Eb')). cbn. tauto.
  Qed.
End S.

(* ---- a new handle in a free block nobody refers to ---- *)
Lemma put_length {A} (l : list A) p x : p <= length l -> length (put l p x) = Nat.max (length l) (S p).
Proof. intros H. unfold put. destruct (Nat.ltb_spec p (length l)); [rewrite length_lupd; lia|rewrite app_length; cbn; lia]. Qed.
Lemma put_same {A} (l : list A) p x : p <= length l -> nth_error (put l p x) p = Some x.
Proof.
  intros H. unfold put. destruct (Nat.ltb_spec p (length l)); [apply nth_lupd_eq; auto|]. rewrite nth_error_app2 by lia. replace (p - length l) with 0 by lia. reflexivity.
Qed.
Lemma put_other {A} (l : list A) p x k : p <= length l -> k <> p -> nth_error (put l p x) k = nth_error l k.
Proof.
  intros H Ne. unfold put. destruct (Nat.ltb_spec p (length l)); [apply nth_lupd_ne; auto|]. destruct (Nat.lt_ge_cases k (length l)); [apply nth_error_app1; auto|].
  assert (nth_error l k = None) as -> by (apply nth_error_None; lia). apply nth_error_None. rewrite app_length. cbn. lia.
Qed.
Lemma at_put rs p x k : p <= length rs -> at_ (put rs p x) k = if Nat.eqb k p then x else at_ rs k.
Proof.
  intros H. unfold at_. destruct (Nat.eqb_spec k p) as [->|Ne].
  - apply nth_error_nth. apply put_same. auto.
  - destruct (nth_error rs k) as [y|] eqn:E.
    + rewrite (nth_error_nth _ _ _ E). apply nth_error_nth. rewrite put_other; auto.
    + rewrite !nth_overflow; auto; apply nth_error_None; auto. rewrite put_other; auto.
Qed.
Lemma renT_ext f g x : (forall h, refersTo x h -> f h = g h) -> renT f x = renT g x.
Proof.
  destruct x as [| |fin|fin b|[|nh fin]|[|nh fin] b|[|nh fin] [z [ct|]]|[|nh fin] [z [ct|]] b|nh fin old|h [k|]|h [k|] [z [ct|]]|h [k|]|h [k|]|h [k|]|nh];
  cbn; unfold renC, inCounter; cbn; intros H; repeat match goal with |- context [f ?h] => rewrite (H h) by auto 6 end; reflexivity.
Qed.
Lemma sim_alloc rs mk c n t fin b hd p : Sim rs mk c n -> nth_error (thr c) t = Some (RepRead fin b) -> nth_error (hs c) b = Some hd ->
  p <= length (hs c) -> p <> active c -> (forall t' x, nth_error (thr c) t' = Some x -> ~ refersTo x p) ->
  exists n', rstep t Continue n = Some (n', [Created mk]) /\
   Sim (put rs p mk) (S mk) (setT t (Inc (ForReplace p fin)) (touch hd (mkM (put (hs c) p (mkH 0 true true)) (active c) (touched c) (thr c)))) n'.
Proof.
  intros S Et Eb Lp Na Nr. pose proof (s_len _ _ _ _ S) as El. pose proof (s_made _ _ _ _ S) as Em.
  unfold rstep. rewrite (s_thr _ _ _ _ S), nth_error_map, Et. cbn [option_map renT]. rewrite (s_h _ _ _ _ S _ _ Eb), Em. eexists. split; [reflexivity|].
  assert (forall k, k < length (hs c) -> at_ rs k < mk) as Lt.
  { intros k Hk. rewrite <- Em. apply nth_error_Some. destruct (nth_error (hs c) k) as [x|] eqn:E; [|apply nth_error_None in E; lia]. rewrite (s_h _ _ _ _ S _ _ E). discriminate. }
  assert (p <= length rs) as Lp' by lia.
  assert (forall k, at_ (put rs p mk) k = if Nat.eqb k p then mk else at_ rs k) as Ap by (intros; apply at_put; auto).
  split; cbn [setT touch hs active touched thr].
  - rewrite !put_length by lia. lia.
  - rewrite app_length. cbn. lia.
  - intros h x Hx. rewrite Ap. destruct (Nat.eqb_spec h p) as [->|Ne].
    + rewrite put_same in Hx by auto. injection Hx as <-. rewrite nth_error_app2 by lia. rewrite Em, Nat.sub_diag. reflexivity.
    + rewrite put_other in Hx by auto. rewrite nth_error_app1; [exact (s_h _ _ _ _ S _ _ Hx)|]. rewrite Em. apply Lt. apply nth_error_Some. congruence.
  - rewrite put_length by auto. intros h k Hh Hk. rewrite !Ap. destruct (Nat.eqb_spec h p), (Nat.eqb_spec k p); try congruence; intros E.
    + assert (at_ rs k < mk) by (apply Lt; lia). lia.
    + assert (at_ rs h < mk) by (apply Lt; lia). lia.
    + apply (s_inj _ _ _ _ S); auto; lia.
  - pose proof (s_in _ _ _ _ S). rewrite put_length by auto. lia.
  - rewrite Ap. destruct (Nat.eqb_spec (active c) p); [congruence|]. apply (s_act _ _ _ _ S).
  - now rewrite (s_touch _ _ _ _ S).
  - rewrite map_lupd. cbn [renT renF]. rewrite Ap, Nat.eqb_refl. f_equal. apply map_ext_in. intros x Hx.
    apply In_nth_error in Hx. destruct Hx as (j & Hj). apply renT_ext. intros h Hh. rewrite Ap. destruct (Nat.eqb_spec h p) as [->|]; auto. destruct (Nr _ _ Hj Hh).
  - intros j x h Hx Hr. rewrite put_length by auto. rewrite nth_lupd in Hx. destruct (Nat.eqb j t).
    + rewrite Et in Hx. injection Hx as <-. cbn in Hr. lia.
    + pose proof (s_ref _ _ _ _ S _ _ _ Hx Hr). lia.
Qed.

(* ---- nobody gets the handle that ManagerFree frees ---- *)
Definition newOf (x : tstate) : option nat :=
  match x with
  | Inc (ForReplace nh true) | IncRead (ForReplace nh true) _ | IncAgain (ForReplace nh true) _ | IncCas (ForReplace nh true) _ _ | RepCas nh true _ => Some nh
  | Dec _ k | DecCas _ k _ | DecZero _ k | DecEmpty _ k | DecFree _ k => k
  | FreeNew nh => Some nh
  | _ => None
  end.
Definition ofFree (x : tstate) : bool :=
  match x with
  | RepStart true | RepRead true _ => true
  | _ => match newOf x with Some _ => true | None => false end
  end.
Record NF (tr : list event) (m : manager) : Prop := {
  nf_get : hasFB tr -> forall t x, nth_error (thr m) t = Some x -> getting x = false;
  nf_fb : forall t x, nth_error (thr m) t = Some x -> ofFree x = true -> hasFB tr;
  nf_new : forall t x nh, nth_error (thr m) t = Some x -> newOf x = Some nh -> count (isGot nh) tr = 0;
  nf_ev : forall h, In (HandleFreed h) tr -> hasFB tr /\ count (isGot h) tr = 0 }.

Lemma noGot tr : (forall t h, ~ In (Got t h) tr) -> forall h, count (isGot h) tr = 0.
Proof.
  intros H h. unfold count. induction tr as [|e tr IH]; [reflexivity|]. cbn. fold (list_sum (map (isGot h) tr)). rewrite IH; [|intros t j X; apply (H t j); right; auto].
  destruct e; auto. cbn. destruct (Nat.eqb_spec h0 h) as [->|]; auto. destruct (H t h). left. reflexivity.
Qed.
Lemma nf_step tr m t a m' evs : RI tr m -> NF tr m -> wellUsed tr m a -> rstep t a m = Some (m', evs) -> NF (evs ++ tr) m'.
Proof.
  intros HI HN Hw Hs. pose proof Hs as Hs0.
  assert (exists x y, nth_error (thr m) t = Some x /\ thr m' = lupd (thr m) t y /\
    (getting y = true -> getting x = true \/ a = CallGet) /\
    (ofFree y = true -> ofFree x = true \/ evs = [FreeBegin t]) /\
    (forall nh, newOf y = Some nh -> newOf x = Some nh \/ nth_error (hs m) nh = None) /\
    (forall s h, In (Got s h) evs -> getting x = true) /\
    (forall h, In (HandleFreed h) evs -> newOf x = Some h) /\
    (forall s, In (FreeBegin s) evs -> a = CallFree /\ getting y = false)) as (x & y & Et & Ey & Hg & Hf & Hn & Hgot & Hhf & Hfb).
  { assert (nth_error (hs m) (length (hs m)) = None) as Hlen by (apply nth_error_None; auto).
    unfold rstep, afterDec in Hs. destruct (nth_error (thr m) t) as [x|]; [|discriminate].
    destruct x as [| |[|]|[|] b|[|nh [|]]|[|nh [|]] b|[|nh [|]] ct|[|nh [|]] ct b|nh [|] old|h [k|]|h [k|] ct|h [k|]|h [k|]|h [k|]|nh]; destruct a; try discriminate; brk Hs; injection Hs as <- <-;
    (eexists; eexists; split; [reflexivity|]; split; [reflexivity|]; cbn [getting ofFree newOf]; split; [try discriminate; auto|]; split; [try discriminate; auto|]; split; [intros ? X; try discriminate X; try (injection X as <-); auto|];
     split; [intros ? ? X; cbn in X; try (exfalso; intuition discriminate); auto|]; split; [intros ? X; cbn in X; first [exfalso; intuition discriminate|intuition congruence]|intros ? X; cbn in X; first [exfalso; intuition discriminate|auto]]). }
  assert (forall h, hasFB tr -> count (isGot h) evs = 0) as G0.
  { intros h F. apply noGot. intros s j X. pose proof (nf_get _ _ HN F _ _ Et). rewrite (Hgot _ _ X) in *. discriminate. }
  assert (t < length (thr m)) as Lt by (apply nth_error_Some; congruence).
  assert (forall h, count (isGot h) (evs ++ tr) = count (isGot h) evs + count (isGot h) tr) as Ca by (intros; apply count_app).
  assert (hasFB tr -> hasFB (evs ++ tr)) as Fm by (intros (s & X); exists s; apply in_app_iff; auto).
  split.
  - intros (s & Hi) t' x' Hx'. rewrite Ey in Hx'. apply in_app_iff in Hi. destruct (Nat.eq_dec t' t) as [->|Ne].
    + rewrite nth_lupd_eq in Hx' by auto. injection Hx' as <-. destruct Hi as [Hi|Hi]; [apply (Hfb _ Hi)|].
      destruct (getting y) eqn:Eg; auto. destruct (Hg eq_refl) as [X| ->].
      * rewrite (nf_get _ _ HN (ex_intro _ s Hi) _ _ Et) in X. discriminate.
      * destruct (Hw _ Hi).
    + rewrite nth_lupd_ne in Hx' by auto. destruct Hi as [Hi|Hi]; [|exact (nf_get _ _ HN (ex_intro _ s Hi) _ _ Hx')].
      destruct (Hfb _ Hi) as (-> & _). apply (proj2 Hw _ _ Hx').
  - intros t' x' Hx' Ho. rewrite Ey in Hx'. destruct (Nat.eq_dec t' t) as [->|Ne].
    + rewrite nth_lupd_eq in Hx' by auto. injection Hx' as <-. destruct (Hf Ho) as [X| ->]; [exact (Fm (nf_fb _ _ HN _ _ Et X))|]. exists t. left. reflexivity.
    + rewrite nth_lupd_ne in Hx' by auto. exact (Fm (nf_fb _ _ HN _ _ Hx' Ho)).
  - intros t' x' nh Hx' Ho. rewrite Ca. assert (hasFB tr /\ count (isGot nh) tr = 0 \/ nth_error (hs m) nh = None /\ t' = t) as Hc.
    { rewrite Ey in Hx'. destruct (Nat.eq_dec t' t) as [->|Ne].
      - rewrite nth_lupd_eq in Hx' by auto. injection Hx' as <-. destruct (Hn _ Ho) as [X|X]; auto. left. split; [|exact (nf_new _ _ HN _ _ _ Et X)].
        apply (nf_fb _ _ HN _ _ Et). unfold ofFree. rewrite X. destruct x as [| |[|]|[|]| | | | | | | | | | |]; reflexivity.
      - rewrite nth_lupd_ne in Hx' by auto. left. split; [|exact (nf_new _ _ HN _ _ _ Hx' Ho)].
        apply (nf_fb _ _ HN _ _ Hx'). unfold ofFree. rewrite Ho. destruct x' as [| |[|]|[|]| | | | | | | | | | |]; reflexivity. }
    destruct Hc as [(F & ->)|(N & ->)]; [rewrite G0; auto|].
    pose proof (ri_none _ _ HI _ N) as (-> & _). rewrite noGot; auto. intros s h X. pose proof (Hgot _ _ X) as Gx.
    rewrite Ey, nth_lupd_eq in Hx' by auto. injection Hx' as <-. clear - Ho Gx Hs0 Et Ey Lt X N.
    unfold rstep in Hs0. rewrite Et in Hs0. destruct x as [| |fin|fin b|[|nh1 fin]|[|nh1 fin] b|[|nh1 fin] ct|[|nh1 fin] ct b|nh1 fin old|h1 k|h1 k ct|h1 k|h1 k|h1 k|nh1]; try discriminate Gx; destruct a; try discriminate Hs0; brk Hs0; injection Hs0 as <- <-; cbn in X; try contradiction; try (destruct X as [X|[]]; try discriminate X);
    cbn [setT setH touch thr] in Ey; apply (f_equal (fun l => nth_error l t)) in Ey; rewrite !nth_lupd_eq in Ey by auto; injection Ey as <-; discriminate Ho.
  - intros h Hi. apply in_app_iff in Hi. assert (hasFB tr /\ count (isGot h) tr = 0) as (F & Z).
    { destruct Hi as [Hi|Hi]; [|exact (nf_ev _ _ HN _ Hi)]. pose proof (Hhf _ Hi) as X. split; [|exact (nf_new _ _ HN _ _ _ Et X)].
      apply (nf_fb _ _ HN _ _ Et). unfold ofFree. rewrite X. destruct x as [| |[|]|[|]| | | | | | | | | | |]; reflexivity. }
    split; auto. rewrite Ca, Z, G0; auto.
Qed.
Lemma exec_NF W nt tr m : exec W nt tr m -> NF tr m.
Proof.
  induction 1 as [|tr m t a m' evs He IH Hw HW Hs]; [|eapply nf_step; eauto using exec_RI].
  split; cbn.
  - intros (t & [X|[]]). discriminate.
  - intros t x Hx. apply nth_error_In, repeat_spec in Hx. subst. discriminate.
  - intros t x nh Hx. apply nth_error_In, repeat_spec in Hx. subst. discriminate.
  - intros h [X|[]]. discriminate.
Qed.
