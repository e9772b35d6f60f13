From Verif Require Import CacheModel CacheRun PoolProofs ResourceModel ResourceSpec.

Definition tsum (f : tstate -> nat) (l : list tstate) : nat := list_sum (map f l).
Lemma tsum_lupd f : forall l t x y, nth_error l t = Some x -> tsum f (lupd l t y) + f x = tsum f l + f y.
Proof.
  unfold tsum, list_sum. induction l as [|z l IH]; intros [|t] x y H; cbn in *; try discriminate.
  - injection H as ->. lia.
  - specialize (IH _ _ y H). lia.
Qed.
Lemma tsum_ge f : forall l t x, nth_error l t = Some x -> f x <= tsum f l.
Proof.
  unfold tsum, list_sum. induction l as [|z l IH]; intros [|t] x H; cbn in *; try discriminate.
  - injection H as ->. lia.
  - specialize (IH _ _ H). lia.
Qed.
Lemma tsum_pos f : forall l, 0 < tsum f l -> exists t x, nth_error l t = Some x /\ 0 < f x.
Proof.
  unfold tsum, list_sum. induction l as [|z l IH]; cbn; intros H; [lia|].
  destruct (f z) eqn:E.
  - destruct (IH H) as (t & x & A & B). exists (S t), x. auto.
  - exists 0, z. cbn. split; auto. lia.
Qed.
Lemma tsum_repeat f n : f Idle = 0 -> tsum f (repeat Idle n) = 0.
Proof. unfold tsum, list_sum. intros H. induction n; cbn; lia. Qed.
Lemma count_app f a b : count f (a ++ b) = count f a + count f b.
Proof. unfold count. rewrite map_app, list_sum_app. auto. Qed.

Definition eq1 (a b : nat) : nat := if Nat.eqb a b then 1 else 0.
Definition fPend (h : nat) (x : tstate) : nat :=
  match x with
  | Inc (ForReplace nh _) | IncRead (ForReplace nh _) _ | IncAgain (ForReplace nh _) _
  | IncCas (ForReplace nh _) _ _ | RepCas nh _ _ => eq1 nh h
  | _ => 0
  end.
Definition fUse (h : nat) (x : tstate) : nat :=
  match x with RepCas _ _ o => eq1 o h | Dec j _ | DecCas j _ _ => eq1 j h | _ => 0 end.
Definition fZero (h : nat) (x : tstate) : nat :=
  match x with DecZero j _ | DecEmpty j _ => eq1 j h | _ => 0 end.
Definition fFree (h : nat) (x : tstate) : nat :=
  match x with DecFree j _ => eq1 j h | _ => 0 end.

Definition HInv (tr : list event) (m : manager) (h : nat) (hd : handle) : Prop :=
  let G := count (isGot h) tr in let R := count (isRel h) tr in let A := count (isAct h) tr in
  let Lo := count (isLost h) tr in let F := count (isFreed h) tr in let HF := count (isHFreed h) tr in
  let U := tsum (fUse h) (thr m) in let P := tsum (fPend h) (thr m) in
  let Zr := tsum (fZero h) (thr m) in let Fr := tsum (fFree h) (thr m) in
  R <= G /\
  (if self hd then (inUse hd + Z.of_nat R = Z.of_nat G + Z.of_nat U)%Z /\ Fr + F = 0
   else R = G /\ U = 0 /\ active m <> h /\ Fr + F = 1 /\ 1 <= A) /\
  P + A + Lo = 1 /\
  (1 <= A \/ G = 0 /\ U = 0 /\ Zr = 0) /\
  (if self hd then (inUse hd <> 0)%Z \/ A = 0 \/ h = active m \/ 1 <= Zr else True) /\
  (if alive hd then True else F = 1 \/ 1 <= HF).

(* counts of handles not yet created *)
Definition HNone (tr : list event) (m : manager) (h : nat) : Prop :=
  count (isGot h) tr = 0 /\ count (isRel h) tr = 0 /\ count (isAct h) tr = 0 /\ count (isLost h) tr = 0 /\
  count (isFreed h) tr = 0 /\ count (isHFreed h) tr = 0 /\
  tsum (fUse h) (thr m) = 0 /\ tsum (fPend h) (thr m) = 0 /\ tsum (fZero h) (thr m) = 0 /\ tsum (fFree h) (thr m) = 0.

(* a was the active handle at some moment since thread t called get *)
Definition wasActiveDuring (t a : nat) (tr : list event) : Prop :=
  exists tr1 tr2, tr = tr1 ++ tr2 /\ ~ In (GetBegin t) tr1 /\ In (GetBegin t) tr2 /\ activeOf tr2 = a.

Definition tok (tr : list event) (m : manager) (t : nat) (x : tstate) : Prop :=
  let A h := count (isAct h) tr in
  match x with
  | Inc ForUser => In (GetBegin t) tr
  | RepRead _ a => 1 <= A a
  | IncRead k a => 1 <= A a /\ (k = ForUser -> In (GetBegin t) tr)
  | IncAgain k _ => k = ForUser -> In (GetBegin t) tr
  | IncCas k c a => 1 <= A a /\ (k = ForUser -> wasActiveDuring t a tr)
  | DecEmpty h _ => 1 <= A h /\ active m <> h
  | FreeNew nh => nh < length (hs m)
  | Dec _ (Some nh) | DecCas _ (Some nh) _ | DecZero _ (Some nh) | DecFree _ (Some nh) => nh < length (hs m)
  | _ => True
  end /\
  match x with DecEmpty _ (Some nh) => nh < length (hs m) | _ => True end.

Record RI (tr : list event) (m : manager) : Prop := {
  ri_act : active m = activeOf tr;
  ri_actA : 1 <= count (isAct (active m)) tr;
  ri_h : forall h hd, nth_error (hs m) h = Some hd -> HInv tr m h hd;
  ri_none : forall h, nth_error (hs m) h = None -> HNone tr m h;
  ri_t : forall t x, nth_error (thr m) t = Some x -> tok tr m t x }.

Lemma wad_cons t a tr e : e <> GetBegin t -> wasActiveDuring t a tr -> wasActiveDuring t a (e :: tr).
Proof. intros He (tr1 & tr2 & -> & H1 & H2). exists (e :: tr1), tr2. split; auto. split; auto. intros [H|H]; auto. Qed.
Lemma wad_app t a evs tr : ~ In (GetBegin t) evs -> wasActiveDuring t a tr -> wasActiveDuring t a (evs ++ tr).
Proof. induction evs; cbn; auto. intros H Hw. apply wad_cons; auto. Qed.

Lemma tok_mono tr m m' evs t x : tok tr m t x -> ~ In (GetBegin t) evs ->
  length (hs m) <= length (hs m') ->
  (forall h k, x = DecEmpty h k -> active m' = active m \/ count (isAct (active m')) tr = 0) ->
  tok (evs ++ tr) m' t x.
Proof.
  intros H Hn Hl Ha. unfold tok in *.
  assert (forall a, 1 <= count (isAct a) tr -> 1 <= count (isAct a) (evs ++ tr)) as HA by (intros; rewrite count_app; lia).
  assert (forall e, In e tr -> In e (evs ++ tr)) as HIn by (intros; apply in_app_iff; auto).
  destruct H as (H & H2).
  destruct x as [| |fin|fin a|[|nh fin]|[|nh fin] a|[|nh fin] c|[|nh fin] c a|nh fin o|h [k|]|h [k|] c|h [k|]|h [k|]|h [k|]|nh];
   cbn in *; (split; [|try exact I; try lia]); auto; try lia.
  - destruct H. split; auto.
  - destruct H. split; auto.
  - destruct H as (H & Hw). split; auto. intros E. apply wad_app; auto.
  - destruct H. split; auto. discriminate.
  - destruct H as (H & H1). split; auto. destruct (Ha h (Some k) eq_refl) as [->|Hz]; auto. intros E. rewrite E in Hz. lia.
  - destruct H as (H & H1). split; auto. destruct (Ha h None eq_refl) as [->|Hz]; auto. intros E. rewrite E in Hz. lia.
Qed.

Lemma counter_eqb_eq a b : counter_eqb a b = true -> a = b.
Proof.
  destruct a as [x [i|]], b as [y [j|]]; unfold counter_eqb; cbn; rewrite ?andb_true_iff, ?Z.eqb_eq, ?Nat.eqb_eq;
  intros (-> & H); try discriminate; try rewrite H; auto.
Qed.
Lemma counter_eqb_refl a : counter_eqb a a = true.
Proof. destruct a as [x [i|]]; unfold counter_eqb; cbn; now rewrite ?Z.eqb_refl, ?Nat.eqb_refl. Qed.

Lemma count_nil f : count f [] = 0.
Proof. reflexivity. Qed.
Lemma count_cons f e tr : count f (e :: tr) = f e + count f tr.
Proof. reflexivity. Qed.

Ltac eqbs := repeat match goal with
  | |- context [Nat.eqb ?a ?b] => destruct (Nat.eqb_spec a b)
  | H : context [Nat.eqb ?a ?b] |- _ => destruct (Nat.eqb_spec a b)
  end.
Ltac sums Et y h :=
  pose proof (tsum_lupd (fUse h) _ _ _ y Et); pose proof (tsum_lupd (fPend h) _ _ _ y Et);
  pose proof (tsum_lupd (fZero h) _ _ _ y Et); pose proof (tsum_lupd (fFree h) _ _ _ y Et).
Ltac fin :=
  rewrite ?count_cons, ?count_nil in *;
  cbn [fUse fPend fZero fFree isGot isRel isAct isLost isFreed isHFreed self inUse alive hs active thr touched setT setH touch setActive] in *;
  unfold eq1 in *; eqbs; subst; try lia.

(* the step changes thread t to y, emits evs and leaves a list of handles hs' *)
Lemma assemble tr m t x y evs hs' act' tch' :
  RI tr m -> nth_error (thr m) t = Some x ->
  (act' = active m /\ (forall h, count (isAct h) evs = 0) \/ evs = [Activated act'] /\ count (isAct act') tr = 0) ->
  (forall t', t' <> t -> ~ In (GetBegin t') evs) ->
  length (hs m) <= length hs' ->
  (let m' := mkM hs' act' tch' (lupd (thr m) t y) in
   (forall h hd, nth_error hs' h = Some hd -> HInv (evs ++ tr) m' h hd) /\
   (forall h, nth_error hs' h = None -> HNone (evs ++ tr) m' h) /\
   tok (evs ++ tr) m' t y) ->
  RI (evs ++ tr) (mkM hs' act' tch' (lupd (thr m) t y)).
Proof.
  intros HI Et Ha Hg Hl (H1 & H2 & H3). assert (t < length (thr m)) as Htl by (apply nth_error_Some; congruence).
  constructor; cbn [active hs thr]; auto.
  - destruct Ha as [(-> & Ha)|(-> & _)]; [|reflexivity]. rewrite (ri_act _ _ HI).
    clear -Ha. revert Ha. induction evs as [|e evs IH]; intros Ha; auto. cbn.
    assert (forall h, count (isAct h) evs = 0) as Hb by (intros h; specialize (Ha h); rewrite count_cons in Ha; lia).
    destruct e; auto. specialize (Ha h). rewrite count_cons in Ha. cbn in Ha. rewrite Nat.eqb_refl in Ha. lia.
  - rewrite count_app. destruct Ha as [(-> & Ha)|(-> & _)].
    + pose proof (ri_actA _ _ HI). lia.
    + rewrite count_cons. cbn. rewrite Nat.eqb_refl. lia.
  - intros t' x' Hx'. destruct (Nat.eq_dec t' t) as [->|Nt].
    + rewrite nth_lupd_eq in Hx' by auto. injection Hx' as <-. exact H3.
    + rewrite nth_lupd_ne in Hx' by auto. apply (tok_mono tr m); auto.
      * now apply HI.
      * cbn. intros h k _. destruct Ha as [(-> & _)|(_ & Ha)]; auto.
Qed.

Lemma act_lt tr m h : RI tr m -> 1 <= count (isAct h) tr -> exists hd, nth_error (hs m) h = Some hd.
Proof.
  intros HI H. destruct (nth_error (hs m) h) eqn:E; eauto. apply (ri_none _ _ HI) in E.
  unfold HNone in E. lia.
Qed.
Lemma use_lt tr m h : RI tr m -> 1 <= tsum (fUse h) (thr m) -> exists hd, nth_error (hs m) h = Some hd.
Proof.
  intros HI H. destruct (nth_error (hs m) h) eqn:E; eauto. apply (ri_none _ _ HI) in E. unfold HNone in E. lia.
Qed.


Ltac getSums Et :=
  match goal with |- context [lupd _ _ ?y] =>
    match goal with |- context [count (isGot ?h) _] => sums Et y h end end.
Ltac oneH Et := unfold HInv, HNone in *; rewrite ?count_app in *; getSums Et; fin.
(* handles unchanged, no activation *)
Ltac same HI Et :=
  eapply assemble; [exact HI|exact Et|left; split; [auto|intros h0; rewrite ?count_cons, ?count_nil; cbn; lia]|
      intros t' Nt; cbn; intuition congruence|apply le_n|]; cbv zeta; split; [|split];
      [intros j hd Hj; apply (ri_h _ _ HI) in Hj; destruct hd as [n [|] [|]]; oneH Et
      |intros j Hj; pose proof (ri_none _ _ HI _ Hj) as Hj0; oneH Et|].
(* handle h0, which was hd0, becomes hd1 *)
Ltac upd HI Et h0 hd0 Eh :=
  eapply assemble; [exact HI|exact Et|left; split; [auto|intros h1; rewrite ?count_cons, ?count_nil; cbn; lia]|
      intros t' Nt; cbn; intuition congruence|rewrite length_lupd; apply le_n|]; cbv zeta; split; [|split];
      [intros j hd Hj; destruct (Nat.eq_dec j h0) as [Ej|Nj];
        [subst j; rewrite nth_lupd_eq in Hj by (apply nth_error_Some; congruence); injection Hj as <-; apply (ri_h _ _ HI) in Eh; destruct hd0 as [n [|] [|]]; oneH Et
        |rewrite nth_lupd_ne in Hj by auto; apply (ri_h _ _ HI) in Hj; destruct hd as [n [|] [|]]; oneH Et]
      |intros j Hj; rewrite nth_lupd in Hj; destruct (Nat.eqb_spec j h0) as [Ej|Nj];
        [subst j; rewrite Eh in Hj; discriminate|pose proof (ri_none _ _ HI _ Hj) as Hj0; oneH Et]|].

Ltac tk := unfold tok in *; cbn in *; rewrite ?length_lupd; intuition auto.

Lemma step_inv tr m t a m' evs :
  RI tr m -> wellUsed tr m a -> rstep t a m = Some (m', evs) -> RI (evs ++ tr) m'.
Proof.
  intros HI Hw Hs. unfold rstep in Hs. destruct (nth_error (thr m) t) as [x|] eqn:Et; [|discriminate].
  pose proof (ri_t _ _ HI _ _ Et) as Hx. pose proof (ri_act _ _ HI) as Hact. pose proof (ri_actA _ _ HI) as HactA.
  destruct x as [| |fin|fin a0|k|k a0|k c|k c a0|nh fin o|h k|h k c|h k|h k|h k|nh]; try (destruct a; discriminate).
  - (* Idle *)
    destruct a as [|h| | |]; try discriminate; injection Hs as <- <-; unfold setT.
    + same HI Et. tk.
    + unfold wellUsed, users in Hw. same HI Et. tk.
    + same HI Et. tk.
    + same HI Et. tk.
  - (* RepStart *) destruct a; try discriminate. injection Hs as <- <-. unfold setT. same HI Et. tk.
  - (* RepRead *) destruct a; try discriminate. unfold tok in Hx; cbn in Hx. destruct Hx as (Hx & _).
    destruct (act_lt _ _ _ HI Hx) as (hd0 & Eh). rewrite Eh in Hs. injection Hs as <- <-.
    unfold setT, touch. cbn [hs active touched thr].
    eapply assemble; [exact HI|exact Et|left; split; [auto|intros h1; rewrite ?count_cons, ?count_nil; cbn; lia]|
      intros t' Nt; cbn; intuition congruence|rewrite app_length; cbn; lia|]; cbv zeta; split; [|split].
    + intros j hd Hj. destruct (Nat.eq_dec j (length (hs m))) as [->|Nj].
      * rewrite nth_error_app2, Nat.sub_diag in Hj by lia. cbn in Hj. injection Hj as <-.
        assert (HNone tr m (length (hs m))) as Hn by (apply HI, nth_error_None; lia).
        oneH Et.
      * destruct (lt_dec j (length (hs m))) as [Hlt|Hge].
        { rewrite nth_error_app1 in Hj by auto. apply (ri_h _ _ HI) in Hj. destruct hd as [n [|] [|]]; oneH Et. }
        { assert (j < length (hs m ++ [mkH 0 true true])) as Q by (apply nth_error_Some; congruence).
          rewrite app_length in Q. cbn in Q. lia. }
    + intros j Hj. apply nth_error_None in Hj. rewrite app_length in Hj. cbn in Hj.
      assert (HNone tr m j) as Hn by (apply HI, nth_error_None; lia). oneH Et.
    + tk.
  - (* Inc *) destruct a; try discriminate. injection Hs as <- <-. unfold setT.
    same HI Et. all: try (destruct k; fin; fail).
    unfold tok. rewrite count_app. unfold tok in Hx; cbn in Hx. split; auto. split; [lia|]. intros ->. tauto.
  - (* IncRead *) destruct a; try discriminate. unfold tok in Hx; cbn in Hx. destruct Hx as ((Hx & Hb) & _).
    destruct (act_lt _ _ _ HI Hx) as (hd0 & Eh). rewrite Eh in Hs. injection Hs as <- <-.
    unfold setT, touch. cbn [hs active touched thr]. same HI Et. all: try (destruct k; fin; fail).
    tk.
  - (* IncAgain *) destruct a; try discriminate. unfold tok in Hx; cbn in Hx. destruct Hx as (Hx & _). injection Hs as <- <-.
    unfold setT. same HI Et. all: try (destruct k; fin; fail).
    unfold tok. cbn. split; auto. split; [exact HactA|]. intros ->. exists [], tr. repeat split; auto.
  - (* IncCas *) destruct a; try discriminate. unfold tok in Hx; cbn in Hx. destruct Hx as ((Hx & Hb) & _).
    destruct (act_lt _ _ _ HI Hx) as (hd0 & Eh). rewrite Eh in Hs.
    destruct (counter_eqb (counterOf a0 hd0) c) eqn:Ec.
    + apply counter_eqb_eq in Ec. subst c. unfold counterOf in Hs. cbn [snd] in Hs.
      destruct (self hd0) eqn:Es; destruct k as [|nh fin]; injection Hs as <- <-; unfold setT, setH, touch; cbn [hs active touched thr].
      * upd HI Et a0 hd0 Eh; try discriminate. tk.
      * upd HI Et a0 hd0 Eh; try discriminate. tk.
      * upd HI Et a0 hd0 Eh; try discriminate. tk.
      * upd HI Et a0 hd0 Eh; try discriminate. tk.
    + injection Hs as <- <-. unfold setT, touch. cbn [hs active touched thr]. same HI Et. all: try (destruct k; fin; fail).
      unfold tok. cbn. split; auto. destruct k; auto. destruct (Hb eq_refl) as (tr1 & tr2 & -> & _ & H & _). apply in_app_iff. auto.
  - (* RepCas *) destruct a; try discriminate. unfold tok in Hx; cbn in Hx.
    pose proof (tsum_ge (fPend nh) _ _ _ Et) as Hp. cbn in Hp. unfold eq1 in Hp. rewrite Nat.eqb_refl in Hp.
    pose proof (tsum_ge (fUse o) _ _ _ Et) as Hu. cbn in Hu. unfold eq1 in Hu. rewrite Nat.eqb_refl in Hu.
    assert (exists hdn, nth_error (hs m) nh = Some hdn) as (hdn & Ehn).
    { destruct (nth_error (hs m) nh) eqn:E; eauto. apply (ri_none _ _ HI) in E. unfold HNone in E. lia. }
    pose proof (ri_h _ _ HI _ _ Ehn) as Hn. unfold HInv in Hn.
    assert (nh < length (hs m)) as Hnl by (apply nth_error_Some; congruence).
    destruct (Nat.eqb_spec (active m) o) as [Eo|No]; injection Hs as <- <-; unfold setT, setActive; cbn [hs active touched thr].
    + eapply assemble; [exact HI|exact Et|right; split; [reflexivity|lia]|
      intros t' Nt; cbn; intuition congruence|apply le_n|]; cbv zeta; split; [|split].
      * intros j hd Hj. apply (ri_h _ _ HI) in Hj; destruct hd as [n [|] [|]]; subst o; oneH Et.
      * intros j Hj; pose proof (ri_none _ _ HI _ Hj) as Hj0; oneH Et.
      * destruct fin; tk.
    + same HI Et. destruct fin; tk.
  - (* Dec *) destruct a; try discriminate.
    destruct (nth_error (hs m) h) as [hd0|] eqn:Eh; [|discriminate]. injection Hs as <- <-.
    unfold setT, touch. cbn [hs active touched thr]. same HI Et. unfold tok in *; cbn in *; rewrite ?length_lupd; exact Hx.
  - (* DecCas *) destruct a; try discriminate.
    destruct (nth_error (hs m) h) as [hd0|] eqn:Eh; [|discriminate].
    destruct (counter_eqb (counterOf h hd0) c) eqn:Ec.
    + pose proof (tsum_ge (fUse h) _ _ _ Et) as Hu. cbn in Hu. unfold eq1 in Hu. rewrite Nat.eqb_refl in Hu.
      destruct (Z.eqb_spec (inUse hd0 - 1) 0) as [Ez|Nz].
      * injection Hs as <- <-. unfold setT, setH, touch; cbn [hs active touched thr].
        upd HI Et h hd0 Eh.  (unfold tok in *; destruct k; cbn in *; rewrite ?length_lupd; auto).
      * destruct k as [nk|]; injection Hs as <- <-; unfold setT, setH, touch; cbn [hs active touched thr].
        { upd HI Et h hd0 Eh. unfold tok in *. cbn in *. rewrite length_lupd. tauto. }
        { upd HI Et h hd0 Eh. tk. }
    + injection Hs as <- <-. unfold setT, touch. cbn [hs active touched thr]. same HI Et. unfold tok in *; cbn in *; rewrite ?length_lupd; exact Hx.
  - (* DecZero *) destruct a; try discriminate.
    destruct (nth_error (hs m) h) as [hd0|] eqn:Eh; [|discriminate].
    pose proof (tsum_ge (fZero h) _ _ _ Et) as Hz. cbn in Hz. unfold eq1 in Hz. rewrite Nat.eqb_refl in Hz.
    pose proof (ri_h _ _ HI _ _ Eh) as Hh.
    cbn [active touch] in Hs.
    destruct (Nat.eqb_spec (active m) h) as [Ea|Na].
    + destruct k as [nk|]; injection Hs as <- <-; unfold setT, setH, touch; cbn [hs active touched thr].
      * same HI Et. unfold tok in *; cbn in *; rewrite ?length_lupd; exact Hx.
      * same HI Et. tk.
    + injection Hs as <- <-. unfold setT, touch. cbn [hs active touched thr]. same HI Et.
      assert (1 <= count (isAct h) tr) as HA by (unfold HInv in Hh; lia).
      unfold tok in *. cbn in *. split; [split; auto|]. destruct k; tauto.
  - (* DecEmpty *) destruct a; try discriminate.
    destruct (nth_error (hs m) h) as [hd0|] eqn:Eh; [|discriminate]. unfold tok in Hx; cbn in Hx.
    pose proof (ri_h _ _ HI _ _ Eh) as Hh.
    destruct (counter_eqb (counterOf h hd0) (0%Z, Some h)) eqn:Ec.
    + apply counter_eqb_eq in Ec. unfold counterOf in Ec. injection Ec as Ei Es. destruct (self hd0) eqn:Es0; [|discriminate].
      injection Hs as <- <-. unfold setT, setH, touch; cbn [hs active touched thr].
      upd HI Et h hd0 Eh; try discriminate. unfold tok. cbn. destruct k; rewrite ?length_lupd; tauto.
    + assert (inUse hd0 <> 0%Z \/ self hd0 = false) as Hd.
      { destruct (self hd0) eqn:Es; auto. left. intros E. unfold counterOf in Ec. rewrite E, Es, counter_eqb_refl in Ec. discriminate. }
      destruct k as [nk|]; injection Hs as <- <-; unfold setT, setH, touch; cbn [hs active touched thr].
      * eapply assemble; [exact HI|exact Et|left; split; [auto|intros h0; rewrite ?count_cons, ?count_nil; cbn; lia]|
      intros t' Nt; cbn; intuition congruence|apply le_n|]; cbv zeta; split; [|split].
        { intros j hd Hj. destruct (Nat.eq_dec j h) as [->|Nj].
          - assert (hd = hd0) as -> by congruence. destruct hd0 as [n [|] [|]]; cbn [self inUse] in Hd;
             (destruct Hd as [Hd|Hd]; [|try discriminate Hd]); oneH Et.
          - apply (ri_h _ _ HI) in Hj; destruct hd as [n [|] [|]]; oneH Et. }
        { intros j Hj; pose proof (ri_none _ _ HI _ Hj) as Hj0; oneH Et. }
        { unfold tok. cbn. tauto. }
      * eapply assemble; [exact HI|exact Et|left; split; [auto|intros h0; rewrite ?count_cons, ?count_nil; cbn; lia]|
      intros t' Nt; cbn; intuition congruence|apply le_n|]; cbv zeta; split; [|split].
        { intros j hd Hj. destruct (Nat.eq_dec j h) as [->|Nj].
          - assert (hd = hd0) as -> by congruence. destruct hd0 as [n [|] [|]]; cbn [self inUse] in Hd;
             (destruct Hd as [Hd|Hd]; [|try discriminate Hd]); oneH Et.
          - apply (ri_h _ _ HI) in Hj; destruct hd as [n [|] [|]]; oneH Et. }
        { intros j Hj; pose proof (ri_none _ _ HI _ Hj) as Hj0; oneH Et. }
        { unfold tok. cbn. tauto. }
  - (* DecFree *) destruct a; try discriminate.
    destruct (nth_error (hs m) h) as [hd0|] eqn:Eh; [|discriminate].
    pose proof (tsum_ge (fFree h) _ _ _ Et) as Hz. cbn in Hz. unfold eq1 in Hz. rewrite Nat.eqb_refl in Hz.
    destruct k as [nk|]; cbn [afterDec] in Hs; injection Hs as <- <-; unfold setT, setH, touch; cbn [hs active touched thr].
    + upd HI Et h hd0 Eh. unfold tok in *. cbn in *. rewrite length_lupd. tauto.
    + upd HI Et h hd0 Eh. tk.
  - (* FreeNew *) destruct a; try discriminate.
    destruct (nth_error (hs m) nh) as [hd0|] eqn:Eh; [|discriminate]. injection Hs as <- <-.
    unfold setT, setH, touch; cbn [hs active touched thr].
    upd HI Et nh hd0 Eh. tk.
Qed.
