(* what holds on a heap that may hand out a freed block at once *)
From Verif Require Import CacheModel CacheRun PoolProofs ResourceModel ResourceSpec ResourceProofs ResourceRun ResourceSeq ReuseModel ReuseSpec ReuseProofs ReuseRun.

(* ---- the manager is freed by one thread ---- *)
Definition isHF (e : event) : nat := match e with HandleFreed _ => 1 | _ => 0 end.
Definition ff (x : tstate) : nat := if ofFree x then 1 else 0.
Record QI (tr : list event) (c : manager) : Prop := {
  q_no : ~ hasFB tr -> tsum ff (thr c) = 0 /\ count isHF tr = 0;
  q_one : tsum ff (thr c) + count isHF tr <= 1;
  q_rep : hasFB tr -> forall t x, nth_error (thr c) t = Some x -> replacing x = true -> ofFree x = true }.

(* what a step does to the state of its thread *)
Definition goesTo (a : action) (x y : tstate) (evs : list event) : Prop :=
  match a with
  | CallFree => ofFree y = true /\ replacing y = true /\ evs <> [] /\ (forall e, In e evs -> exists s, e = FreeBegin s)
  | CallReplace => ofFree y = false /\ evs = []
  | CallGet | CallRelease _ => ofFree y = false /\ replacing y = false /\ (forall e, In e evs -> isHF e = 0 /\ isFB e = false)
  | Continue => (replacing y = true -> replacing x = true /\ ofFree y = ofFree x) /\ ff y + count isHF evs <= ff x /\ (forall e, In e evs -> isFB e = false)
  end.
Lemma rstep_goes t a c c' evs : rstep t a c = Some (c', evs) -> exists x y, nth_error (thr c) t = Some x /\ thr c' = lupd (thr c) t y /\ (a <> Continue -> x = Idle) /\ goesTo a x y evs.
Proof.
  intros Hs. unfold rstep, afterDec in Hs. destruct (nth_error (thr c) t) as [x|]; [|discriminate].
  destruct x as [| |[|]|[|] b|[|nh [|]]|[|nh [|]] b|[|nh [|]] ct|[|nh [|]] ct b|nh [|] old|h [k|]|h [k|] ct|h [k|]|h [k|]|h [k|]|nh]; destruct a; try discriminate; brk Hs; injection Hs as <- <-;
  (eexists; eexists; split; [reflexivity|]; split; [reflexivity|]; split; [congruence|]; cbn [goesTo]);
  try (split; [cbn; auto; discriminate|]; split; [cbn; lia|]; intros ? X; cbn in X; intuition (subst; reflexivity));
  try (split; [reflexivity|]; try split; auto; try discriminate; intros ? X; cbn in X; intuition (subst; auto; eauto)).
  split; [reflexivity|]. split; [reflexivity|]. split; [discriminate|]. intros e [<-|[]]. eauto.
Qed.

Lemma noFB_count tr : (forall e, In e tr -> isFB e = false) -> ~ hasFB tr.
Proof. intros H (t & X). discriminate (H _ X). Qed.
Lemma hasFB_app a b : hasFB (a ++ b) <-> hasFB a \/ hasFB b.
Proof.
  split; [intros (t & H); apply in_app_iff in H; destruct H; [left|right]; exists t; auto|intros [(t & H)|(t & H)]; exists t; apply in_app_iff; auto].
Qed.
Lemma count_none f (l : list event) : (forall e, In e l -> f e = 0) -> count f l = 0.
Proof. intros H. unfold count. induction l as [|e l IH]; [reflexivity|]. cbn. fold (list_sum (map f l)). rewrite (H e), IH; auto; [intros; apply H; right; auto|left; auto]. Qed.

(* a step of thread t from x to y *)
Lemma q_goes tr c t a c' x y evs : QI tr c -> (a = CallReplace \/ a = CallFree -> wellUsed tr c a) -> nth_error (thr c) t = Some x -> thr c' = lupd (thr c) t y -> (a <> Continue -> x = Idle) -> goesTo a x y evs ->
  QI (evs ++ tr) c'.
Proof.
  intros Q Hw Et Ey Hx Hg. assert (t < length (thr c)) as Lt by (apply nth_error_Some; congruence).
  pose proof (tsum_lupd ff _ _ _ y Et) as Hf. rewrite <- Ey in Hf. pose proof (q_one _ _ Q) as H1.
  assert (forall j z, nth_error (thr c') j = Some z -> j = t /\ z = y \/ nth_error (thr c) j = Some z) as Hz.
  { intros j z H. rewrite Ey in H. destruct (Nat.eq_dec j t) as [->|Ne]; [rewrite nth_lupd_eq in H by auto; injection H as <-; auto|rewrite nth_lupd_ne in H by auto; auto]. }
  assert (~ hasFB evs -> count isHF evs + ff y <= ff x -> (replacing y = true -> hasFB tr -> ofFree y = true) -> QI (evs ++ tr) c') as Quiet.
  { intros Nf Hc Hr. split.
    - intros N. rewrite hasFB_app in N. destruct (q_no _ _ Q) as (A & B); [tauto|]. rewrite count_app. split; lia.
    - rewrite count_app. lia.
    - intros F j z Hj Rz. rewrite hasFB_app in F. destruct F as [F|F]; [tauto|]. destruct (Hz _ _ Hj) as [(-> & ->)|Hj']; [auto|exact (q_rep _ _ Q F _ _ Hj' Rz)]. }
  destruct a as [|h| | |]; cbn [goesTo] in Hg.
  - destruct Hg as (A & B & C). apply Quiet; [apply noFB_count; intros e He; apply (C e He)| |congruence]. rewrite (count_none isHF); [|intros e He; apply (C e He)]. unfold ff at 1. rewrite A. lia.
  - destruct Hg as (A & B & C). apply Quiet; [apply noFB_count; intros e He; apply (C e He)| |congruence]. rewrite (count_none isHF); [|intros e He; apply (C e He)]. unfold ff at 1. rewrite A. lia.
  - destruct Hg as (A & ->). apply Quiet; [apply noFB_count; intros e []| |].
    + cbn. unfold ff at 1. rewrite A. lia.
    + intros _ (s & F). destruct (Hw (or_introl eq_refl) s F).
  - destruct Hg as (A & B & C & D). destruct (Hw (or_intror eq_refl)) as (W1 & W2).
    assert (~ hasFB tr) as N by (intros (s & F); exact (W1 s F)). destruct (q_no _ _ Q N) as (Z1 & Z2). rewrite (Hx ltac:(discriminate)) in Hf. cbn in Hf.
    assert (count isHF evs = 0) as Z3 by (apply count_none; intros e He; destruct (D e He) as (s & ->); reflexivity).
    assert (hasFB evs) as F. { destruct evs as [|e evs]; [congruence|]. destruct (D e (or_introl eq_refl)) as (s & ->). exists s. left. reflexivity. }
    split.
    + rewrite hasFB_app. tauto.
    + rewrite count_app. assert (ff y = 1) as Fy by (unfold ff; rewrite A; reflexivity). lia.
    + intros _ j z Hj Rz. destruct (Hz _ _ Hj) as [(-> & ->)|Hj']; [auto|]. destruct (W2 _ _ Hj'). congruence.
  - destruct Hg as (A & B & C). apply Quiet; [apply noFB_count; exact C|lia|]. intros R F. destruct (A R) as (Rx & ->). exact (q_rep _ _ Q F _ _ Et Rx).
Qed.
(* after the manager's handle was freed no replace goes on *)
Lemma q_done tr c h t x : QI tr c -> In (HandleFreed h) tr -> nth_error (thr c) t = Some x -> replacing x = false.
Proof.
  intros Q Hi Et. destruct (replacing x) eqn:R; auto. exfalso.
  assert (1 <= count isHF tr) as C. { clear - Hi. unfold count. induction tr as [|e tr IH]; [contradiction|]. cbn. fold (list_sum (map isHF tr)). destruct Hi as [->|Hi]; [cbn; lia|]. specialize (IH Hi). lia. }
  pose proof (q_one _ _ Q). assert (hasFB tr \/ ~ hasFB tr) as [F|N].
  { clear. induction tr as [|e tr [IH|IH]]; [right; intros (t & [])|left; destruct IH as (t & X); exists t; right; auto|].
    destruct (isFB e) eqn:E; [left; destruct e; try discriminate; exists t; left; reflexivity|]. right. intros (t & [X|X]); [subst; discriminate|]. apply IH. exists t. auto. }
  - pose proof (q_rep _ _ Q F _ _ Et R) as O. pose proof (tsum_ge ff _ _ _ Et) as G. unfold ff at 1 in G. rewrite O in G. lia.
  - destruct (q_no _ _ Q N). lia.
Qed.

(* ---- the counts of a block ---- *)
Definition BI (G R F HF : nat) (th : list tstate) (h : nat) (hd : handle) : Prop :=
  R <= G /\
  (if self hd then (inUse hd + Z.of_nat R = Z.of_nat G + Z.of_nat (tsum (fUse h) th))%Z /\ tsum (fFree h) th + F = 0
   else R = G /\ tsum (fUse h) th = 0 /\ tsum (fFree h) th + F = 1) /\
  (if alive hd then True else F = 1 \/ 1 <= HF).

Ltac bsums Et y h := pose proof (tsum_lupd (fUse h) _ _ _ y Et); pose proof (tsum_lupd (fFree h) _ _ _ y Et).
Ltac bfin := rewrite ?count_cons, ?count_nil in *;
  cbn [fUse fFree isGot isRel isFreed isHFreed self inUse alive app] in *; unfold eq1 in *; eqbs; subst; try lia.
Lemma core_step t a c c' evs j hd' (G R F HF : nat) :
  rstep t a c = Some (c', evs) -> (forall fin b, nth_error (thr c) t = Some (RepRead fin b) -> a <> Continue) -> (forall h, a = CallRelease h -> h = j -> R < G) ->
  nth_error (hs c') j = Some hd' ->
  exists hd, nth_error (hs c) j = Some hd /\ (BI G R F HF (thr c) j hd ->
    BI (count (isGot j) evs + G) (count (isRel j) evs + R) (count (isFreed j) evs + F) (count (isHFreed j) evs + HF) (thr c') j hd').
Proof.
  intros Hs Hn Hr Hj. unfold rstep in Hs. destruct (nth_error (thr c) t) as [x|] eqn:Et; [|discriminate].
  assert (forall y b hd hd1, nth_error (hs c) b = Some hd -> nth_error (lupd (hs c) b hd1) j = Some hd' ->
     (exists hd0, nth_error (hs c) j = Some hd0 /\ (BI G R F HF (thr c) j hd0 -> BI (count (isGot j) evs + G) (count (isRel j) evs + R) (count (isFreed j) evs + F) (count (isHFreed j) evs + HF) (lupd (thr c) t y) j hd')) <->
     (if Nat.eqb j b then BI G R F HF (thr c) j hd -> BI (count (isGot j) evs + G) (count (isRel j) evs + R) (count (isFreed j) evs + F) (count (isHFreed j) evs + HF) (lupd (thr c) t y) j hd1
      else BI G R F HF (thr c) j hd' -> BI (count (isGot j) evs + G) (count (isRel j) evs + R) (count (isFreed j) evs + F) (count (isHFreed j) evs + HF) (lupd (thr c) t y) j hd')) as Up.
  { intros y b hd hd1 Eb Hl. rewrite nth_lupd in Hl. destruct (Nat.eqb_spec j b) as [->|Ne].
    - rewrite Eb in Hl. injection Hl as <-. split; [intros (hd0 & X & Y); rewrite Eb in X; injection X as <-; exact Y|intros Y; eauto].
    - split; [intros (hd0 & X & Y); rewrite Hl in X; injection X as <-; exact Y|intros Y; eauto]. }
  destruct x as [| |fin|fin a0|k|k a0|k ct|k ct a0|nh fin o|h k|h k ct|h k|h k|h k|nh]; try (destruct a; discriminate).
  - destruct a as [|h| | |]; try discriminate; injection Hs as <- <-; cbn [setT hs thr] in *; exists hd'; (split; [exact Hj|]); unfold BI; destruct hd' as [n [|] [|]];
    match goal with |- context [lupd _ _ ?y] => bsums Et y j end; try specialize (Hr h eq_refl); bfin.
  - destruct a; try discriminate. injection Hs as <- <-. cbn [setT hs thr] in *. exists hd'. split; [exact Hj|]. unfold BI. destruct hd' as [n [|] [|]]; match goal with |- context [lupd _ _ ?y] => bsums Et y j end; bfin.
  - destruct a; try discriminate. destruct (Hn _ _ eq_refl eq_refl).
  - destruct a; try discriminate. injection Hs as <- <-. cbn [setT hs thr] in *. exists hd'. split; [exact Hj|]. unfold BI. destruct hd' as [n [|] [|]]; match goal with |- context [lupd _ _ ?y] => bsums Et y j end; bfin.
  - destruct a; try discriminate. destruct (nth_error (hs c) a0) as [hd0|] eqn:Eh; [|discriminate]. injection Hs as <- <-. cbn [setT touch hs thr] in *. exists hd'. split; [exact Hj|].
    unfold BI. destruct hd' as [n [|] [|]]; match goal with |- context [lupd _ _ ?y] => bsums Et y j end; bfin.
  - destruct a; try discriminate. injection Hs as <- <-. cbn [setT hs thr] in *. exists hd'. split; [exact Hj|]. unfold BI. destruct hd' as [n [|] [|]]; match goal with |- context [lupd _ _ ?y] => bsums Et y j end; bfin.
  - destruct a; try discriminate. destruct (nth_error (hs c) a0) as [hd0|] eqn:Eh; [|discriminate]. destruct (counter_eqb (counterOf a0 hd0) ct) eqn:Ec.
    + apply counter_eqb_eq in Ec. subst ct. unfold counterOf in Hs. cbn [snd] in Hs.
      destruct (self hd0) eqn:Es; destruct k as [|nh fin]; injection Hs as <- <-; cbn [setT setH touch hs thr] in *; apply (Up _ _ _ _ Eh Hj); destruct (Nat.eqb_spec j a0) as [->|Nj];
      unfold BI; [destruct hd0 as [n [|] [|]]|destruct hd' as [n [|] [|]]|destruct hd0 as [n [|] [|]]|destruct hd' as [n [|] [|]]|destruct hd0 as [n [|] [|]]|destruct hd' as [n [|] [|]]|destruct hd0 as [n [|] [|]]|destruct hd' as [n [|] [|]]];
      try discriminate Es; match goal with |- context [tsum (fUse ?q) (lupd _ _ ?y)] => bsums Et y q end; bfin.
    + injection Hs as <- <-. cbn [setT touch hs thr] in *. exists hd'. split; [exact Hj|]. unfold BI. destruct hd' as [n [|] [|]]; match goal with |- context [lupd _ _ ?y] => bsums Et y j end; bfin.
  - destruct a; try discriminate. destruct (Nat.eqb (active c) o); injection Hs as <- <-; cbn [setT setActive hs thr] in *; exists hd'; (split; [exact Hj|]); unfold BI; destruct hd' as [n [|] [|]];
    match goal with |- context [lupd _ _ ?y] => bsums Et y j end; bfin.
  - destruct a; try discriminate. destruct (nth_error (hs c) h) as [hd0|] eqn:Eh; [|discriminate]. injection Hs as <- <-. cbn [setT touch hs thr] in *. exists hd'. split; [exact Hj|].
    unfold BI. destruct hd' as [n [|] [|]]; match goal with |- context [lupd _ _ ?y] => bsums Et y j end; bfin.
  - destruct a; try discriminate. destruct (nth_error (hs c) h) as [hd0|] eqn:Eh; [|discriminate]. pose proof (tsum_ge (fUse h) _ _ _ Et) as Hu. cbn in Hu. unfold eq1 in Hu. rewrite Nat.eqb_refl in Hu.
    destruct (counter_eqb (counterOf h hd0) ct) eqn:Ec.
    + destruct (Z.eqb_spec (inUse hd0 - 1) 0) as [Ez|Nz]; [|destruct k as [nk|]]; injection Hs as <- <-; cbn [afterDec setT setH touch hs thr] in *; apply (Up _ _ _ _ Eh Hj); destruct (Nat.eqb_spec j h) as [->|Nj];
      unfold BI; [destruct hd0 as [n [|] [|]]|destruct hd' as [n [|] [|]]|destruct hd0 as [n [|] [|]]|destruct hd' as [n [|] [|]]|destruct hd0 as [n [|] [|]]|destruct hd' as [n [|] [|]]];
      match goal with |- context [tsum (fUse ?q) (lupd _ _ ?y)] => bsums Et y q end; bfin.
    + injection Hs as <- <-. cbn [setT touch hs thr] in *. exists hd'. split; [exact Hj|]. unfold BI. destruct hd' as [n [|] [|]]; match goal with |- context [lupd _ _ ?y] => bsums Et y j end; bfin.
  - destruct a; try discriminate. destruct (nth_error (hs c) h) as [hd0|] eqn:Eh; [|discriminate]. cbn [active touch] in Hs.
    destruct (Nat.eqb (active c) h); [destruct k as [nk|]|]; injection Hs as <- <-; cbn [afterDec setT touch hs thr] in *; exists hd'; (split; [exact Hj|]); unfold BI; destruct hd' as [n [|] [|]];
    match goal with |- context [lupd _ _ ?y] => bsums Et y j end; bfin.
  - destruct a; try discriminate. destruct (nth_error (hs c) h) as [hd0|] eqn:Eh; [|discriminate].
    destruct (counter_eqb (counterOf h hd0) (0%Z, Some h)) eqn:Ec.
    + apply counter_eqb_eq in Ec. unfold counterOf in Ec. injection Ec as Ei Es. destruct (self hd0) eqn:Es0; [|discriminate].
      injection Hs as <- <-. cbn [setT setH touch hs thr] in *. apply (Up _ _ _ _ Eh Hj); destruct (Nat.eqb_spec j h) as [->|Nj]; unfold BI; [destruct hd0 as [n [|] [|]]|destruct hd' as [n [|] [|]]]; try discriminate Es0;
      match goal with |- context [tsum (fUse ?q) (lupd _ _ ?y)] => bsums Et y q end; bfin.
    + destruct k as [nk|]; injection Hs as <- <-; cbn [afterDec setT touch hs thr] in *; exists hd'; (split; [exact Hj|]); unfold BI; destruct hd' as [n [|] [|]];
      match goal with |- context [lupd _ _ ?y] => bsums Et y j end; bfin.
  - destruct a; try discriminate. destruct (nth_error (hs c) h) as [hd0|] eqn:Eh; [|discriminate].
    pose proof (tsum_ge (fFree h) _ _ _ Et) as Hz. cbn in Hz. unfold eq1 in Hz. rewrite Nat.eqb_refl in Hz.
    destruct k as [nk|]; cbn [afterDec] in Hs; injection Hs as <- <-; cbn [setT setH touch hs thr] in *; apply (Up _ _ _ _ Eh Hj); destruct (Nat.eqb_spec j h) as [->|Nj];
      unfold BI; [destruct hd0 as [n [|] [|]]|destruct hd' as [n [|] [|]]|destruct hd0 as [n [|] [|]]|destruct hd' as [n [|] [|]]];
      match goal with |- context [tsum (fUse ?q) (lupd _ _ ?y)] => bsums Et y q end; bfin.
  - destruct a; try discriminate. destruct (nth_error (hs c) nh) as [hd0|] eqn:Eh; [|discriminate]. injection Hs as <- <-. cbn [setT setH touch hs thr] in *.
    apply (Up _ _ _ _ Eh Hj); destruct (Nat.eqb_spec j nh) as [->|Nj]; unfold BI; [destruct hd0 as [n [|] [|]]|destruct hd' as [n [|] [|]]];
      match goal with |- context [tsum (fUse ?q) (lupd _ _ ?y)] => bsums Et y q end; bfin.
Qed.

(* ---- blocks that threads refer to ---- *)
Definition inRange (c : manager) : Prop :=
  active c < length (hs c) /\ forall t x h, nth_error (thr c) t = Some x -> refersTo x h -> h < length (hs c).
Lemma hs_length_le t a c c' evs : rstep t a c = Some (c', evs) -> length (hs c) <= length (hs c').
Proof.
  intros Hs. unfold rstep, afterDec in Hs. destruct (nth_error (thr c) t) as [x|]; [|discriminate].
  destruct x; destruct a; try discriminate; brk Hs; injection Hs as <- <-; cbn; rewrite ?length_lupd, ?app_length; cbn; lia.
Qed.
Lemma counter_in c a hd h : nth_error (hs c) a = Some hd -> inCounter (counterOf a hd) h -> h < length (hs c).
Proof. intros E. unfold inCounter, counterOf. cbn. destruct (self hd); [|discriminate]. intros X. injection X as <-. apply nth_error_Some. congruence. Qed.
Lemma range_step t a c c' evs : inRange c -> (forall h, a = CallRelease h -> h < length (hs c)) -> (forall fin b, nth_error (thr c) t = Some (RepRead fin b) -> a <> Continue) ->
  rstep t a c = Some (c', evs) -> inRange c' /\ forall e, In e evs -> blockOf e < length (hs c).
Proof.
  intros (Ra & Rt) Hr Hn Hs. destruct (hs_length _ _ _ _ _ Hn Hs) as (El & _).
  assert (forall y, thr c' = lupd (thr c) t y -> active c' < length (hs c) -> (forall h, refersTo y h -> h < length (hs c)) -> inRange c') as K.
  { intros y Ey Ha Hy. split; rewrite El; auto. intros s x h Hx Hh. rewrite Ey, nth_lupd in Hx. destruct (Nat.eqb_spec s t) as [->|Ne]; [|eauto].
    destruct (nth_error (thr c) t); [injection Hx as <-; auto|discriminate]. }
  unfold rstep, afterDec in Hs. destruct (nth_error (thr c) t) as [x|] eqn:Et; [|discriminate]. pose proof (fun h => Rt t x h Et) as Rx.
  destruct x; destruct a; try discriminate; try (destruct (Hn _ _ eq_refl eq_refl); fail); brk Hs; injection Hs as <- <-; cbn [refersTo inFor] in Rx.
  all: split; [eapply K; [reflexivity|cbn; auto; try (apply Rx; auto; fail)|intros q Hq; cbn [refersTo inFor] in Hq]|intros e Hi; cbn in Hi].
  all: try contradiction; try (repeat (destruct Hi as [<-|Hi]); try contradiction; cbn [blockOf]; auto; try lia; try (apply Rx; auto; fail)).
  all: try (repeat (destruct Hq as [Hq|Hq]); try contradiction; subst; auto; try (apply Rx; auto; fail); try (eapply counter_in; eauto; fail)).
  all: try discriminate Hq; injection Hq as <-; apply Rx; auto.
Qed.

(* ---- the counts of the resources ---- *)
Record AI (tr : list (event * nat)) (m : rmanager) (home : list nat) : Prop := {
  a_len : length home = made m;
  a_res : length (res m) = length (hs (core m));
  a_in : inRange (core m);
  a_cur : forall h, h < length (hs (core m)) -> nth_error home (resOf m h) = Some h;
  a_old : forall r h, nth_error home r = Some h -> h < length (hs (core m)) /\
    (resOf m h = r \/ count (isRel r) (view tr) = count (isGot r) (view tr) /\ count (isFreed r) (view tr) = 1);
  a_ev : forall t h r, In (Got t h, r) tr \/ In (RelBegin t h, r) tr -> nth_error home r = Some h;
  a_none : forall r, made m <= r -> count (isGot r) (view tr) = 0 /\ count (isRel r) (view tr) = 0 /\ count (isFreed r) (view tr) = 0 /\ count (isHFreed r) (view tr) = 0;
  a_h : forall j hd, nth_error (hs (core m)) j = Some hd ->
    BI (count (isGot (resOf m j)) (view tr)) (count (isRel (resOf m j)) (view tr)) (count (isFreed (resOf m j)) (view tr)) (count (isHFreed (resOf m j)) (view tr)) (thr (core m)) j hd }.

(* events as blocks and as resources *)
Lemma counts_note m home n evs r : (forall h, h < n -> nth_error home (resOf m h) = Some h) -> (forall e, In e evs -> blockOf e < n) ->
  (forall j, j < n -> resOf m j = r -> count (isGot r) (view (note m evs)) = count (isGot j) evs /\ count (isRel r) (view (note m evs)) = count (isRel j) evs /\
    count (isFreed r) (view (note m evs)) = count (isFreed j) evs /\ count (isHFreed r) (view (note m evs)) = count (isHFreed j) evs) /\
  ((forall j, j < n -> resOf m j <> r) -> count (isGot r) (view (note m evs)) = 0 /\ count (isRel r) (view (note m evs)) = 0 /\
    count (isFreed r) (view (note m evs)) = 0 /\ count (isHFreed r) (view (note m evs)) = 0).
Proof.
  intros Hc. induction evs as [|e evs IH]; intros Hb; [split; intros; repeat split; reflexivity|].
  destruct IH as (I1 & I2); [intros; apply Hb; right; auto|]. pose proof (Hb e (or_introl eq_refl)) as Be.
  unfold view, note in *. cbn [map]. split.
  - intros j Lj Ej. destruct (I1 j Lj Ej) as (A & B & C & D). rewrite !count_cons, A, B, C, D.
    assert (forall h, h < n -> Nat.eqb (resOf m h) r = Nat.eqb h j) as Eq.
    { intros h Lh. destruct (Nat.eqb_spec h j) as [->|Ne]; [now apply Nat.eqb_eq|]. apply Nat.eqb_neq. intros X. apply Ne. pose proof (Hc h Lh). pose proof (Hc j Lj). congruence. }
    destruct e; cbn [blockOf] in Be; cbn; rewrite ?Eq by auto; auto.
  - intros Nr. destruct (I2 Nr) as (A & B & C & D). rewrite !count_cons, A, B, C, D.
    destruct e; cbn [blockOf] in Be; cbn; auto; try (rewrite (proj2 (Nat.eqb_neq (resOf m h) r)) by auto; auto).
Qed.
Lemma count_view_app f a b : count f (view (a ++ b)) = count f (view a) + count f (view b).
Proof. unfold view. rewrite map_app. apply count_app. Qed.

Lemma ai_core tr m home t a c' evs : AI tr m home -> rstep t a (core m) = Some (c', evs) ->
  (forall fin b, nth_error (thr (core m)) t = Some (RepRead fin b) -> a <> Continue) ->
  (forall h, a = CallRelease h -> h < length (hs (core m)) /\ count (isRel (resOf m h)) (view tr) < count (isGot (resOf m h)) (view tr)) ->
  AI (note m evs ++ tr) (mkR c' (res m) (made m)) home.
Proof.
  intros A Hs Hn Hr. destruct (hs_length _ _ _ _ _ Hn Hs) as (El & _).
  destruct (range_step t a (core m) c' evs (a_in _ _ _ A) (fun h E => proj1 (Hr h E)) Hn Hs) as (Ri & Re).
  pose proof (fun r => counts_note m home _ evs r (a_cur _ _ _ A) Re) as CN.
  split; cbn [made core res]; rewrite ?El.
  - apply (a_len _ _ _ A).
  - apply (a_res _ _ _ A).
  - exact Ri.
  - apply (a_cur _ _ _ A).
  - intros r h H. destruct (a_old _ _ _ A _ _ H) as (L & Ho). split; auto. change (resOf _ h) with (resOf m h). destruct (Nat.eq_dec (resOf m h) r) as [|Ne]; [auto|]. right. destruct Ho as [|(B & C)]; [contradiction|].
    rewrite !count_view_app. destruct (proj2 (CN r)) as (X1 & X2 & X3 & X4); [|lia].
    intros j Lj Ej. pose proof (a_cur _ _ _ A j Lj) as Y. rewrite Ej, H in Y. injection Y as <-. contradiction.
  - intros s h r H. assert ((In (Got s h, r) (note m evs) \/ In (RelBegin s h, r) (note m evs)) \/ (In (Got s h, r) tr \/ In (RelBegin s h, r) tr)) as [K|K].
    { destruct H as [H|H]; apply in_app_iff in H; tauto. }
    + unfold note in K. destruct K as [K|K]; apply in_map_iff in K; destruct K as (e & X & Hi); injection X as -> <-; apply (a_cur _ _ _ A); exact (Re _ Hi).
    + exact (a_ev _ _ _ A s h r K).
  - intros r Lr. rewrite !count_view_app. destruct (a_none _ _ _ A r Lr) as (B1 & B2 & B3 & B4). destruct (proj2 (CN r)) as (X1 & X2 & X3 & X4); [|lia].
    intros j Lj Ej. pose proof (a_cur _ _ _ A j Lj) as Y. rewrite Ej in Y. assert (r < length home) by (apply nth_error_Some; congruence). rewrite (a_len _ _ _ A) in *. lia.
  - intros j hd' Hj. change (resOf _ j) with (resOf m j). assert (j < length (hs (core m))) as Lj by (rewrite <- El; apply nth_error_Some; congruence).
    rewrite !count_view_app. destruct (proj1 (CN (resOf m j)) j Lj eq_refl) as (X1 & X2 & X3 & X4). rewrite X1, X2, X3, X4.
    destruct (core_step t a (core m) c' evs j hd' (count (isGot (resOf m j)) (view tr)) (count (isRel (resOf m j)) (view tr)) (count (isFreed (resOf m j)) (view tr)) (count (isHFreed (resOf m j)) (view tr)) Hs Hn) as (hd & E & K); auto.
    + intros h -> ->. apply (proj2 (Hr j eq_refl)).
    + apply K. apply (a_h _ _ _ A _ _ E).
Qed.

Lemma fUse_ref x h : fUse h x > 0 -> refersTo x h.
Proof.
  destruct x as [| | | |[|]|[|]|[|]|[|]| | | | | | |]; cbn; unfold eq1; try lia;
  repeat match goal with |- context [Nat.eqb ?a ?b] => destruct (Nat.eqb_spec a b) end; intros; subst; auto; lia.
Qed.
Lemma fFree_ref x h : fFree h x > 0 -> refersTo x h.
Proof.
  destruct x as [| | | |[|]|[|]|[|]|[|]| | | | | | |]; cbn; unfold eq1; try lia;
  repeat match goal with |- context [Nat.eqb ?a ?b] => destruct (Nat.eqb_spec a b) end; intros; subst; auto; lia.
Qed.
Lemma tsum_none f th : (forall t x, nth_error th t = Some x -> f x = 0) -> tsum f th = 0.
Proof. intros H. unfold tsum. induction th as [|x th IH]; [reflexivity|]. cbn. fold (list_sum (map f th)). rewrite (H 0 x eq_refl), IH; auto. intros t y E. exact (H (Datatypes.S t) y E). Qed.

Lemma hf_view r tr : 1 <= count (isHFreed r) (view tr) -> exists h, In (HandleFreed h) (map fst tr).
Proof.
  intros H. destruct (sum_pos (isHFreed r) (view tr)) as (e & Hi & Hp); [unfold count in H; lia|]. destruct e; cbn in Hp; try lia.
  unfold view in Hi. apply in_map_iff in Hi. destruct Hi as ((e, s) & E & Hi). destruct e; cbn in E; try discriminate. exists h0. apply in_map_iff. exists (HandleFreed h0, s). auto.
Qed.

Lemma ai_alloc tr m home t fin b hd p : AI tr m home -> QI (map fst tr) (core m) -> nth_error (thr (core m)) t = Some (RepRead fin b) -> freeBlock m p = true ->
  AI ((Created p, made m) :: tr)
     (mkR (setT t (Inc (ForReplace p fin)) (touch hd (mkM (put (hs (core m)) p (mkH 0 true true)) (active (core m)) (touched (core m)) (thr (core m))))) (put (res m) p (made m)) (S (made m))) (home ++ [p]).
Proof.
  intros A Q Et Ef. pose proof (a_len _ _ _ A) as Al. pose proof (a_res _ _ _ A) as Ar.
  assert (p <= length (hs (core m))) as Lp.
  { unfold freeBlock in Ef. destruct (nth_error (hs (core m)) p) as [y|] eqn:Ey; [|apply Nat.eqb_eq in Ef; lia]. assert (p < length (hs (core m))) by (apply nth_error_Some; congruence). lia. }
  (* nothing goes on in block p, and its resource is done with *)
  assert (tsum (fUse p) (thr (core m)) = 0 /\ tsum (fFree p) (thr (core m)) = 0 /\
    (p < length (hs (core m)) -> count (isRel (resOf m p)) (view tr) = count (isGot (resOf m p)) (view tr) /\ count (isFreed (resOf m p)) (view tr) = 1)) as (U & Fr & Old).
  { unfold freeBlock in Ef. destruct (nth_error (hs (core m)) p) as [y|] eqn:Ey.
    - pose proof (a_h _ _ _ A _ _ Ey) as (B1 & B2 & B3). destruct (alive y); [discriminate|]. destruct B3 as [B3|B3].
      + destruct (self y); [lia|]. destruct B2 as (C1 & C2 & C3). split; [auto|]. split; [lia|]. intros _. split; [auto|]. lia.
      + exfalso. destruct (hf_view _ _ B3) as (h & Hi). pose proof (q_done _ _ _ _ _ Q Hi Et) as X. discriminate.
    - apply Nat.eqb_eq in Ef. subst p. split; [|split; [|lia]]; apply tsum_none; intros s x Hx.
      + destruct (Nat.eq_dec (fUse (length (hs (core m))) x) 0) as [|Ne]; auto. assert (fUse (length (hs (core m))) x > 0) as G by lia. pose proof (proj2 (a_in _ _ _ A) _ _ _ Hx (fUse_ref _ _ G)). lia.
      + destruct (Nat.eq_dec (fFree (length (hs (core m))) x) 0) as [|Ne]; auto. assert (fFree (length (hs (core m))) x > 0) as G by lia. pose proof (proj2 (a_in _ _ _ A) _ _ _ Hx (fFree_ref _ _ G)). lia. }
  assert (forall k, resOf (mkR (setT t (Inc (ForReplace p fin)) (touch hd (mkM (put (hs (core m)) p (mkH 0 true true)) (active (core m)) (touched (core m)) (thr (core m))))) (put (res m) p (made m)) (S (made m))) k =
      if Nat.eqb k p then made m else resOf m k) as Rp by (intros k; apply (at_put (res m) p (made m) k); lia).
  assert (forall f, f (Created (made m)) = 0 -> count f (view ((Created p, made m) :: tr)) = count f (view tr)) as Cv by (intros f E; unfold view; cbn [map]; rewrite count_cons; change (byResource (Created p, made m)) with (Created (made m)); rewrite E; reflexivity).
  assert (length (hs (core m)) <= length (put (hs (core m)) p (mkH 0 true true)) /\ p < length (put (hs (core m)) p (mkH 0 true true))) as (Lg & Lq).
  { unfold put. destruct (Nat.ltb_spec p (length (hs (core m)))); rewrite ?length_lupd, ?app_length; cbn; lia. }
  assert (forall k, k < length (put (hs (core m)) p (mkH 0 true true)) -> k = p \/ k < length (hs (core m))) as Lk.
  { intros k. unfold put. destruct (Nat.ltb_spec p (length (hs (core m)))); rewrite ?length_lupd, ?app_length; cbn; lia. }
  split; cbn [made core setT touch hs active thr res].
  - rewrite app_length. cbn. lia.
  - unfold put. rewrite Ar. destruct (Nat.ltb p (length (hs (core m)))); rewrite ?length_lupd, ?app_length; cbn; lia.
  - split; cbn [setT touch hs active thr].
    + pose proof (proj1 (a_in _ _ _ A)). lia.
    + intros s x h Hx Hh. rewrite nth_lupd in Hx. destruct (Nat.eqb_spec s t) as [->|Ne].
      * rewrite Et in Hx. injection Hx as <-. cbn in Hh. subst h. exact Lq.
      * pose proof (proj2 (a_in _ _ _ A) _ _ _ Hx Hh). lia.
  - intros h Lh. rewrite Rp. destruct (Nat.eqb_spec h p) as [->|Ne].
    + rewrite nth_error_app2 by lia. rewrite Al, Nat.sub_diag. reflexivity.
    + destruct (Lk _ Lh) as [|L]; [contradiction|]. pose proof (a_cur _ _ _ A h L) as X. rewrite nth_error_app1; [exact X|]. apply nth_error_Some. congruence.
  - intros r h H. rewrite Rp, !Cv by reflexivity. destruct (Nat.lt_ge_cases r (length home)) as [Lr|Gr].
    + rewrite nth_error_app1 in H by auto. destruct (a_old _ _ _ A _ _ H) as (B & C). split; [lia|]. destruct (Nat.eqb_spec h p) as [->|]; auto.
      destruct C as [<-|C]; auto.
    + rewrite nth_error_app2 in H by auto. destruct (r - length home) as [|d] eqn:Er; [|destruct d; discriminate]. injection H as <-. split; [auto|]. rewrite Nat.eqb_refl. left. lia.
  - intros s h r H. assert (nth_error home r = Some h) as X. { apply (a_ev _ _ _ A s). destruct H as [[X|H]|[X|H]]; try discriminate X; auto. }
    rewrite nth_error_app1; auto. apply nth_error_Some. congruence.
  - intros r Lr. rewrite !Cv by reflexivity. apply (a_none _ _ _ A). lia.
  - intros j hd' Hj. rewrite Rp, !Cv by reflexivity. destruct (Nat.eqb_spec j p) as [->|Ne].
    + rewrite (put_same (hs (core m)) p (mkH 0 true true)) in Hj by lia. injection Hj as <-. destruct (a_none _ _ _ A (made m) (le_n _)) as (-> & -> & -> & ->).
      pose proof (tsum_lupd (fUse p) _ _ _ (Inc (ForReplace p fin)) Et). pose proof (tsum_lupd (fFree p) _ _ _ (Inc (ForReplace p fin)) Et).
      unfold BI. cbn in *. lia.
    + rewrite put_other in Hj by auto. pose proof (a_h _ _ _ A _ _ Hj) as B.
      pose proof (tsum_lupd (fUse j) _ _ _ (Inc (ForReplace p fin)) Et). pose proof (tsum_lupd (fFree j) _ _ _ (Inc (ForReplace p fin)) Et).
      unfold BI in *. cbn in *. destruct (self hd'), (alive hd'); lia.
Qed.

Lemma fb_view t tr : In (FreeBegin t) (view tr) <-> In (FreeBegin t) (map fst tr).
Proof.
  unfold view. rewrite !in_map_iff. split; intros ((e, s) & E & Hi); destruct e; cbn in E; try discriminate; injection E as <-; exists (FreeBegin t0, s); auto.
Qed.
Lemma fst_note m evs : map fst (note m evs) = evs.
Proof. unfold note. rewrite map_map. cbn. apply map_id. Qed.

Lemma any_step tr m home t a m' evs : AI tr m home -> QI (map fst tr) (core m) -> reuseUsed tr m a -> reuseStep t a m = Some (m', evs) ->
  (exists home', AI (evs ++ tr) m' home') /\ QI (map fst (evs ++ tr)) (core m').
Proof.
  intros A Q Hu Hs.
  assert (forall b, (forall h, b <> CallRelease h) -> (forall fin c, nth_error (thr (core m)) t = Some (RepRead fin c) -> b <> Continue) ->
    (b = CallReplace \/ b = CallFree -> wellUsed (map fst tr) (core m) b) -> lift m (rstep t b (core m)) = Some (m', evs) ->
    (exists home', AI (evs ++ tr) m' home') /\ QI (map fst (evs ++ tr)) (core m')) as HL.
  { intros b Nb Nc Hw Hb. unfold lift in Hb. destruct (rstep t b (core m)) as [(c', es)|] eqn:Es; [|discriminate]. injection Hb as <- <-. split.
    - exists home. eapply ai_core; eauto. intros h X. destruct (Nb h X).
    - rewrite map_app, fst_note. cbn [core]. destruct (rstep_goes _ _ _ _ _ Es) as (x & y & E1 & E2 & E3 & E4). eapply q_goes; eauto. }
  destruct a as [|h r| | |p]; cbn [reuseStep reuseUsed] in *.
  - apply (HL CallGet); auto; try discriminate. intros [X|X]; discriminate.
  - unfold holders in Hu. destruct (sum_pos (isGotAt h r) tr) as ((e, s) & Hi & Hp); [lia|]. destruct e; cbn in Hp; try lia.
    destruct (Nat.eqb_spec h0 h) as [->|], (Nat.eqb_spec s r) as [->|]; cbn in Hp; try lia.
    pose proof (a_ev _ _ _ A _ _ _ (or_introl Hi)) as Eh. destruct (counts_at home h r tr (a_ev _ _ _ A) Eh) as (C1 & C2).
    destruct (a_old _ _ _ A _ _ Eh) as (Lh & [Er|X]); [|lia].
    destruct (rstep t (CallRelease h) (core m)) as [(c', es)|] eqn:Es; [|discriminate]. injection Hs as <- <-.
    assert (es = [RelBegin t h]) as -> by (unfold rstep in Es; destruct (nth_error (thr (core m)) t) as [[]|]; try discriminate; injection Es as _ <-; reflexivity).
    split.
    + exists home. replace [(RelBegin t h, r)] with (note m [RelBegin t h]) by (unfold note; cbn; rewrite Er; reflexivity).
      eapply ai_core; eauto; [discriminate|]. intros k X. injection X as <-. rewrite Er. split; [auto|lia].
    + cbn [core]. destruct (rstep_goes _ _ _ _ _ Es) as (x & y & E1 & E2 & E3 & E4). apply (q_goes (map fst tr) (core m) t (CallRelease h) c' x y [RelBegin t h]); auto. intros [X|X]; discriminate.
  - apply (HL CallReplace); auto; try discriminate. intros _ s X. apply (Hu s). apply fb_view. auto.
  - apply (HL CallFree); auto; try discriminate. intros _. split; [intros s X; apply (proj1 Hu s), fb_view; auto|apply (proj2 Hu)].
  - destruct (nth_error (thr (core m)) t) as [x|] eqn:Et; [|unfold rstep in Hs; rewrite Et in Hs; discriminate].
    assert ((exists fin b, x = RepRead fin b) \/ (forall fin b, x <> RepRead fin b) /\ lift m (rstep t Continue (core m)) = Some (m', evs)) as [(fin & b & ->)|(Nx & Hl)].
    { destruct x; try (right; split; [discriminate|exact Hs]; fail). left. eauto. }
    2: { apply (HL Continue); [discriminate|intros fin c X; exfalso; injection X as X; exact (Nx _ _ X)|intros [X|X]; discriminate|exact Hl]. }
    destruct (nth_error (hs (core m)) b) as [hd|] eqn:Eb; [|discriminate]. destruct (freeBlock m p) eqn:Ef; [|discriminate]. injection Hs as <- <-. split.
    + exists (home ++ [p]). eapply ai_alloc; eauto.
    + apply (q_goes (map fst tr) (core m) t Continue _ (RepRead fin b) (Inc (ForReplace p fin)) [Created p]); auto; try (intros [X|X]; discriminate); try congruence.
      cbn. split; [destruct fin; auto|]. split; [destruct fin; cbn; lia|]. intros e [<-|[]]. reflexivity.
Qed.
Lemma any_exec W nt tr m : rexec W nt tr m -> (exists home, AI tr m home) /\ QI (map fst tr) (core m).
Proof.
  induction 1 as [|tr m t a m' evs He ((home & A) & Q) Hu Hw Hs]; [|eapply any_step; eauto].
  assert (forall f, f Idle = 0 -> tsum f (repeat Idle nt) = 0) as Z by (intros f E; apply tsum_none; intros t x Hx; apply nth_error_In, repeat_spec in Hx; subst; auto).
  split.
  - exists [0]. split; cbn.
    + reflexivity.
    + reflexivity.
    + split; cbn; [lia|]. intros t x h Hx. apply nth_error_In, repeat_spec in Hx. subst. cbn. tauto.
    + intros h Hh. assert (h = 0) as -> by lia. reflexivity.
    + intros [|r] h H; cbn in H; [injection H as <-; split; [lia|left; reflexivity]|destruct r; discriminate].
    + intros t h r [[X|[]]|[X|[]]]; discriminate.
    + intros r _. unfold count. cbn. auto.
    + intros [|j] hd Hj; cbn in Hj; [|destruct j; discriminate]. injection Hj as <-. pose proof (Z (fUse 0) eq_refl). pose proof (Z (fFree 0) eq_refl). unfold BI, count. cbn in *. lia.
  - split.
    + intros _. split; [exact (Z ff eq_refl)|reflexivity].
    + change (tsum ff (repeat Idle nt) + 0 <= 1). rewrite Z by reflexivity. lia.
    + intros (t & [X|[]]). discriminate.
Qed.
Lemma any_freed W nt tr m r : rexec W nt tr m -> timesFreed (view tr) r <= 1 /\ (timesFreed (view tr) r = 1 -> users (view tr) r = 0).
Proof.
  intros He. destruct (any_exec _ _ _ _ He) as ((home & A) & _). unfold timesFreed, users.
  destruct (nth_error home r) as [h|] eqn:E.
  - destruct (a_old _ _ _ A _ _ E) as (L & [<-|(B & C)]); [|lia]. destruct (nth_error (hs (core m)) h) as [hd|] eqn:Eh; [|apply nth_error_None in Eh; lia].
    destruct (a_h _ _ _ A _ _ Eh) as (B1 & B2 & _). destruct (self hd); lia.
  - apply nth_error_None in E. rewrite (a_len _ _ _ A) in E. destruct (a_none _ _ _ A _ E) as (A1 & A2 & A3 & A4). lia.
Qed.
