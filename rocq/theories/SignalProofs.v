(* Proofs about signals *)
From Verif Require Export SignalSpec.

Lemma put_len l : forall t x, length (put t x l) = length l.
Proof. induction l as [|y l IH]; intros [|t] x; cbn; auto. Qed.
Lemma put_nth l : forall t x u, nth_error (put t x l) u = if Nat.eqb t u then (if Nat.ltb t (length l) then Some x else None) else nth_error l u.
Proof.
  induction l as [|y l IH]; intros t x u; cbn [put length].
  - destruct (Nat.eqb_spec t u) as [->|]; [|destruct t; reflexivity]. destruct u; reflexivity.
  - destruct t as [|t]; destruct u as [|u]; cbn [nth_error Nat.eqb]; try reflexivity.
    change (S t <? S (length l)) with (t <? length l). apply IH.
Qed.
Lemma put_same l t x y : nth_error l t = Some y -> nth_error (put t x l) t = Some x.
Proof. intros E. rewrite put_nth, Nat.eqb_refl. assert (H : t < length l) by (apply nth_error_Some; congruence). apply Nat.ltb_lt in H. now rewrite H. Qed.
Lemma put_other l t u x : t <> u -> nth_error (put t x l) u = nth_error l u.
Proof. intros N. rewrite put_nth. apply Nat.eqb_neq in N. now rewrite N. Qed.

(* threads after a wake *)
Definition woke (woken : list nat) (l : list tstate) : list tstate := fold_right (fun t l => put t Relock l) l woken.
Lemma woke_len woken l : length (woke woken l) = length l.
Proof. induction woken as [|t w IH]; cbn; [reflexivity|]. now rewrite put_len. Qed.
Lemma woke_nth woken l u : nth_error (woke woken l) u = if existsb (Nat.eqb u) woken then (if Nat.ltb u (length l) then Some Relock else None) else nth_error l u.
Proof.
  induction woken as [|t w IH]; cbn [woke fold_right existsb]; [reflexivity|]. fold (woke w l). rewrite put_nth, woke_len, IH.
  destruct (Nat.eqb_spec t u) as [->|N]; [rewrite Nat.eqb_refl; reflexivity|]. destruct (Nat.eqb_spec u t); [congruence|]. reflexivity.
Qed.

Definition holds (x : tstate) : bool := match x with SetStore | SetSignal | SetUnlock | WaitTest | WaitStore | WaitUnlock => true | _ => false end.
(* goes to look at the flag, or wakes a thread that will *)
Definition looks (x : tstate) : bool := match x with SetSignal | WaitLock | WaitTest | Relock | WaitStore => true | _ => false end.

Record inv (tr : list event) (s : Signal) : Prop := {
  i_mutex : forall t x, nth_error (threads s) t = Some x -> (holds x = true <-> mutex s = Some t);
  i_range : forall t, mutex s = Some t -> t < length (threads s);
  i_store : forall t, nth_error (threads s) t = Some WaitStore -> wait s = false;
  i_set : wait s = false <-> isSet tr;
  i_wake : wait s = false -> forall t, nth_error (threads s) t = Some Sleep -> exists u x, nth_error (threads s) u = Some x /\ looks x = true }.

(* a thread moves from x to y: what is needed *)
Lemma move_mutex s t x y (m' : option nat) :
  nth_error (threads s) t = Some x -> (forall u z, nth_error (threads s) u = Some z -> (holds z = true <-> mutex s = Some u)) ->
  (m' = mutex s /\ holds x = holds y) \/ (mutex s = None /\ m' = Some t /\ holds y = true) \/ (holds x = true /\ m' = None /\ holds y = false) ->
  forall u z, nth_error (put t y (threads s)) u = Some z -> (holds z = true <-> m' = Some u).
Proof.
  intros E M C u z H. pose proof (M t x E) as Mt. destruct (Nat.eq_dec t u) as [<-|N].
  - rewrite (put_same _ _ _ _ E) in H. injection H as <-.
    destruct C as [(-> & Q)|[(Q1 & -> & Q2)|(Q1 & -> & Q2)]]; [rewrite <- Q; exact Mt| |]; rewrite Q2; split; congruence.
  - rewrite (put_other _ _ _ _ N) in H. specialize (M u z H).
    destruct C as [(-> & Q)|[(Q1 & -> & Q2)|(Q1 & -> & Q2)]]; [exact M| |].
    + rewrite Q1 in M. split; [intros A; apply M in A; discriminate|congruence].
    + apply Mt in Q1. rewrite Q1 in M. split; [intros A; apply M in A; congruence|discriminate].
Qed.
Lemma put_range l t y (m' m : option nat) x : nth_error l t = Some x -> (forall u, m = Some u -> u < length l) -> m' = m \/ m' = Some t \/ m' = None ->
  forall u, m' = Some u -> u < length (put t y l).
Proof. intros E R [->|[->| ->]] u H; rewrite put_len; [now apply R| |discriminate]. injection H as <-. apply nth_error_Some. congruence. Qed.

Lemma isSleep_nth l : existsb (fun x => isSleep (Some x)) l = true <-> exists t, nth_error l t = Some Sleep.
Proof.
  rewrite existsb_exists. split.
  - intros (x & I & E). apply In_nth_error in I. destruct I as (t & I). exists t. rewrite I. destruct x; cbn in E; congruence.
  - intros (t & E). exists Sleep. split; [now apply nth_error_In in E|reflexivity].
Qed.

Lemma step_inv tr s t a s' evs : inv tr s -> step t a s = Some (s', evs) -> inv (evs ++ tr) s'.
Proof.
  intros [M R S W K] E. unfold step in E. destruct (nth_error (threads s) t) as [x|] eqn:X; [|discriminate E].
  (* moves that keep the flag, do not leave a state that looks and do not sleep *)
  assert (Move : forall y m', (m' = mutex s /\ holds x = holds y) \/ (mutex s = None /\ m' = Some t /\ holds y = true) \/ (holds x = true /\ m' = None /\ holds y = false) ->
            (y = WaitStore -> wait s = false) -> (looks x = true -> looks y = true) -> y <> Sleep \/ wait s = true ->
            inv tr (mkSignal (wait s) m' (put t y (threads s)))).
  { intros y m' C ST L SL. constructor; cbn [threads mutex wait].
    - exact (move_mutex s t x y m' X M C).
    - apply (put_range _ _ _ m' (mutex s) x X R). destruct C as [(-> & _)|[(_ & -> & _)|(_ & -> & _)]]; auto.
    - intros u H. destruct (Nat.eq_dec t u) as [<-|N]; [rewrite (put_same _ _ _ _ X) in H; injection H as H; auto|rewrite (put_other _ _ _ _ N) in H; eauto].
    - exact W.
    - intros WF u H. destruct (Nat.eq_dec t u) as [<-|N].
      + rewrite (put_same _ _ _ _ X) in H. injection H as ->. destruct SL; congruence.
      + rewrite (put_other _ _ _ _ N) in H. destruct (K WF u H) as (v & z & V & LZ). destruct (Nat.eq_dec t v) as [<-|N'].
        * exists t, y. split; [apply (put_same _ _ _ _ X)|]. apply L. congruence.
        * exists v, z. rewrite put_other by exact N'. auto. }
  destruct x; destruct a as [| |woken|]; try discriminate E; try (destruct woken as [|w0 woken]; [|try discriminate E]).
  - (* CallSet *) injection E as <- <-. apply Move; cbn; auto; try discriminate. left. discriminate.
  - (* CallWait *) injection E as <- <-. apply Move; cbn; auto; try discriminate. left. discriminate.
  - (* SetLock *) unfold lock in E. destruct (mutex s) eqn:Q; [discriminate E|]. injection E as <- <-. apply Move; cbn; auto; try discriminate. left. discriminate.
  - (* SetStore *) injection E as <- <-. constructor; cbn [threads mutex wait app].
    + apply (move_mutex s t SetStore SetSignal (mutex s) X M). left. auto.
    + apply (put_range _ _ _ (mutex s) (mutex s) SetStore X R). auto.
    + reflexivity.
    + cbn. tauto.
    + intros _ u H. exists t, SetSignal. split; [apply (put_same _ _ _ _ X)|reflexivity].
  - (* SetSignal, none *) destruct (wakeable s []) eqn:Wk; [|discriminate E]. injection E as <- <-.
    unfold wakeable in Wk. cbn [forallb length Nat.eqb negb andb] in Wk. rewrite orb_false_r in Wk. apply negb_true_iff in Wk.
    unfold at_, wake. cbn. constructor; cbn [threads mutex wait app].
    + apply (move_mutex s t SetSignal SetUnlock (mutex s) X M). left. auto.
    + apply (put_range _ _ _ (mutex s) (mutex s) SetSignal X R). auto.
    + intros u H. destruct (Nat.eq_dec t u) as [<-|N]; [rewrite (put_same _ _ _ _ X) in H; discriminate|rewrite (put_other _ _ _ _ N) in H; eauto].
    + exact W.
    + intros _ u H. exfalso. destruct (Nat.eq_dec t u) as [<-|N]; [rewrite (put_same _ _ _ _ X) in H; discriminate|rewrite (put_other _ _ _ _ N) in H].
      assert (T : existsb (fun x => isSleep (Some x)) (threads s) = true) by (apply isSleep_nth; now exists u). congruence.
  - (* SetSignal, some *) destruct (wakeable s (w0 :: woken)) eqn:Wk; [|discriminate E]. injection E as <- <-.
    unfold wakeable in Wk. apply andb_prop in Wk. destruct Wk as (Wk & _). rewrite forallb_forall in Wk.
    unfold at_, wake. fold (woke (w0 :: woken) (threads s)). cbn [mutex threads wait].
    assert (Wn : forall u z, nth_error (woke (w0 :: woken) (threads s)) u = Some z -> nth_error (threads s) u = Some z \/ (z = Relock /\ nth_error (threads s) u = Some Sleep)).
    { intros u z H. rewrite woke_nth in H. destruct (existsb (Nat.eqb u) (w0 :: woken)) eqn:Ex; [|auto]. right.
      apply existsb_exists in Ex. destruct Ex as (v & I & Q). apply Nat.eqb_eq in Q. subst v. specialize (Wk u I). unfold sleeps in Wk.
      destruct (nth_error (threads s) u) as [[]|] eqn:Y; try discriminate Wk. destruct (u <? length (threads s)); [injection H as <-; auto|discriminate H]. }
    assert (Xw : nth_error (woke (w0 :: woken) (threads s)) t = Some SetSignal).
    { rewrite woke_nth. destruct (existsb (Nat.eqb t) (w0 :: woken)) eqn:Ex; [|exact X]. exfalso. apply existsb_exists in Ex. destruct Ex as (v & I & Q). apply Nat.eqb_eq in Q. subst v.
      specialize (Wk t I). unfold sleeps in Wk. rewrite X in Wk. discriminate. }
    assert (M' : forall u z, nth_error (woke (w0 :: woken) (threads s)) u = Some z -> (holds z = true <-> mutex s = Some u)).
    { intros u z H. destruct (Wn u z H) as [H'|(-> & H')]; [now apply M|]. exact (M u Sleep H'). }
    constructor; cbn [threads mutex wait app].
    + apply (move_mutex (mkSignal (wait s) (mutex s) (woke (w0 :: woken) (threads s))) t SetSignal SetUnlock (mutex s) Xw M'). left. auto.
    + intros u H. rewrite put_len, woke_len. auto.
    + intros u H. destruct (Nat.eq_dec t u) as [<-|N]; [rewrite (put_same _ _ _ _ Xw) in H; discriminate|rewrite (put_other _ _ _ _ N) in H].
      destruct (Wn _ _ H) as [H'|(Q & _)]; [eauto|discriminate].
    + exact W.
    + intros _ u H. exists w0, Relock. split; [|reflexivity]. assert (N : t <> w0).
      { intros <-. specialize (Wk t (or_introl eq_refl)). unfold sleeps in Wk. rewrite X in Wk. discriminate. }
      rewrite (put_other _ _ _ _ N), woke_nth. cbn [existsb]. rewrite Nat.eqb_refl. cbn [orb].
      specialize (Wk w0 (or_introl eq_refl)). unfold sleeps in Wk. destruct (nth_error (threads s) w0) eqn:Y; [|discriminate Wk].
      assert (L : w0 < length (threads s)) by (apply nth_error_Some; congruence). apply Nat.ltb_lt in L. now rewrite L.
  - (* SetUnlock *) injection E as <- <-. apply Move; cbn; auto; try discriminate. left. discriminate.
  - (* WaitLock *) unfold lock in E. destruct (mutex s) eqn:Q; [discriminate E|]. injection E as <- <-. apply Move; cbn; auto; try discriminate. left. discriminate.
  - (* WaitTest *) destruct (wait s) eqn:Q; injection E as <- <-.
    + unfold unlock; constructor; cbn [threads mutex wait app].
      * apply (move_mutex s t WaitTest Sleep None X M). right. right. auto.
      * apply (put_range _ _ _ None (mutex s) WaitTest X R). auto.
      * intros u H. destruct (Nat.eq_dec t u) as [<-|N]; [rewrite (put_same _ _ _ _ X) in H; discriminate|rewrite (put_other _ _ _ _ N) in H; specialize (S _ H); congruence].
      * rewrite Q. exact W.
      * rewrite Q. discriminate.
    + unfold at_. rewrite Q. apply Move; cbn; auto; try discriminate. left. discriminate.
  - (* Sleep *) injection E as <- <-. apply Move; cbn; auto; try discriminate. left. discriminate.
  - (* Relock *) unfold lock in E. destruct (mutex s) eqn:Q; [discriminate E|]. injection E as <- <-. apply Move; cbn; auto; try discriminate. left. discriminate.
  - (* WaitStore *) injection E as <- <-. constructor; cbn [threads mutex wait app].
    + apply (move_mutex s t WaitStore WaitUnlock (mutex s) X M). left. auto.
    + apply (put_range _ _ _ (mutex s) (mutex s) WaitStore X R). auto.
    + intros u H. exfalso. destruct (Nat.eq_dec t u) as [<-|N]; [rewrite (put_same _ _ _ _ X) in H; discriminate|rewrite (put_other _ _ _ _ N) in H].
      assert (A : mutex s = Some t) by now apply (M t WaitStore X). assert (B : mutex s = Some u) by now apply (M u WaitStore H). congruence.
    + cbn. split; [discriminate|tauto].
    + discriminate.
  - (* WaitUnlock *) injection E as <- <-. apply Move; cbn; auto; try discriminate. left. discriminate.
Qed.

Lemma exec_inv n tr s : exec n tr s -> inv tr s.
Proof.
  induction 1 as [|tr s t a s' evs H IH E]; [|eapply step_inv; eassumption]. unfold SignalCreate. constructor; cbn [threads mutex wait].
  - intros t x H. apply nth_error_In in H. apply repeat_spec in H. subst. cbn. split; discriminate.
  - discriminate.
  - intros t H. reflexivity.
  - cbn. tauto.
  - intros _ t H. apply nth_error_In in H. apply repeat_spec in H. discriminate.
Qed.

(* nothing can happen only if every thread is idle or sleeps *)
Lemma stuck_states tr s : inv tr s -> stuck s -> forall t x, nth_error (threads s) t = Some x -> x = Idle \/ x = Sleep.
Proof.
  intros [M R S W K] ST. assert (MN : mutex s = None).
  { destruct (mutex s) as [u|] eqn:Q; [|reflexivity]. exfalso. specialize (R u eq_refl).
    destruct (nth_error (threads s) u) as [y|] eqn:Y; [|apply nth_error_None in Y; lia]. assert (H : holds y = true) by (now apply (M u y Y)).
    destruct y; try discriminate H; pose proof (ST u []) as T; unfold step in T; rewrite Y in T; try discriminate T.
    - destruct (wakeable s []) eqn:Wk; [discriminate T|]. unfold wakeable in Wk. cbn [forallb length Nat.eqb negb andb] in Wk. rewrite orb_false_r in Wk. apply negb_false_iff in Wk.
      apply isSleep_nth in Wk. destruct Wk as (v & V). pose proof (ST u [v]) as T2. unfold step in T2. rewrite Y in T2.
      assert (Wv : wakeable s [v] = true). { unfold wakeable, sleeps. cbn. rewrite V. cbn. apply orb_true_r. } rewrite Wv in T2. discriminate.
    - destruct (wait s); discriminate T. }
  intros t x X. destruct x; auto; exfalso; pose proof (ST t []) as T; unfold step in T; rewrite X in T; try discriminate T; unfold lock in T; try rewrite MN in T; try discriminate T.
  - assert (H : mutex s = Some t) by now apply (M t SetSignal X). congruence.
  - destruct (wait s); discriminate T.
Qed.

Lemma not_lost tr s : inv tr s -> stuck s -> isSet tr -> forall t, ~ waiting s t.
Proof.
  intros I ST IS t W. unfold waiting in W. destruct (nth_error (threads s) t) as [x|] eqn:X; [|exact W].
  destruct (stuck_states _ _ I ST t x X) as [-> | ->]; [exact W|]. pose proof (proj2 (i_set _ _ I) IS) as WF.
  destruct (i_wake _ _ I WF t X) as (u & y & Y & L). destruct (stuck_states _ _ I ST u y Y) as [-> | ->]; discriminate L.
Qed.

(* the number of steps left *)
Definition weight (n : nat) (x : tstate) : nat :=
  match x with
  | Idle | Sleep => 0
  | SetLock => 4 + 4 * n | SetStore => 3 + 4 * n | SetSignal => 2 + 4 * n | SetUnlock => 1
  | WaitLock | Relock => 4 | WaitTest => 3 | WaitStore => 2 | WaitUnlock => 1
  end.
Definition steps (s : Signal) : nat := list_sum (map (weight (length (threads s))) (threads s)).
Lemma put_sum n l : forall t x y, nth_error l t = Some x -> list_sum (map (weight n) (put t y l)) + weight n x = list_sum (map (weight n) l) + weight n y.
Proof.
  induction l as [|z l IH]; intros [|t] x y E; cbn in E; try discriminate E; cbn [put map].
  - injection E as ->. unfold list_sum. cbn [fold_right]. lia.
  - specialize (IH t x y E). unfold list_sum in *. cbn [fold_right]. lia.
Qed.
Lemma woke_sum n woken l : list_sum (map (weight n) (woke woken l)) <= list_sum (map (weight n) l) + 4 * length l.
Proof.
  assert (H : Forall2 (fun a b => b = a \/ b = Relock) l (woke woken l)).
  { induction woken as [|t w IH]; cbn [woke fold_right].
    - clear. induction l; constructor; auto.
    - fold (woke w l). revert IH. generalize (woke w l). clear. intros l' F. revert t. induction F as [|a b l l' H F IH]; intros t; [destruct t; constructor|].
      destruct t as [|t]; cbn; constructor; auto. }
  induction H as [|a b l l' H F IH]; unfold list_sum in *; cbn [map fold_right length]; [lia|].
  destruct H as [-> | ->]; [lia|]. cbn [weight]. lia.
Qed.
Lemma step_weight s t woken s' evs : step t (Continue woken) s = Some (s', evs) -> steps s' < steps s.
Proof.
  intros E. unfold step in E. destruct (nth_error (threads s) t) as [x|] eqn:X; [|discriminate E].
  pose proof (put_sum (length (threads s)) (threads s) t x) as P.
  unfold steps.
  destruct x; try discriminate E; try (destruct woken as [|w0 woken]; [|discriminate E]); try (unfold lock in E; destruct (mutex s); [discriminate E|]).
  1,2,4,5,7,8,9: injection E as <- <-; unfold at_, unlock; cbn [threads]; rewrite put_len; specialize (fun y => P y X); match goal with |- context [put _ ?y _] => specialize (P y) end; cbn [weight] in P; lia.
  - destruct (wakeable s woken) eqn:Wk; [|discriminate E]. injection E as <- <-. unfold at_, wake. cbn [threads]. fold (woke woken (threads s)). rewrite put_len, woke_len.
    unfold wakeable in Wk. apply andb_prop in Wk. destruct Wk as (Wk & _). rewrite forallb_forall in Wk.
    assert (Xw : nth_error (woke woken (threads s)) t = Some SetSignal).
    { rewrite woke_nth. destruct (existsb (Nat.eqb t) woken) eqn:Ex; [|exact X]. exfalso. apply existsb_exists in Ex. destruct Ex as (v & I & Q). apply Nat.eqb_eq in Q. subst v.
      specialize (Wk t I). unfold sleeps in Wk. rewrite X in Wk. discriminate. }
    pose proof (put_sum (length (threads s)) _ t _ SetUnlock Xw) as P'. pose proof (woke_sum (length (threads s)) woken (threads s)) as Q. cbn [weight] in P'. lia.
  - destruct (wait s); injection E as <- <-; unfold at_, unlock; cbn [threads]; rewrite put_len; specialize (fun y => P y X); match goal with |- context [put _ ?y _] => specialize (P y) end; cbn [weight] in P; lia.
Qed.
Lemma goes_bound k s tr s' : goesOn k s tr s' -> k <= steps s.
Proof. induction 1 as [|k s t woken s1 evs tr s2 E H IH]; [lia|]. apply step_weight in E. lia. Qed.

(* a thread waits until its wait returns *)
Lemma step_waiting s t a s' evs u : step t a s = Some (s', evs) -> waiting s u -> waiting s' u \/ In (Returned u) evs.
Proof.
  intros E W. unfold step in E. destruct (nth_error (threads s) t) as [x|] eqn:X; [|discriminate E]. unfold waiting in W.
  destruct (nth_error (threads s) u) as [y|] eqn:Y; [|contradiction].
  assert (Mv : forall w m' z, (forall y', y' = z -> t = u -> match y' with WaitLock | WaitTest | Sleep | Relock | WaitStore => True | _ => False end) -> waiting (mkSignal w m' (put t z (threads s))) u).
  { intros w m' z H. unfold waiting. cbn [threads]. destruct (Nat.eq_dec t u) as [<-|N]; [rewrite (put_same _ _ _ _ X); apply (H z); reflexivity|rewrite (put_other _ _ _ _ N), Y; exact W]. }
  assert (No : match x with WaitLock | WaitTest | Sleep | Relock | WaitStore => False | _ => t <> u end \/ match x with WaitLock | WaitTest | Sleep | Relock | WaitStore => True | _ => False end).
  { destruct x; auto; left; intros <-; rewrite X in Y; injection Y as <-; exact W. }
  destruct x; destruct a as [| |woken|]; try discriminate E; try (destruct woken as [|w0 woken]; [|try discriminate E]);
    try (unfold lock in E; destruct (mutex s); [discriminate E|]).
  1,2,3,4,7,8,10,11,13: injection E as <- <-; left; apply Mv; intros y' -> Q; destruct No as [No|No]; try contradiction; exact I.
  - destruct (wakeable s []) eqn:Wk; [|discriminate E]. injection E as <- <-. left. unfold at_, wake. cbn. apply Mv. intros y' -> Q. destruct No; contradiction.
  - destruct (wakeable s (w0 :: woken)) eqn:Wk; [|discriminate E]. injection E as <- <-. left. unfold at_, wake, waiting. cbn [threads wait mutex]. fold (woke (w0 :: woken) (threads s)).
    destruct No as [No|No]; [|contradiction]. rewrite (put_other _ _ _ _ No), woke_nth. destruct (existsb (Nat.eqb u) (w0 :: woken)); [|now rewrite Y].
    assert (L : u < length (threads s)) by (apply nth_error_Some; congruence). apply Nat.ltb_lt in L. now rewrite L.
  - destruct (wait s); injection E as <- <-; left; apply Mv; intros y' -> Q; exact I.
  - injection E as <- <-. destruct (Nat.eq_dec t u) as [<-|N]; [right; now left|]. left. apply Mv. intros y' -> Q. contradiction.
Qed.
Lemma step_returned s t a s' evs u : step t a s = Some (s', evs) -> In (Returned u) evs -> u = t /\ nth_error (threads s) t = Some WaitStore /\ evs = [Returned t].
Proof.
  intros E I. unfold step in E. destruct (nth_error (threads s) t) as [x|] eqn:X; [|discriminate E].
  destruct x; destruct a as [| |woken|]; try discriminate E; try (destruct woken as [|w0 woken]; [|try discriminate E]); unfold lock in E;
    repeat match type of E with context [match ?c with _ => _ end] => destruct c; try discriminate E end; injection E as <- <-; cbn in I; try contradiction I; destruct I as [I|[]]; try discriminate I.
  injection I as <-. auto.
Qed.
Lemma step_new_waiting s t woken s' evs u : step t (Continue woken) s = Some (s', evs) -> waiting s' u -> waiting s u.
Proof.
  intros E W. unfold step in E. destruct (nth_error (threads s) t) as [x|] eqn:X; [|discriminate E]. unfold waiting in *.
  assert (Mv : forall z, match nth_error (put t z (threads s)) u with Some (WaitLock | WaitTest | Sleep | Relock | WaitStore) => True | _ => False end ->
     (match z with WaitLock | WaitTest | Sleep | Relock | WaitStore => True | _ => False end -> match x with WaitLock | WaitTest | Sleep | Relock | WaitStore => True | _ => False end) ->
     match nth_error (threads s) u with Some (WaitLock | WaitTest | Sleep | Relock | WaitStore) => True | _ => False end).
  { intros z H C. destruct (Nat.eq_dec t u) as [<-|N]; [rewrite (put_same _ _ _ _ X) in H; rewrite X; exact (C H)|now rewrite (put_other _ _ _ _ N) in H]. }
  destruct x; try discriminate E; try (destruct woken as [|w0 woken]; [|discriminate E]); try (unfold lock in E; destruct (mutex s); [discriminate E|]).
  1,2,4,5,7,8,9: injection E as <- <-; unfold at_, unlock in W; cbn [threads] in W; eapply Mv; [exact W|tauto].
  - destruct (wakeable s woken) eqn:Wk; [|discriminate E]. injection E as <- <-. unfold at_, wake in W. cbn [threads] in W. fold (woke woken (threads s)) in W.
    unfold wakeable in Wk. apply andb_prop in Wk. destruct Wk as (Wk & _). rewrite forallb_forall in Wk.
    destruct (Nat.eq_dec t u) as [<-|N].
    + rewrite put_nth, Nat.eqb_refl in W. destruct (t <? length (woke woken (threads s))); exact W || contradiction.
    + rewrite (put_other _ _ _ _ N), woke_nth in W. destruct (existsb (Nat.eqb u) woken) eqn:Ex; [|exact W].
      apply existsb_exists in Ex. destruct Ex as (v & I & Q). apply Nat.eqb_eq in Q. subst v. specialize (Wk u I). unfold sleeps in Wk. destruct (nth_error (threads s) u) as [[]|]; try discriminate Wk. exact Logic.I.
  - destruct (wait s); injection E as <- <-; unfold at_, unlock in W; cbn [threads] in W; eapply Mv; try exact W; tauto.
Qed.

Lemma goes_exec n tr0 k s tr s' : exec n tr0 s -> goesOn k s tr s' -> exec n (tr ++ tr0) s'.
Proof.
  intros H G. revert tr0 H. induction G as [|k s t woken s1 evs tr s2 E G IH]; intros tr0 H; [exact H|].
  rewrite <- app_assoc. apply IH. econstructor; eassumption.
Qed.
Lemma goes_waiting k s tr s' u : goesOn k s tr s' -> waiting s u -> waiting s' u \/ In (Returned u) tr.
Proof.
  induction 1 as [|k s t woken s1 evs tr s2 E G IH]; intros W; [auto|]. destruct (step_waiting _ _ _ _ _ _ E W) as [W'|I].
  - destruct (IH W') as [W2|I]; [auto|]. right. apply in_or_app. auto.
  - right. apply in_or_app. auto.
Qed.
Lemma goes_returned k s tr s' u : goesOn k s tr s' -> In (Returned u) tr -> waiting s u.
Proof.
  induction 1 as [|k s t woken s1 evs tr s2 E G IH]; intros I; [destruct I|]. apply in_app_or in I. destruct I as [I|I].
  - eapply step_new_waiting; eauto.
  - destruct (step_returned _ _ _ _ _ _ E I) as (-> & X & _). unfold waiting. now rewrite X.
Qed.
(* the threads can always go on until they are stuck *)
Lemma can_step s t : (exists woken s1 evs, step t (Continue woken) s = Some (s1, evs)) \/ forall woken, step t (Continue woken) s = None.
Proof.
  destruct (step t (Continue []) s) as [(s1, evs)|] eqn:E; [left; eauto|]. unfold step in *. destruct (nth_error (threads s) t) as [x|] eqn:X; [|auto].
  destruct x; try (right; intros [|]; exact E || reflexivity).
  left. destruct (wakeable s []) eqn:Wk; [discriminate E|]. unfold wakeable in Wk. cbn [forallb length Nat.eqb negb andb] in Wk. rewrite orb_false_r in Wk. apply negb_false_iff in Wk.
  apply isSleep_nth in Wk. destruct Wk as (v & V). exists [v].
  assert (Wv : wakeable s [v] = true). { unfold wakeable, sleeps. cbn. rewrite V. cbn. apply orb_true_r. } rewrite Wv. eauto.
Qed.
Lemma can_go s : (exists t woken s1 evs, step t (Continue woken) s = Some (s1, evs)) \/ stuck s.
Proof.
  assert (H : forall m, (exists t woken s1 evs, step t (Continue woken) s = Some (s1, evs)) \/ forall t, t < m -> forall woken, step t (Continue woken) s = None).
  { induction m as [|m [IH|IH]]; [right; lia|now left|]. destruct (can_step s m) as [C|C]; [left; eauto|]. right. intros t L. destruct (Nat.eq_dec t m) as [->|]; [exact C|apply IH; lia]. }
  destruct (H (length (threads s))) as [G|G]; [now left|]. right. intros t woken. destruct (Nat.lt_ge_cases t (length (threads s))) as [L|L]; [now apply G|].
  unfold step. apply nth_error_None in L. now rewrite L.
Qed.
Lemma goes_exists : forall w s, steps s <= w -> exists k tr s', goesOn k s tr s' /\ stuck s'.
Proof.
  induction w as [|w IH]; intros s L; destruct (can_go s) as [(t & woken & s1 & evs & E)|ST].
  - apply step_weight in E. lia.
  - exists 0, [], s. split; [constructor|exact ST].
  - pose proof (step_weight _ _ _ _ _ E). destruct (IH s1) as (k & tr & s' & G & ST); [lia|]. exists (S k), (tr ++ evs), s'. split; [econstructor; eassumption|exact ST].
  - exists 0, [], s. split; [constructor|exact ST].
Qed.

Lemma set_returns n tr0 s k tr s' u : exec n tr0 s -> isSet tr0 -> waiting s u -> goesOn k s tr s' -> stuck s' -> exists t, waiting s t /\ In (Returned t) tr.
Proof.
  intros H IS W G ST. destruct (existsb (fun e => match e with Returned _ => true | _ => false end) tr) eqn:Ex.
  - apply existsb_exists in Ex. destruct Ex as ([t|t] & I & Q); [discriminate Q|]. exists t. split; [eapply goes_returned; eassumption|exact I].
  - exfalso. assert (NR : forall t, ~ In (Returned t) tr).
    { intros t I. assert (T : existsb (fun e => match e with Returned _ => true | _ => false end) tr = true) by (apply existsb_exists; now exists (Returned t)). congruence. }
    destruct (goes_waiting _ _ _ _ _ G W) as [W'|I]; [|exact (NR _ I)].
    refine (not_lost (tr ++ tr0) s' (exec_inv _ _ _ (goes_exec _ _ _ _ _ _ H G)) ST _ u W').
    destruct tr as [|[t|t] tr]; cbn; auto. exact (NR t (or_introl eq_refl)).
Qed.

Lemma step_one s t a s' evs : step t a s = Some (s', evs) -> length evs <= 1.
Proof.
  intros E. unfold step in E. destruct (nth_error (threads s) t) as [x|] eqn:X; [|discriminate E].
  destruct x; destruct a as [| |woken|]; try discriminate E; try (destruct woken as [|w0 woken]; [|try discriminate E]); unfold lock in E;
    repeat match type of E with context [match ?c with _ => _ end] => destruct c; try discriminate E end; injection E as <- <-; cbn; lia.
Qed.
Lemma exec_returned n tr s : exec n tr s -> forall a t b, tr = a ++ Returned t :: b -> isSet b.
Proof.
  induction 1 as [|tr s t a s' evs H IH E]; intros l u b Q; [destruct l; discriminate Q|].
  destruct evs as [|e evs]; [eapply IH; exact Q|].
  assert (evs = []) by (apply step_one in E; destruct evs; [reflexivity|cbn in E; lia]).
  subst evs. destruct l as [|e' l]; cbn in Q; injection Q as -> Q; [|eapply IH; exact Q]. subst b.
  destruct (step_returned _ _ _ _ _ u E (or_introl eq_refl)) as (_ & X & _).
  pose proof (exec_inv _ _ _ H) as V. apply (i_set _ _ V). exact (i_store _ _ V _ X).
Qed.
