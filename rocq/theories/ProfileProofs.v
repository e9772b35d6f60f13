(* Proofs about profile.c. *)
From Verif Require Export ProfileSpec.
From Verif Require Import SearchProofs.

(* ---- low, in range, high ---- *)
Lemma nth_three {A} (a b c : list A) i x : nth_error (a ++ b ++ c) i = Some x ->
  (i < length a /\ In x a) \/ (length a <= i < length a + length b /\ In x b) \/ (length a + length b <= i /\ In x c).
Proof.
  intros H. destruct (Nat.lt_ge_cases i (length a)) as [L|L].
  - left. split; [exact L|]. rewrite nth_error_app1 in H by exact L. eapply nth_error_In, H.
  - right. rewrite nth_error_app2 in H by exact L. destruct (Nat.lt_ge_cases i (length a + length b)) as [M|M].
    + left. split; [lia|]. rewrite nth_error_app1 in H by lia. eapply nth_error_In, H.
    + right. split; [lia|]. rewrite nth_error_app2 in H by lia. eapply nth_error_In, H.
Qed.
Definition parts (property : Property) (vs lo mid hi : list Z) : Prop :=
  vs = lo ++ mid ++ hi /\ Forall (fun v => v < firstValueIndex property)%Z lo /\ Forall (fun v => inRange property v = true) mid /\
  Forall (fun v => firstValueIndex property <= v /\ lastValueIndex property < v)%Z hi.
Lemma sorted_parts property : forall vs, StronglySorted Z.le vs -> exists lo mid hi, parts property vs lo mid hi.
Proof.
  induction 1 as [|v vs S IH F]; [exists [], [], []; repeat split; constructor|]. destruct IH as (lo & mid & hi & E & Fl & Fm & Fh).
  destruct (Z.ltb_spec v (firstValueIndex property)) as [L|L].
  - exists (v :: lo), mid, hi. split; [now rewrite E|]. split; [now constructor|]. now split.
  - assert (lo = []) as ->.
    { destruct lo as [|w lo]; [reflexivity|]. exfalso. inversion Fl as [|? ? Fl1 Fl2]; subst. rewrite Forall_forall in F. specialize (F w ltac:(now left)). lia. }
    cbn [app] in E. destruct (Z.leb_spec v (lastValueIndex property)) as [M|M].
    + exists [], (v :: mid), hi. split; [now rewrite E|]. split; [constructor|]. split; [|exact Fh]. constructor; [|exact Fm]. unfold inRange. apply andb_true_iff. split; now apply Z.leb_le.
    + exists [], [], (v :: vs). split; [reflexivity|]. split; [constructor|]. split; [constructor|]. constructor; [lia|].
      rewrite Forall_forall in *. intros x X. specialize (F x X). lia.
Qed.
Lemma filter_none {A} (f : A -> bool) l : (forall x, In x l -> f x = false) -> filter f l = [].
Proof. induction l as [|x l IH]; intros H; [reflexivity|]. cbn. rewrite (H x ltac:(now left)). apply IH. intros y Y. apply H. now right. Qed.
Lemma filter_all {A} (f : A -> bool) l : (forall x, In x l -> f x = true) -> filter f l = l.
Proof. induction l as [|x l IH]; intros H; [reflexivity|]. cbn. rewrite (H x ltac:(now left)). f_equal. apply IH. intros y Y. apply H. now right. Qed.
Lemma parts_filter property vs lo mid hi : parts property vs lo mid hi -> filter (inRange property) vs = mid.
Proof.
  intros (-> & Fl & Fm & Fh). rewrite Forall_forall in *. rewrite !filter_app.
  rewrite (filter_none _ lo), (filter_all _ mid), (filter_none _ hi); [cbn; apply app_nil_r| | |].
  - intros x X. apply Fh in X. unfold inRange. destruct (Z.leb_spec x (lastValueIndex property)); [lia|]. apply andb_false_r.
  - intros x X. now apply Fm.
  - intros x X. apply Fl in X. unfold inRange. destruct (Z.leb_spec (firstValueIndex property) x); [lia|]. reflexivity.
Qed.
Lemma compare_low property v : (v < firstValueIndex property)%Z -> compareValueToProperty property v = 1%Z.
Proof. intros H. unfold compareValueToProperty. apply Z.ltb_lt in H. now rewrite H. Qed.
Lemma compare_in property v : inRange property v = true -> compareValueToProperty property v = 0%Z.
Proof.
  unfold inRange, compareValueToProperty. intros H. apply andb_true_iff in H. destruct H as (H1 & H2). apply Z.leb_le in H1, H2.
  destruct (Z.ltb_spec v (firstValueIndex property)); [lia|]. destruct (Z.ltb_spec (lastValueIndex property) v); [lia|]. reflexivity.
Qed.
Lemma compare_high property v : (firstValueIndex property <= v /\ lastValueIndex property < v)%Z -> compareValueToProperty property v = (-1)%Z.
Proof.
  intros H. unfold compareValueToProperty. destruct (Z.ltb_spec v (firstValueIndex property)); [lia|]. destruct (Z.ltb_spec (lastValueIndex property) v); [reflexivity|lia].
Qed.
Lemma bsearch_parts property vs lo mid hi : parts property vs lo mid hi -> forall fuel l u, l <= length lo -> length lo + length mid <= u -> u <= length vs -> u - l < fuel ->
  exists r, bsearch fuel (compareValueToProperty property) vs l u = Some r /\
    match r with None => mid = [] | Some i => length lo <= i < length lo + length mid end.
Proof.
  intros (E & Fl & Fm & Fh). rewrite Forall_forall in *.
  induction fuel as [|fuel IH]; intros l u Hl Hu Hn Hf; [lia|]. cbn [bsearch]. destruct (Nat.ltb_spec l u) as [L|L].
  2:{ exists None. split; [reflexivity|]. destruct mid; [reflexivity|cbn in Hu; lia]. }
  assert (D : l <= (l + u) / 2 < u).
  { split; [apply Nat.div_le_lower_bound; lia|apply Nat.div_lt_upper_bound; lia]. }
  set (idx := (l + u) / 2) in *. destruct (nth_error vs idx) as [x|] eqn:X; [|apply nth_error_None in X; lia].
  rewrite E in X. apply nth_three in X. destruct X as [(X & I)|[(X & I)|(X & I)]].
  - rewrite (compare_low property x (Fl x I)). cbn. destruct (IH (S idx) u) as (r & Er & Hr); eauto; lia.
  - rewrite (compare_in property x (Fm x I)). cbn. exists (Some idx). split; [reflexivity|lia].
  - rewrite (compare_high property x (Fh x I)). cbn. destruct (IH l idx) as (r & Er & Hr); eauto; lia.
Qed.
Lemma moveBack_parts property p lo mid hi : parts property (values p) lo mid hi -> forall i, length lo <= i <= length lo + length mid -> moveBack p property i = Some (length lo).
Proof.
  intros (E & Fl & Fm & Fh). rewrite Forall_forall in *.
  assert (LV : length (values p) = length lo + length mid + length hi) by (rewrite E, !app_length; lia).
  induction i as [|i IH]; intros H; cbn [moveBack]; [f_equal; lia|].
  unfold memory. rewrite nth_error_app1 by lia. destruct (nth_error (values p) i) as [v|] eqn:V; [|apply nth_error_None in V; lia].
  rewrite E in V. apply nth_three in V. destruct V as [(V & I)|[(V & I)|(V & I)]]; [| |lia].
  - apply Fl in I. destruct (Z.leb_spec (firstValueIndex property) v); [lia|]. f_equal. lia.
  - apply Fm in I. unfold inRange in I. apply andb_true_iff in I. rewrite (proj1 I). apply IH. lia.
Qed.
Lemma first_value property p lo mid hi : parts property (values p) lo mid hi ->
  getFirstValueForProfileAndProperty p property = Some (match mid with [] => None | _ => Some (length lo) end).
Proof.
  intros P. assert (LV : length (values p) = length lo + length mid + length hi) by (destruct P as (E & _); rewrite E, !app_length; lia).
  destruct (bsearch_parts _ _ _ _ _ P (S (length (values p))) 0 (length (values p))) as (r & Er & Hr); try lia.
  unfold getFirstValueForProfileAndProperty. rewrite Er. destruct r as [i|]; [|now rewrite Hr].
  rewrite (moveBack_parts _ _ _ _ _ P) by lia. destruct mid; [cbn in Hr; lia|reflexivity].
Qed.
(* the word at an index *)
Lemma memory_at property p lo m1 v m2 hi : parts property (values p) lo (m1 ++ v :: m2) hi -> nth_error (memory p) (length lo + length m1) = Some v /\
  length lo + length m1 < length (values p).
Proof.
  intros (E & _). unfold memory. rewrite E. split; [|rewrite !app_length; cbn; lia].
  rewrite <- !app_assoc. rewrite nth_error_app2 by lia. rewrite nth_error_app2 by lia. replace (length lo + length m1 - length lo - length m1) with 0 by lia. reflexivity.
Qed.
Lemma memory_end property p lo mid hi : parts property (values p) lo mid hi -> readable p property -> mid <> [] ->
  exists v, nth_error (memory p) (length lo + length mid) = Some v /\ Z.leb v (lastValueIndex property) && Nat.ltb (length lo + length mid) (length (values p)) = false.
Proof.
  intros (E & Fl & Fm & Fh) R N. destruct hi as [|h hi].
  - rewrite app_nil_r in E. assert (LV : length (values p) = length lo + length mid) by (rewrite E, !app_length; lia).
    rewrite LV, Nat.ltb_irrefl. unfold memory. rewrite nth_error_app2 by lia. rewrite LV, Nat.sub_diag.
    destruct (after p) as [|a af] eqn:A.
    + exfalso. destruct R as [R|R]; [congruence|]. destruct (exists_last N) as (m & v & ->). rewrite app_assoc in E. specialize (R _ _ E).
      rewrite Forall_forall in Fm. rewrite (Fm v) in R; [discriminate|]. apply in_or_app. right. now left.
    + exists a. split; [reflexivity|apply andb_false_r].
  - exists h. inversion Fh as [|? ? Hh _]; subst. split.
    + unfold memory. rewrite E. rewrite <- !app_assoc. rewrite nth_error_app2 by lia. rewrite nth_error_app2 by lia. replace (length lo + length mid - length lo - length mid) with 0 by lia. reflexivity.
    + destruct (Z.leb_spec h (lastValueIndex property)); [lia|reflexivity].
Qed.
Definition upToFalseFrom {A} (callback : list A -> bool) (h items new : list A) : Prop :=
  exists rest, items = new ++ rest /\ (forall a b x, new = a ++ x :: b -> b <> [] -> callback (h ++ a ++ [x]) = true) /\
    (rest = [] \/ (new <> [] /\ callback (h ++ new) = false)).
Lemma valuesLoop_parts {A} (get : Z -> option A * bool) callback property p lo mid hi : parts property (values p) lo mid hi -> readable p property -> mid <> [] ->
  forall m2 m1 fuel called count, mid = m1 ++ m2 -> length m2 < fuel -> (0 <= count < 2 ^ 32)%Z ->
  exists new, valuesLoop get callback fuel p property (length lo + length m1) true true called count = Some (called ++ new, ((count + Z.of_nat (length new)) mod 2 ^ 32)%Z) /\
    upToFalseFrom callback called (fetched get m2) new.
Proof.
  intros P R N. induction m2 as [|v m2 IH]; intros m1 fuel called count Em Lf Hc.
  - rewrite app_nil_r in Em. subst m1. destruct (memory_end _ _ _ _ _ P R N) as (v & Ev & Es).
    exists []. split; [|exists []; split; [reflexivity|]; split; [intros [|] ? ? X; discriminate X|now left]].
    destruct fuel; cbn [valuesLoop]; rewrite Ev, andb_true_r, Es, app_nil_r; cbn [length]; rewrite Z.add_0_r, Z.mod_small by lia; reflexivity.
  - rewrite Em in P. destruct (memory_at _ _ _ _ _ _ _ P) as (Ev & Lv). rewrite <- Em in P. destruct fuel as [|fuel]; [cbn in Lf; lia|]. cbn [valuesLoop]. rewrite Ev.
    assert (Iv : inRange property v = true). { destruct P as (_ & _ & Fm & _). rewrite Forall_forall in Fm. apply Fm. rewrite Em. apply in_elt. }
    unfold inRange in Iv. apply andb_true_iff in Iv. rewrite (proj2 Iv). apply Nat.ltb_lt in Lv. rewrite Lv. cbn [andb].
    assert (Em' : mid = (m1 ++ [v]) ++ m2) by (rewrite <- app_assoc; exact Em).
    assert (El : S (length lo + length m1) = length lo + length (m1 ++ [v])) by (rewrite app_length; cbn; lia).
    cbn [length] in Lf. cbn [fetched].
    destruct (get v) as ([a|], [|]).
    + destruct (callback (called ++ [a])) eqn:Ca.
      * destruct (IH (m1 ++ [v]) fuel (called ++ [a]) ((count + 1) mod 2 ^ 32)%Z Em' ltac:(lia) ltac:(apply Z.mod_pos_bound; lia)) as (new & E1 & (rest & E2 & E3 & E4)).
        exists (a :: new). split.
        -- rewrite El, E1. rewrite <- app_assoc. f_equal. f_equal. cbn [length]. rewrite Zplus_mod_idemp_l. f_equal. lia.
        -- exists rest. split; [now rewrite E2|]. split.
           ++ intros [|a0 a1] b x X Nb; injection X as <- X; [exact Ca|]. specialize (E3 a1 b x X Nb). rewrite <- app_assoc in E3. exact E3.
           ++ destruct E4 as [E4|(_ & E4)]; [now left|]. right. split; [discriminate|]. rewrite <- app_assoc in E4. exact E4.
      * exists [a]. split; [destruct fuel; cbn [valuesLoop]; reflexivity|]. exists (fetched get m2). split; [reflexivity|]. split; [intros [|a0 a1] b x X Nb; injection X as <- X; [congruence|destruct a1; discriminate X]|].
        right. split; [discriminate|exact Ca].
    + exists []. split; [|exists []; split; [reflexivity|]; split; [intros [|] ? ? X; discriminate X|now left]].
      assert (Nx : exists w, nth_error (memory p) (S (length lo + length m1)) = Some w).
      { rewrite El. destruct m2 as [|w m2].
        - rewrite <- (app_nil_r (m1 ++ [v])) in Em'. rewrite !app_nil_r in Em'. rewrite <- Em'. destruct (memory_end _ _ _ _ _ P R N) as (w & Ew & _). eauto.
        - rewrite Em' in P. destruct (memory_at _ _ _ _ _ _ _ P) as (Ew & _). eauto. }
      destruct Nx as (w & Ew). rewrite app_nil_r, Z.add_0_r, Z.mod_small by lia.
      destruct fuel; cbn [valuesLoop]; rewrite Ew, andb_false_r; reflexivity.
    + rewrite El. apply IH; auto. lia.
    + exists []. split; [|exists []; split; [reflexivity|]; split; [intros [|] ? ? X; discriminate X|now left]].
      assert (Nx : exists w, nth_error (memory p) (S (length lo + length m1)) = Some w).
      { rewrite El. destruct m2 as [|w m2].
        - rewrite app_nil_r in Em'. rewrite <- Em'. destruct (memory_end _ _ _ _ _ P R N) as (w & Ew & _). eauto.
        - rewrite Em' in P. destruct (memory_at _ _ _ _ _ _ _ P) as (Ew & _). eauto. }
      destruct Nx as (w & Ew). rewrite app_nil_r, Z.add_0_r, Z.mod_small by lia.
      destruct fuel; cbn [valuesLoop]; rewrite Ew, andb_false_r; reflexivity.
Qed.
Lemma iterate_values {A} (get : Z -> option A * bool) callback p property : sortedProfile p -> readable p property ->
  exists called, ProfileIterateValuesForProperty get callback p property = Some (called, Z.of_nat (length called) mod 2 ^ 32)%Z /\
    upToFalse callback (fetched get (valuesFor p property)) called.
Proof.
  intros S R. destruct (sorted_parts property _ S) as (lo & mid & hi & P). unfold ProfileIterateValuesForProperty, valuesFor. rewrite (parts_filter _ _ _ _ _ P), (first_value _ _ _ _ _ P).
  destruct mid as [|v mid]. { exists []. split; [reflexivity|]. exists []. split; [reflexivity|]. split; [intros [|] ? ? X; discriminate X|now left]. }
  unfold iterateValues. rewrite (moveBack_parts _ _ _ _ _ P) by lia.
  destruct (valuesLoop_parts get callback property p lo (v :: mid) hi P R ltac:(discriminate) (v :: mid) [] (Datatypes.S (length (values p))) [] 0%Z eq_refl) as (new & E & U).
  - destruct P as (-> & _). rewrite !app_length. cbn. lia.
  - lia.
  - cbn [length app] in E. rewrite Nat.add_0_r in E. exists new. split; [exact E|exact U].
Qed.

(* ---- strings ---- *)
Lemma strcmp_zero a b : bytes a -> bytes b -> (strcmp a b = 0%Z <-> a = b).
Proof.
  intros A. revert b. induction A as [|x a X A IH]; intros b B; destruct b as [|y b]; cbn [strcmp].
  - tauto.
  - inversion B; subst. split; [lia|discriminate].
  - split; [lia|discriminate].
  - inversion B; subst. destruct (Z.eqb_spec x y) as [->|N]; [|split; [lia|congruence]]. rewrite IH by assumption. split; [now intros ->|congruence].
Qed.
Lemma before_cons x a b : before (x :: a) (x :: b) <-> before a b.
Proof.
  split.
  - intros (c & a' & b' & E1 & E2 & H). destruct c as [|c0 c].
    + cbn in E1, E2. subst a' b'. destruct H as [(H & _)|(u & v & a2 & b2 & H1 & H2 & H3)]; [discriminate|]. injection H1 as <- _. injection H2 as <- _. lia.
    + injection E1 as <- ->. injection E2 as ->. exists c, a', b'. auto.
  - intros (c & a' & b' & -> & -> & H). exists (x :: c), a', b'. auto.
Qed.
Lemma strcmp_neg a b : bytes a -> bytes b -> ((strcmp a b < 0)%Z <-> before a b).
Proof.
  intros A. revert b. induction A as [|x a X A IH]; intros b B; destruct b as [|y b]; cbn [strcmp].
  - split; [lia|]. intros ([|] & a' & b' & E1 & E2 & H); try discriminate. cbn in E1, E2. subst. destruct H as [(_ & H)|(u & v & ? & ? & H & _)]; [congruence|discriminate].
  - inversion B; subst. split; [intros _|lia]. exists [], [], (y :: b). split; [reflexivity|]. split; [reflexivity|]. left. now split.
  - split; [lia|]. intros ([|] & a' & b' & E1 & E2 & H); [|discriminate]. cbn in E1, E2. subst. destruct H as [(H & _)|(u & v & ? & ? & _ & H & _)]; discriminate.
  - inversion B; subst. destruct (Z.eqb_spec x y) as [->|N]; [rewrite IH by assumption; symmetry; apply before_cons|]. split.
    + intros L. exists [], (x :: a), (y :: b). split; [reflexivity|]. split; [reflexivity|]. right. exists x, y, a, b. repeat split. lia.
    + intros ([|c0 c] & a' & b' & E1 & E2 & H); [|injection E1; injection E2; congruence]. cbn in E1, E2. subst. destruct H as [(H & _)|(u & v & ? & ? & Q1 & Q2 & Q3)]; [discriminate|]. injection Q1 as <- _. injection Q2 as <- _. lia.
Qed.
Lemma strcmp_pos a b : bytes a -> bytes b -> ((0 < strcmp a b)%Z <-> before b a).
Proof.
  intros A B. rewrite <- (strcmp_neg b a B A). revert b B. induction A as [|x a X A IH]; intros b B; destruct b as [|y b]; cbn [strcmp]; try (inversion B; subst); try lia.
  rewrite (Z.eqb_sym y x). destruct (Z.eqb_spec x y); [now apply IH|lia].
Qed.
Lemma before_trans a b c : before a b -> before b c -> bytes a -> bytes b -> bytes c -> before a c.
Proof.
  intros H1 H2 A B C. apply (strcmp_neg a b A B) in H1. apply (strcmp_neg b c B C) in H2. apply (strcmp_neg a c A C).
  revert b c B C H1 H2. induction A as [|x a X A IH]; intros b c B C H1 H2; destruct b as [|y b], c as [|z c]; cbn [strcmp] in *; try (inversion B; subst); try (inversion C; subst); try lia.
  destruct (Z.eqb_spec x y) as [N1|N1], (Z.eqb_spec y z) as [N2|N2], (Z.eqb_spec x z) as [N3|N3]; try lia.
  eapply IH; [| |exact H1|exact H2]; assumption.
Qed.

(* ---- finding the value ---- *)
Lemma findValue_parts property p valueIndex lo mid hi : parts property (values p) lo mid hi -> readable p property -> mid <> [] ->
  forall m2 m1 fuel, mid = m1 ++ m2 -> length m2 < fuel -> findValue fuel p property valueIndex (length lo + length m1) = Some (existsb (Z.eqb (valueIndex mod 2 ^ 32)) m2).
Proof.
  intros P R N. induction m2 as [|v m2 IH]; intros m1 fuel Em Lf.
  - rewrite app_nil_r in Em. subst m1. destruct (memory_end _ _ _ _ _ P R N) as (v & Ev & Es). destruct fuel; cbn [findValue]; rewrite Ev, Es; reflexivity.
  - rewrite Em in P. destruct (memory_at _ _ _ _ _ _ _ P) as (Ev & Lv). rewrite <- Em in P. destruct fuel as [|fuel]; [cbn in Lf; lia|]. cbn [findValue]. rewrite Ev.
    assert (Iv : inRange property v = true). { destruct P as (_ & _ & Fm & _). rewrite Forall_forall in Fm. apply Fm. rewrite Em. apply in_elt. }
    unfold inRange in Iv. apply andb_true_iff in Iv. rewrite (proj2 Iv). apply Nat.ltb_lt in Lv. rewrite Lv. cbn [andb existsb].
    destruct (Z.eqb (valueIndex mod 2 ^ 32) v); [reflexivity|]. cbn [orb]. replace (S (length lo + length m1)) with (length lo + length (m1 ++ [v])) by (rewrite app_length; cbn; lia).
    apply IH; [rewrite <- app_assoc; exact Em|cbn in Lf; lia].
Qed.
Lemma find_in_profile property p v : sortedProfile p -> readable p property -> (inRange property v = true) -> (0 <= v < 2 ^ 32)%Z ->
  exists called, match getFirstValueForProfileAndProperty p property with
    | None => None
    | Some None => Some false
    | Some (Some k) => findValue (S (length (values p))) p property v k
    end = Some called /\ (called = true <-> In v (values p)).
Proof.
  intros S R I B. destruct (sorted_parts property _ S) as (lo & mid & hi & P). rewrite (first_value _ _ _ _ _ P).
  assert (J : In v (values p) <-> In v mid). { rewrite <- (parts_filter _ _ _ _ _ P). rewrite filter_In. tauto. }
  destruct mid as [|w mid]. { exists false. split; [reflexivity|]. rewrite J. cbn. split; [discriminate|tauto]. }
  eexists. split.
  - rewrite <- (Nat.add_0_r (length lo)). apply (findValue_parts property p v lo (w :: mid) hi P R ltac:(discriminate) (w :: mid) []); [reflexivity|].
    destruct P as (-> & _). rewrite !app_length. cbn. lia.
  - rewrite Z.mod_small by exact B. rewrite existsb_exists, J. split; [intros (x & X & E); apply Z.eqb_eq in E; now subst|]. intros X. exists v. split; [exact X|apply Z.eqb_refl].
Qed.

Lemma releases_app a b : forall h, releases (a ++ b) h = match releases a h with Some h' => releases b h' | None => None end.
Proof.
  induction a as [|e a IH]; intros h; [reflexivity|]. cbn [app releases]. destruct e as [c i|w c i]; [apply IH|].
  destruct (removeItem c i h); [apply IH|reflexivity].
Qed.
Section Loop.
  Variable getString : Z -> option (list Z) * bool.
  Variable getProperty : Z -> option Property * bool.
  Variable getValue : Z -> option Z * bool.
  Variable getOffset : Z -> option ProfileOffset * bool.
  Variable getProfile : Z -> option Profile * bool.
  Variable compareOther : list Z -> list Z -> Z.

  Lemma profilesLoop_found property v : inRange property v = true -> (0 <= v < 2 ^ 32)%Z -> forall n i0,
    (forall i, i0 <= i < i0 + Z.of_nat n -> getOffset i = (None, true) \/ exists p, profileAt getOffset getProfile i p /\ sortedProfile p /\ readable p property)%Z ->
    exists called t, profilesLoop getOffset getProfile n i0 true property v = Some (called, true, t) /\ (forall h, releases t h = Some h) /\
      StronglySorted Z.lt called /\
      forall i, In i called <-> (i0 <= i < i0 + Z.of_nat n)%Z /\ exists p, profileAt getOffset getProfile i p /\ In v (values p).
  Proof.
    intros I B. induction n as [|n IH]; intros i0 H.
    - exists [], []. split; [reflexivity|]. split; [reflexivity|]. split; [constructor|]. intros i. cbn. lia.
    - destruct (IH (i0 + 1)%Z) as (called & t & E & T & So & C). { intros i Hi. apply H. lia. }
      destruct (H i0 ltac:(lia)) as [En|(p & (o & Eo & Ep) & Hs & Hr)].
      { exists called, t. cbn [profilesLoop]. rewrite En. cbn [andb]. split; [exact E|]. split; [exact T|]. split; [exact So|]. intros i. rewrite C. split; intros (Hi & X); (split; [|exact X]); [lia|].
        destruct (Z.eq_dec i i0) as [->|N]; [|lia]. destruct X as (p & (o & Eo & _) & _). congruence. }
      destruct (find_in_profile property p v Hs Hr I B) as (f & Ef & Hf).
      cbn [profilesLoop]. rewrite Eo. cbn [andb]. rewrite Ep, Ef, E.
      do 2 eexists. split; [reflexivity|]. split; [|split].
      + intros h. cbn [releases removeItem sameSource option_map andb]. rewrite !Z.eqb_refl. cbn [releases removeItem sameSource option_map andb]. rewrite ?Z.eqb_refl. apply T.
      + destruct f; [|exact So]. constructor; [exact So|]. apply Forall_forall. intros i Hi. apply C in Hi. lia.
      + intros i. destruct f.
        * cbn [In]. rewrite C. split.
          -- intros [<-|(Hi & X)]; [|split; [lia|exact X]]. split; [lia|]. exists p. split; [now exists o|now apply Hf].
          -- intros (Hi & X). destruct (Z.eq_dec i0 i) as [|N]; [now left|]. right. split; [lia|exact X].
        * rewrite C. split; [intros (Hi & X); split; [lia|exact X]|]. intros (Hi & p' & (o' & Eo' & Ep') & X). destruct (Z.eq_dec i i0) as [->|N].
          -- exfalso. rewrite Eo in Eo'. injection Eo' as <-. rewrite Ep in Ep'. injection Ep' as <-. apply Hf in X. discriminate.
          -- split; [lia|]. exists p'. split; [now exists o'|exact X].
  Qed.

  Lemma findValue_sound property p v : forall fuel k, findValue fuel p property v k = Some true -> In (v mod 2 ^ 32)%Z (values p).
  Proof.
    induction fuel as [|fuel IH]; intros k E; cbn [findValue] in E; destruct (nth_error (memory p) k) as [w|] eqn:N; try discriminate E;
      (destruct (Z.leb w (lastValueIndex property) && Nat.ltb k (length (values p))) eqn:C; [|discriminate E]); [discriminate E|].
    destruct (Z.eqb_spec (v mod 2 ^ 32) w) as [->|_]; [|now apply (IH (S k))].
    apply andb_true_iff in C. destruct C as (_ & C). apply Nat.ltb_lt in C. unfold memory in N. rewrite nth_error_app1 in N by exact C. exact (nth_error_In _ _ N).
  Qed.
  Lemma profilesLoop_sound property v : forall n i0 okay called ok t, profilesLoop getOffset getProfile n i0 okay property v = Some (called, ok, t) ->
    StronglySorted Z.lt called /\ forall i, In i called -> (i0 <= i < i0 + Z.of_nat n)%Z /\ exists p, profileAt getOffset getProfile i p /\ In (v mod 2 ^ 32)%Z (values p).
  Proof.
    induction n as [|n IH]; intros i0 okay called ok t E; cbn [profilesLoop] in E; [injection E as <- _ _; split; [constructor|contradiction]|].
    assert (Wk : forall c (okay' ok' : bool) t', profilesLoop getOffset getProfile n (i0 + 1) okay' property v = Some (c, ok', t') ->
      StronglySorted Z.lt c /\ forall i, In i c -> (i0 < i < i0 + Z.of_nat (S n))%Z /\ exists p, profileAt getOffset getProfile i p /\ In (v mod 2 ^ 32)%Z (values p)).
    { intros c okay' ok' t' X. destruct (IH _ _ _ _ _ X) as (So & A). split; [exact So|]. intros i I. destruct (A i I) as (B & P). split; [lia|exact P]. }
    assert (Wk' : forall c (okay' ok' : bool) t', profilesLoop getOffset getProfile n (i0 + 1) okay' property v = Some (c, ok', t') ->
      StronglySorted Z.lt c /\ forall i, In i c -> (i0 <= i < i0 + Z.of_nat (S n))%Z /\ exists p, profileAt getOffset getProfile i p /\ In (v mod 2 ^ 32)%Z (values p)).
    { intros c okay' ok' t' X. destruct (Wk _ _ _ _ X) as (So & A). split; [exact So|]. intros i I. destruct (A i I) as (B & P). split; [lia|exact P]. }
    destruct (getOffset i0) as ([o|] & ok1) eqn:Eo; [|exact (Wk' _ _ _ _ E)].
    destruct (okay && ok1) eqn:O.
    - apply andb_true_iff in O. destruct O as (-> & ->).
      destruct (getProfile (offset o)) as ([p|] & ok2) eqn:Ep; [destruct ok2|].
      + destruct (profilesLoop getOffset getProfile n (i0 + 1) true property v) as [((c & ok') & t')|] eqn:X.
        * destruct (match getFirstValueForProfileAndProperty p property with None => None | Some None => Some false | Some (Some k) => _ end) as [f|] eqn:F; [|discriminate E].
          injection E as <- _ _. destruct (Wk _ _ _ _ X) as (So & A). destruct f.
          -- split; [constructor; [exact So|]; apply Forall_forall; intros i I; apply A in I; lia|].
             intros i [<-|I]; [|destruct (A i I) as (B & P); split; [lia|exact P]]. split; [lia|]. exists p. split; [exists o; auto|].
             destruct (getFirstValueForProfileAndProperty p property) as [[k|]|]; try discriminate F. exact (findValue_sound _ _ _ _ _ F).
          -- split; [exact So|]. intros i I. destruct (A i I) as (B & P). split; [lia|exact P].
        * destruct (match getFirstValueForProfileAndProperty p property with None => None | Some None => Some false | Some (Some k) => _ end); discriminate E.
      + destruct (profilesLoop getOffset getProfile n (i0 + 1) false property v) as [((c & ok') & t')|] eqn:X; [|discriminate E]. injection E as <- _ _. exact (Wk' _ _ _ _ X).
      + destruct (profilesLoop getOffset getProfile n (i0 + 1) ok2 property v) as [((c & ok') & t')|] eqn:X; [|discriminate E]. injection E as <- _ _. exact (Wk' _ _ _ _ X).
    - destruct (profilesLoop getOffset getProfile n (i0 + 1) false property v) as [((c & ok') & t')|] eqn:X; [|discriminate E]. injection E as <- _ _. exact (Wk' _ _ _ _ X).
  Qed.
  (* the property *)
  Lemma property_found name : bytes name -> forall n i0 j p,
    (forall i, i0 <= i < i0 + Z.of_nat n -> exists q s, propertyNamed getString getProperty i q s /\ bytes s)%Z ->
    (i0 <= j < i0 + Z.of_nat n)%Z -> propertyNamed getString getProperty j p name -> (forall i q s, i0 <= i < j -> propertyNamed getString getProperty i q s -> s <> name)%Z ->
    exists t, PropertyGetByName getString getProperty n i0 name = (Some (j, p), true, t) /\ forall h, releases t h = Some ((Properties, j) :: h).
  Proof.
    intros Bn. induction n as [|n IH]; intros i0 j p H Hj (E1 & E2) Hf; [lia|]. cbn [PropertyGetByName].
    destruct (H i0 ltac:(lia)) as (q & s & (F1 & F2) & Bs). rewrite F1, F2. cbn [andb].
    destruct (Z.eq_dec i0 j) as [->|N].
    - rewrite E1 in F1. injection F1 as <-. rewrite E2 in F2. injection F2 as <-. rewrite (proj2 (strcmp_zero name name Bn Bn) eq_refl). cbn.
      eexists. split; [reflexivity|]. intros h. cbn [releases removeItem sameSource option_map andb]. rewrite Z.eqb_refl. reflexivity.
    - assert (Ns : s <> name) by (apply (Hf i0 q s); [lia|now split]). destruct (Z.eqb_spec (strcmp s name) 0) as [X|X]; [apply (strcmp_zero s name Bs Bn) in X; contradiction|]. cbn [negb].
      destruct (IH (i0 + 1)%Z j p) as (t & Et & Ht); [intros i Hi; apply H; lia|lia|now split|intros i q' s' Hi; apply Hf; lia|]. rewrite Et.
      eexists. split; [reflexivity|]. intros h. cbn [releases removeItem sameSource option_map andb]. rewrite !Z.eqb_refl. cbn [releases removeItem sameSource option_map andb]. rewrite ?Z.eqb_refl. apply Ht.
  Qed.
  Lemma property_missing name : bytes name -> forall n i0,
    (forall i, i0 <= i < i0 + Z.of_nat n -> exists q s, propertyNamed getString getProperty i q s /\ bytes s /\ s <> name)%Z ->
    exists t, PropertyGetByName getString getProperty n i0 name = (None, true, t) /\ forall h, releases t h = Some h.
  Proof.
    intros Bn. induction n as [|n IH]; intros i0 H; cbn [PropertyGetByName]; [exists []; split; reflexivity|].
    destruct (H i0 ltac:(lia)) as (q & s & (F1 & F2) & Bs & Ns). rewrite F1, F2. cbn [andb].
    destruct (Z.eqb_spec (strcmp s name) 0) as [X|X]; [apply (strcmp_zero s name Bs Bn) in X; contradiction|]. cbn [negb].
    destruct (IH (i0 + 1)%Z) as (t & Et & Ht); [intros i Hi; apply H; lia|]. rewrite Et.
    eexists. split; [reflexivity|]. intros h. cbn [releases removeItem sameSource option_map andb]. rewrite !Z.eqb_refl. cbn [releases removeItem sameSource option_map andb]. rewrite ?Z.eqb_refl. apply Ht.
  Qed.

  (* the value *)
  Lemma value_cmp name v s : bytes name -> valueNamed getString getValue v s -> plainName s -> cmpAt getValue (compareValueByName getString compareOther name) v = Some (strcmp s name).
  Proof.
    intros Bn (o & E1 & E2) (B & Pl). unfold cmpAt. rewrite E1. unfold compareValueByName. rewrite E2. destruct s as [|c s]; [reflexivity|].
    destruct (Pl c s eq_refl) as (P1 & P2). apply Z.eqb_neq in P1, P2. rewrite P1, P2. reflexivity.
  Qed.
  Lemma value_by_name property name : bytes name -> valuesSorted getString getValue property ->
    exists r, ValueGetIndexByName getString getValue compareOther property name = Some (r, true) /\
      ((r = (-1)%Z /\ forall v, (firstValueIndex property <= v <= lastValueIndex property)%Z -> ~ valueNamed getString getValue v name) \/
       ((firstValueIndex property <= r <= lastValueIndex property)%Z /\ valueNamed getString getValue r name)).
  Proof.
    intros Bn ((H1 & H2) & Ht & Hs).
    destruct (search_step getValue (compareValueByName getString compareOther name) (firstValueIndex property) (lastValueIndex property) ltac:(lia) H2) with
      (fuel := 32) (lo := firstValueIndex property) (up := lastValueIndex property) (tr := @nil sev) as (res & tr & E & _ & _ & B3); try lia.
    - intros i j r s Hi Hij Hj Er Es. destruct (Ht i ltac:(lia)) as (si & Ni & Pi). destruct (Ht j ltac:(lia)) as (sj & Nj & Pj).
      rewrite (value_cmp _ _ _ Bn Ni Pi) in Er. rewrite (value_cmp _ _ _ Bn Nj Pj) in Es. injection Er as <-. injection Es as <-.
      destruct Pi as (Pi & _), Pj as (Pj & _). rewrite !strcmp_pos, !strcmp_neg by assumption. destruct (Hs i j si sj Hi Hij Hj Ni Nj) as [->|X]; [tauto|].
      split; intros Y; [exact (before_trans _ _ _ Y X Bn Pi Pj)|exact (before_trans _ _ _ X Y Pi Pj Bn)].
    - intros i Hi. destruct (Ht i Hi) as (s & Ns & Ps). exists (strcmp s name). now apply value_cmp.
    - reflexivity.
    - cbn. tauto.
    - exists res. unfold ValueGetIndexByName. unfold BinarySearch. rewrite E. split; [reflexivity|]. destruct B3 as [(B4 & _ & B6)|(B4 & B5 & _)].
      + left. split; [exact B4|]. intros v Hv Nv. destruct (Ht v Hv) as (s & Ns & Ps). assert (s = name) as ->.
        { destruct Ns as (o & A1 & A2), Nv as (o' & A3 & A4). rewrite A1 in A3. injection A3 as <-. rewrite A2 in A4. now injection A4. }
        apply (B6 v (strcmp name name) Hv); [now apply value_cmp|]. now apply strcmp_zero.
      + right. split; [exact B4|]. destruct (Ht res B4) as (s & Ns & Ps). rewrite (value_cmp _ _ _ Bn Ns Ps) in B5. injection B5 as B5. apply strcmp_zero in B5; [now subst|apply Ps|exact Bn].
  Qed.

  Lemma iterate_profiles pn n j property propertyName valueName : bytes propertyName -> bytes valueName ->
    (forall i, 0 <= i < Z.of_nat pn -> exists q s, propertyNamed getString getProperty i q s /\ bytes s)%Z ->
    (0 <= j < Z.of_nat pn)%Z -> propertyNamed getString getProperty j property propertyName -> (forall i q s, 0 <= i < j -> propertyNamed getString getProperty i q s -> s <> propertyName)%Z ->
    valuesSorted getString getValue property ->
    (forall i, 0 <= i < Z.of_nat n -> getOffset i = (None, true) \/ exists p, profileAt getOffset getProfile i p /\ sortedProfile p /\ readable p property)%Z ->
    exists called t, ProfileIterateProfilesForPropertyAndValue getString getProperty getValue getOffset getProfile compareOther pn n propertyName valueName = Some (called, true, t) /\
      balanced t /\
      ((called = [] /\ forall v, (firstValueIndex property <= v <= lastValueIndex property)%Z -> ~ valueNamed getString getValue v valueName) \/
       exists v, (firstValueIndex property <= v <= lastValueIndex property)%Z /\ valueNamed getString getValue v valueName /\ StronglySorted Z.lt called /\
         forall i, In i called <-> (0 <= i < Z.of_nat n)%Z /\ exists p, profileAt getOffset getProfile i p /\ In v (values p)).
  Proof.
    intros Bp Bv Hp Hj Np Hf Hv Hn. unfold ProfileIterateProfilesForPropertyAndValue.
    destruct (property_found propertyName Bp pn 0%Z j property Hp Hj Np Hf) as (t1 & -> & T1).
    destruct (value_by_name property valueName Bv Hv) as (r & -> & Hr). rewrite andb_true_r. destruct Hr as [(-> & Hr)|(Hr & Nr)].
    - cbn [Z.leb Z.compare]. do 2 eexists. split; [reflexivity|]. split; [|left; now split].
      unfold balanced. rewrite releases_app, T1. cbn [releases app removeItem sameSource option_map andb]. rewrite Z.eqb_refl. reflexivity.
    - destruct Hv as (((H0 & _) & H2) & _). destruct (Z.leb_spec 0 r); [|lia].
      destruct (profilesLoop_found property r) with (n := n) (i0 := 0%Z) as (called & t & E & T & So & C); [unfold inRange; apply andb_true_iff; split; apply Z.leb_le; lia|lia|exact Hn|].
      rewrite E. do 2 eexists. split; [reflexivity|]. split.
      + unfold balanced. rewrite !releases_app, T1, releases_app, T. cbn [releases app removeItem sameSource option_map andb]. rewrite Z.eqb_refl. reflexivity.
      + right. exists r. split; [exact Hr|]. split; [exact Nr|]. split; [exact So|]. exact C.
  Qed.

End Loop.

(* ---- profile ids ---- *)
  Lemma profile_id (getOffset : Z -> option ProfileOffset * bool) n id : (id <> 0)%Z -> n <> 0 -> (Z.of_nat n < 2 ^ 32)%Z -> (forall i, 0 <= i < Z.of_nat n -> exists o, getOffset i = (Some o, true))%Z ->
    (forall i j a b, 0 <= i -> i < j -> j < Z.of_nat n -> getOffset i = (Some a, true) -> getOffset j = (Some b, true) -> profileId a <= profileId b)%Z ->
    exists r, ProfileGetOffsetForProfileId getOffset n id = Some (r, true) /\
      match r with
      | Some off => exists i o, (0 <= i < Z.of_nat n)%Z /\ getOffset i = (Some o, true) /\ profileId o = id /\ offset o = off
      | None => forall i o, (0 <= i < Z.of_nat n)%Z -> getOffset i = (Some o, true) -> profileId o <> id
      end.
  Proof.
    intros Hid Hn0 Hn Ho Hs. unfold ProfileGetOffsetForProfileId. apply Z.eqb_neq in Hid. rewrite Hid. apply Z.eqb_neq in Hid. rewrite Z.mod_small by lia.
    assert (Hc : forall i o, getOffset i = (Some o, true) -> cmpAt getOffset (compareProfileId id) i = Some (if Z.ltb (profileId o) id then -1 else if Z.ltb id (profileId o) then 1 else 0)%Z).
    { intros i o E. unfold cmpAt. rewrite E. reflexivity. }
    destruct (search_step getOffset (compareProfileId id) 0%Z (Z.of_nat n - 1)%Z ltac:(lia) ltac:(lia)) with
      (fuel := 32) (lo := 0%Z) (up := (Z.of_nat n - 1)%Z) (tr := @nil sev) as (res & tr & E & _ & _ & B3); try lia.
    - intros i j r s Hi Hij Hj Er Es. destruct (Ho i ltac:(lia)) as (oi & Ei). destruct (Ho j ltac:(lia)) as (oj & Ej). rewrite (Hc _ _ Ei) in Er. rewrite (Hc _ _ Ej) in Es. injection Er as <-. injection Es as <-.
      pose proof (Hs i j oi oj Hi Hij ltac:(lia) Ei Ej). destruct (Z.ltb_spec (profileId oi) id), (Z.ltb_spec id (profileId oi)), (Z.ltb_spec (profileId oj) id), (Z.ltb_spec id (profileId oj)); lia.
    - intros i Hi. destruct (Ho i ltac:(lia)) as (o & Eo). eexists. exact (Hc _ _ Eo).
    - reflexivity.
    - cbn. tauto.
    - unfold BinarySearch. rewrite E. destruct B3 as [(-> & _ & B6)|(B4 & B5 & tr1 & -> & _)].
      + exists None. split; [reflexivity|]. intros i o Hi Eo X. apply (B6 i _ ltac:(lia) (Hc _ _ Eo)). rewrite X, Z.ltb_irrefl. reflexivity.
      + destruct (Ho res ltac:(lia)) as (o & Eo). rewrite Eo. destruct (Z.leb_spec 0 res); [|lia]. exists (Some (offset o)). split; [reflexivity|].
        exists res, o. split; [lia|]. split; [exact Eo|]. split; [|reflexivity]. rewrite (Hc _ _ Eo) in B5. destruct (Z.ltb_spec (profileId o) id); [discriminate|]. destruct (Z.ltb_spec id (profileId o)); [discriminate|]. lia.
  Qed.
