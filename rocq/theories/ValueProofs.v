(* Lemmas for value.c *)
From Verif Require Import SearchModel SearchSpec SearchProofs CollectionModel IpModel IpSpec IpProofs PropertiesIp PropertiesCollection FloatModel ValueModel ValueSpec.
Local Open Scope Z_scope.

(* the sign of a result and an order *)
Definition agrees (r : Z) (c : comparison) : Prop := match c with Eq => r = 0 | Lt => r < 0 | Gt => 0 < r end.

Lemma order_refl a : order a a = Eq.
Proof. induction a as [|x a IH]; [reflexivity|]. cbn. now rewrite Z.compare_refl. Qed.
Lemma order_eq a : forall b, order a b = Eq -> a = b.
Proof.
  induction a as [|x a IH]; intros [|y b]; cbn; try discriminate; auto.
  destruct (Z.compare_spec x y); try discriminate. intros H'. subst. f_equal. auto.
Qed.
Lemma order_trans a : forall b c, order a b = Lt -> order b c = Lt -> order a c = Lt.
Proof.
  induction a as [|x a IH]; intros [|y b] [|z c]; cbn; try discriminate; auto.
  destruct (Z.compare_spec x y); try discriminate; destruct (Z.compare_spec y z); try discriminate; intros A B;
  destruct (Z.compare_spec x z); try lia; subst; eauto; lia.
Qed.
Lemma order_flip a : forall b, order b a = CompOpp (order a b).
Proof.
  induction a as [|x a IH]; intros [|y b]; cbn; auto. rewrite Z.compare_antisym.
  destruct (Z.compare_spec x y); cbn; auto.
Qed.

Lemma strcmp_order a : forall name more, Forall (fun c => 1 <= c <= 255) a -> Forall (fun c => 1 <= c <= 255) name ->
  exists r, strcmp (a ++ 0 :: more) name = Some r /\ agrees r (order a name).
Proof.
  induction a as [|x a IH]; intros [|y name] more Ha Hn; cbn [strcmp app hd tl order].
  - exists 0. split; reflexivity.
  - inversion Hn; subst. destruct (Z.eqb_spec 0 y); [lia|]. eexists. split; [reflexivity|]. cbn. lia.
  - inversion Ha; subst. destruct (Z.eqb_spec x 0); [lia|]. eexists. split; [reflexivity|]. cbn. lia.
  - inversion Ha; inversion Hn; subst. destruct (Z.eqb_spec x y) as [->|N].
    + destruct (Z.eqb_spec y 0); [lia|]. rewrite Z.compare_refl. apply IH; auto.
    + eexists. split; [reflexivity|]. destruct (Z.compare_spec x y); cbn; lia.
Qed.

Lemma memcmp_order n : forall a b more, (n = Nat.min (length a) (length b))%nat ->
  exists r, memcmp (a ++ more) b n = Some r /\
  agrees (if r =? 0 then Z.of_nat (length a) - Z.of_nat (length b) else r) (order a b).
Proof.
  induction n as [|n IH]; intros a b more Hn.
  - exists 0. split; [reflexivity|]. destruct a as [|x a], b as [|y b]; cbn in *; try lia.
  - destruct a as [|x a], b as [|y b]; cbn [length Nat.min] in Hn; try lia. cbn [memcmp app order].
    destruct (Z.eqb_spec x y) as [->|N].
    + rewrite Z.compare_refl. destruct (IH a b more ltac:(lia)) as (r & E & A). exists r. split; auto.
      cbn [length]. destruct (r =? 0); auto. replace (Z.of_nat (S (length a)) - Z.of_nat (S (length b))) with (Z.of_nat (length a) - Z.of_nat (length b)) by lia. auto.
    + exists (x - y). split; auto. destruct (Z.eqb_spec (x - y) 0); [lia|]. destruct (Z.compare_spec x y); cbn; lia.
Qed.

Lemma ipText_length t v4 bytes : ipText t (v4, bytes) -> length bytes = if v4 then 4%nat else 16%nat.
Proof.
  intros H. inversion H as [a b c d|t0 gs H6|t0 bs Hm]; subst; [reflexivity| |].
  - cbv iota. rewrite groupBytes_len. inversion H6; subst; [lia|]. rewrite !app_length, repeat_length. lia.
  - cbv iota. inversion Hm; subst; rewrite ?app_length, ?groupBytes_len, ?repeat_length; cbn [length]; lia.
Qed.

Lemma strstrComma_app a b : ~ In 44 a -> strstrComma (a ++ 44 :: b) = Some (44 :: b).
Proof.
  induction a as [|x a IH]; intros H; [reflexivity|]. cbn [strstrComma app].
  destruct (Z.eqb_spec x 44); [exfalso; apply H; now left|]. apply IH. intros Q. apply H. now right.
Qed.
Lemma strstrComma_none a : ~ In 44 a -> strstrComma a = None.
Proof.
  induction a as [|x a IH]; intros H; [reflexivity|]. cbn [strstrComma].
  destruct (Z.eqb_spec x 44); [exfalso; apply H; now left|]. apply IH. intros Q. apply H. now right.
Qed.
Lemma order_app a : forall b c d, length a = length b -> order (a ++ c) (b ++ d) = match order a b with Eq => order c d | x => x end.
Proof.
  induction a as [|x a IH]; intros [|y b] c d H; cbn in *; try discriminate; auto.
  destruct (x ?= y); auto.
Qed.

Lemma search_grows {A} (get : Z -> option A * bool) cmp fuel : forall lo up tr r ok tr',
  search get cmp fuel lo up tr = Some (r, ok, tr') -> exists l, tr' = l ++ tr.
Proof.
  induction fuel as [|fuel IH]; intros lo up tr r ok tr'; cbn [search]; [discriminate|].
  destruct (lo <=? up); [|intros [= <- <- <-]; now exists []].
  set (mid := lo + (up - lo) / 2). cbn zeta.
  assert (D : exists l, SGet mid :: tr = l ++ tr) by (now exists [SGet mid]).
  assert (T : forall lo' up', search get cmp fuel lo' up' (SRelease mid :: SGet mid :: tr) = Some (r, ok, tr') -> exists l, tr' = l ++ tr).
  { intros lo' up' H. apply IH in H. destruct H as (l & ->). exists (l ++ [SRelease mid; SGet mid]). now rewrite <- app_assoc. }
  destruct (get mid) as ([a|], [|]); try (intros [= <- <- <-]; auto; fail).
  destruct (cmp a mid) as (c, [|]); try (intros [= <- <- <-]; auto; fail).
  destruct (c =? 0); [intros [= <- <- <-]; auto|]. destruct (0 <? c); [|apply T]. destruct (mid =? 0); apply T.
Qed.
Lemma search_some_get {A} (get : Z -> option A * bool) cmp fuel lo up r ok tr :
  BinarySearch get cmp fuel lo up = Some (r, ok, tr) -> lo <= up -> tr <> [].
Proof.
  unfold BinarySearch. destruct fuel as [|fuel]; cbn [search]; [discriminate|]. intros H Hl.
  destruct (Z.leb_spec lo up); [|lia]. set (mid := lo + (up - lo) / 2) in H. cbn zeta in H.
  assert (T : forall lo' up', search get cmp fuel lo' up' [SRelease mid; SGet mid] = Some (r, ok, tr) -> tr <> []).
  { intros lo' up' H1. apply search_grows in H1. destruct H1 as (l & ->). now destruct l. }
  destruct (get mid) as ([a|], [|]); try (injection H as <- <- <-; discriminate).
  destruct (cmp a mid) as (c, [|]); try (injection H as <- <- <-; discriminate).
  destruct (c =? 0); [injection H as <- <- <-; discriminate|]. destruct (0 <? c); [|now apply T in H]. destruct (mid =? 0); now apply T in H.
Qed.

Lemma search_empty {A} (get : Z -> option A * bool) cmp fuel lo up tr : up < lo -> search get cmp (S fuel) lo up tr = Some (-1, true, tr).
Proof. intros H. cbn [search]. destruct (Z.leb_spec lo up); [lia|reflexivity]. Qed.

Section V.
  Variable atof : list Z -> native.
  Hypothesis comma : endsAtComma atof.

  Lemma compare_asks f content size bytes name c s :
    storedAs f content size bytes -> asks atof NativeToFloat f name c -> ssize s = size -> chars s = bytes ->
    exists r, compareString atof true s name = Some r /\ agrees r (order content c).
  Proof.
    intros Hs Ha Ez Eb. unfold compareString. rewrite Eb.
    destruct Hs as [text more size Ht N1 N2|bs more Hl Hb|lat lon more size].
    - inversion Ha; subst. destruct text as [|x text]; cbn [app].
      + apply (strcmp_order [] c more); auto.
      + cbn [hd] in N1, N2. unfold COORDINATE, IP_ADDRESS.
        destruct (Z.eqb_spec x 1); [lia|]. destruct (Z.eqb_spec x 2); [lia|]. apply (strcmp_order (x :: text) c more); auto.
    - inversion Ha as [|text v4 bytes Hi|]; subst. cbn [app]. change (2 =? COORDINATE) with false. change (2 =? IP_ADDRESS) with true. cbn iota.
      unfold compareIpAddress. pose proof (ipText_parse _ _ [] Hi (or_introl eq_refl)) as P. rewrite app_nil_r in P. rewrite P. clear P.
      cbn [atype abytes fst snd]. pose proof (ipText_length _ _ _ Hi) as Hlen. rewrite Ez, Eb.
      replace ((1 + Z.of_nat (length bs) - 1 + 2 ^ 15) mod 2 ^ 16 - 2 ^ 15) with (Z.of_nat (length bs)).
      2:{ replace (1 + Z.of_nat (length bs) - 1 + 2 ^ 15) with (Z.of_nat (length bs) + 2 ^ 15) by lia.
          rewrite Z.mod_small by lia. lia. }
      assert (Es : match (if v4 then V4 else V6) with V4 => 4 | V6 => 16 | INVALID => 0 end = Z.of_nat (length c)) by (destruct v4; rewrite Hlen; reflexivity).
      cbn zeta. rewrite Es. destruct (Z.eqb_spec (Z.of_nat (length c)) 0) as [E|_]; [destruct v4; lia|].
      cbn [skipn app].
      set (n := if Z.of_nat (length bs) <? Z.of_nat (length c) then _ else _).
      assert (Hn : n = Z.of_nat (Nat.min (length bs) (length c))) by (unfold n; destruct (Z.ltb_spec (Z.of_nat (length bs)) (Z.of_nat (length c))); lia).
      destruct (Z.ltb_spec n 0); [lia|]. rewrite Hn, Nat2Z.id.
      destruct (memcmp_order _ bs c more eq_refl) as (r & E & A). rewrite E. destruct (Z.eqb_spec r 0) as [->|N].
      + eexists. split; [reflexivity|]. auto.
      + exists r. split; auto. destruct r; congruence.
    - inversion Ha as [| |tlat tlon Hn]; subst. cbn [app]. change (1 =? COORDINATE) with true. cbn iota.
      unfold compareCoordinate. rewrite strstrComma_app by auto. cbn zeta. rewrite comma by auto. cbn [tl]. rewrite Eb.
      set (a := NativeToFloat (atof tlat)). set (b := NativeToFloat (atof tlon)).
      change (floatBytes a) with (littleEndian a). change (floatBytes b) with (littleEndian b).
      change (skipn 1 (1 :: littleEndian lat ++ littleEndian lon ++ more)) with (littleEndian lat ++ littleEndian lon ++ more).
      change (skipn 5 (1 :: littleEndian lat ++ littleEndian lon ++ more)) with (littleEndian lon ++ more).
      rewrite order_app by reflexivity.
      destruct (memcmp_order 4 (littleEndian lat) (littleEndian a) (littleEndian lon ++ more) eq_refl) as (r & E & A).
      rewrite E.
      change (length (littleEndian lat)) with (length (littleEndian a)) in A. rewrite Z.sub_diag in A.
      destruct (Z.eqb_spec r 0) as [->|N].
      + destruct (order (littleEndian lat) (littleEndian a)) eqn:O; cbn in A; try lia.
        destruct (memcmp_order 4 (littleEndian lon) (littleEndian b) more eq_refl) as (r & E' & A').
        exists r. split; [exact E'|]. change (length (littleEndian lon)) with (length (littleEndian b)) in A'. rewrite Z.sub_diag in A'.
        destruct (Z.eqb_spec r 0) as [->|]; auto.
      + exists r. split; [destruct r; congruence|]. destruct (order (littleEndian lat) (littleEndian a)); cbn in A |- *; auto. lia.
  Qed.

  Lemma compare_foreign f content size bytes name s :
    storedAs f content size bytes -> foreign f name -> ssize s = size -> chars s = bytes ->
    compareString atof true s name = Some (-1).
  Proof.
    intros Hs Hf Ez Eb. unfold compareString. rewrite Eb.
    destruct Hs as [text more size Ht N1 N2|bs more Hl Hb|lat lon more size]; inversion Hf as [t Hd Hc|t Hc]; subst; cbn [app].
    - change (2 =? COORDINATE) with false. change (2 =? IP_ADDRESS) with true. cbn iota. unfold compareIpAddress.
      rewrite ip_unmarked_refused; [reflexivity|lia| | |]; rewrite ?firstn_all; auto. rewrite skipn_all. now left.
    - change (1 =? COORDINATE) with true. cbn iota. unfold compareCoordinate. now rewrite strstrComma_none.
  Qed.


  Variable getString : Z -> option stored * bool.
  Variable getValue : Z -> option value * bool.
  Variable memory : bool.
  (* reading and comparing works for all values of a range *)
  Definition comparable name first last (result : Z -> Z) : Prop :=
    forall i, first <= i <= last -> exists v s, getValue i = (Some v, true) /\ getString (nameOffset v) = (Some s, true) /\
      compareString atof memory s name = Some (result i).

  Lemma comparable_cmpAt name first last result : comparable name first last result ->
    forall i, first <= i <= last -> cmpAt getValue (compareValueByName atof memory getString name) i = Some (result i).
  Proof.
    intros H i Hi. destruct (H i Hi) as (v & s & E1 & E2 & E3). unfold cmpAt. rewrite E1. unfold compareValueByName. now rewrite E2, E3.
  Qed.
  Lemma gets_in tr i : In i (gets tr) -> In (SGet i) tr.
  Proof. unfold gets. rewrite in_flat_map. intros (e & He & Hi). destruct e; [|contradiction]. destruct Hi as [->|[]]. auto. Qed.

  Lemma search_values property name result : let first := firstValueIndex property in let last := lastValueIndex property in
    0 <= first <= last + 1 -> last < 2 ^ 32 - 1 -> comparable name first last result ->
    (forall i j, first <= i -> i < j -> j <= last -> (0 < result i -> 0 < result j) /\ (result j < 0 -> result i < 0)) ->
    exists res tr, searchValues atof memory getString getValue property name = Some (res, true, tr) /\
    (tr = [] -> last < first) /\
    ((res = -1 /\ paired tr = true /\ (forall i, first <= i <= last -> result i <> 0)) \/
     (first <= res <= last /\ result res = 0 /\ exists tr1, tr = SGet res :: tr1 /\ paired tr1 = true)).
  Proof.
    intros first last H1 H2 Hc Hs. pose proof (comparable_cmpAt _ _ _ _ Hc) as Hat.
    destruct (binary_search_correct value getValue (compareValueByName atof memory getString name) first last) as (res & tr & E & B & _ & C); auto.
    - intros i Hi. rewrite Hat by auto. eauto.
    - intros i j r s A1 A2 A3. rewrite !Hat by lia. intros [= <-] [= <-]. auto.
    - exists res, tr. unfold searchValues. fold first last. rewrite E.
      assert (forallb (defined atof memory getString getValue name) (gets tr) = true) as ->.
      { apply forallb_forall. intros i Hi. apply gets_in in Hi. assert (first <= i <= last) by (apply B; auto).
        destruct (Hc i H) as (v & s & E1 & E2 & E3). unfold defined. now rewrite E1, E2, E3. }
      split; auto. split.
      + intros ->. destruct (Z.lt_ge_cases last first); auto. exfalso.
        eapply search_some_get in E; auto.
      + destruct C as [(-> & Pa & C)|(Hr & C & Pa)].
        * left. split; auto. split; auto. intros i Hi. specialize (C i Hi). rewrite Hat in C by auto. congruence.
        * right. split; auto. split; auto. rewrite Hat in C by auto. congruence.
  Qed.
End V.

Lemma asks_search atof (comma : endsAtComma atof) getString getValue property f content name c :
  let first := firstValueIndex property in let last := lastValueIndex property in
  0 <= first <= last + 1 -> last < 2 ^ 32 - 1 -> sortedValues getValue nameOffset getString ssize chars f content first last ->
  asks atof NativeToFloat f name c ->
  exists res tr, searchValues atof true getString getValue property name = Some (res, true, tr) /\
  (tr = [] -> last < first) /\
  ((res = -1 /\ paired tr = true /\ (forall i, first <= i <= last -> content i <> c)) \/
   (first <= res <= last /\ content res = c /\ exists tr1, tr = SGet res :: tr1 /\ paired tr1 = true)).
Proof.
  intros first last H1 H2 (Hread & Hsort) Ha.
  set (result i := match getValue i with
                   | (Some v, _) => match getString (nameOffset v) with
                                    | (Some s, _) => match compareString atof true s name with Some r => r | None => 0 end
                                    | _ => 0 end
                   | _ => 0 end).
  assert (HR : forall i, first <= i <= last -> agrees (result i) (order (content i) c)).
  { intros i Hi. destruct (Hread i Hi) as (v & s & E1 & E2 & Hs). destruct (compare_asks atof comma _ _ _ _ _ _ s Hs Ha eq_refl eq_refl) as (r & E & A).
    unfold result. now rewrite E1, E2, E. }
  assert (HZ : forall i, first <= i <= last -> (result i = 0 <-> content i = c)).
  { intros i Hi. specialize (HR i Hi). split.
    - intros E. apply order_eq. destruct (order (content i) c); auto; cbn in HR; lia.
    - intros <-. rewrite order_refl in HR. exact HR. }
  destruct (search_values atof getString getValue true property name result) as (res & tr & E & Hne & C); auto.
  - intros i Hi. destruct (Hread i Hi) as (v & s & E1 & E2 & Hs). destruct (compare_asks atof comma _ _ _ _ _ _ s Hs Ha eq_refl eq_refl) as (r & E & A).
    exists v, s. unfold result. now rewrite E1, E2, E.
  - intros i j Hi Hij Hj. pose proof (HR i ltac:(lia)) as A. pose proof (HR j ltac:(lia)) as B. pose proof (Hsort i j Hi Hij Hj) as O.
    assert (O' : order (content j) (content i) = Gt) by (rewrite order_flip, O; reflexivity).
    destruct (order (content i) c) eqn:Oi, (order (content j) c) eqn:Oj; cbn in A, B; try (split; intros; lia).
    + apply order_eq in Oi. subst. congruence.
    + apply order_eq in Oj. subst. congruence.
    + pose proof (order_trans _ _ _ O Oj). congruence.
  - exists res, tr. split; auto. split; auto. destruct C as [(-> & Pa & C)|(Hr & C & Pa)].
    + left. split; auto. split; auto. intros i Hi Q. apply (C i Hi). now apply HZ.
    + right. split; auto. split; auto. now apply HZ.
Qed.

Lemma foreign_search atof getString getValue property f content name :
  let first := firstValueIndex property in let last := lastValueIndex property in
  0 <= first <= last + 1 -> last < 2 ^ 32 - 1 -> sortedValues getValue nameOffset getString ssize chars f content first last ->
  foreign f name ->
  exists tr, searchValues atof true getString getValue property name = Some (-1, true, tr) /\ (tr = [] -> last < first) /\ paired tr = true.
Proof.
  intros first last H1 H2 (Hread & Hsort) Ha.
  destruct (search_values atof getString getValue true property name (fun _ => -1)) as (res & tr & E & Hne & C); auto.
  - intros i Hi. destruct (Hread i Hi) as (v & s & E1 & E2 & Hs). exists v, s. rewrite (compare_foreign atof _ _ _ _ _ s Hs Ha); auto.
  - exists tr. destruct C as [(-> & Pa & C)|(Hr & C & Pa)]; [auto|cbn in C; discriminate C].
Qed.

Lemma slice_app (a b : list Z) n : slice (a ++ b) (length a) n = firstn n b.
Proof. unfold slice. now rewrite skipn_app, skipn_all, Nat.sub_diag. Qed.
Lemma read_whole before size0 size1 body after start offset ci :
  isByte size0 -> isByte size1 -> size0 + 256 * size1 = Z.of_nat (length body) -> size1 < 128 ->
  length before = (start + Z.to_nat offset)%nat -> 0 <= offset < csize ci ->
  StringRead (before ++ size0 :: size1 :: body ++ after) start ci IoOk offset = Some (ROk (size0 :: size1 :: body)).
Proof.
  intros H0 H1 Hs Hm Hb Ho. unfold isByte in *. unfold StringRead, ReadFileVariable. destruct (Z.ltb_spec offset (csize ci)); [|lia].
  cbn [io_eqb]. cbn zeta. rewrite <- Hb. unfold fread.
  replace (Nat.leb (length before + 2) (length (before ++ size0 :: size1 :: body ++ after))) with true.
  2:{ symmetry. apply Nat.leb_le. rewrite app_length. cbn [length]. lia. }
  rewrite slice_app. cbn [firstn].
  assert (E : getFinalStringSize [size0; size1] mod 2 ^ 32 = 2 + Z.of_nat (length body)).
  { unfold getFinalStringSize, int16Of. cbn [nth]. cbn zeta. rewrite Hs. destruct (Z.leb_spec (2 ^ 15) (Z.of_nat (length body))); [lia|].
    rewrite Z.mod_mod by lia. apply Z.mod_small. lia. }
  rewrite E. destruct (Z.ltb_spec (2 + Z.of_nat (length body)) (Z.of_nat 2)); [lia|].
  replace (Z.to_nat (2 + Z.of_nat (length body)) - 2)%nat with (length body) by lia.
  replace (Nat.leb _ _) with true.
  2:{ symmetry. apply Nat.leb_le. rewrite !app_length. cbn [length]. rewrite app_length. lia. }
  replace (before ++ size0 :: size1 :: body ++ after) with ((before ++ [size0; size1]) ++ body ++ after) by now rewrite <- app_assoc.
  replace (length before + 2)%nat with (length (before ++ [size0; size1])) by (rewrite app_length; reflexivity).
  rewrite slice_app, firstn_app, firstn_all, Nat.sub_diag, firstn_O, app_nil_r. reflexivity.
Qed.
Lemma read_negative before size0 after start offset ci : size0 = 255 \/ size0 = 254 ->
  length before = (start + Z.to_nat offset)%nat -> 0 <= offset < csize ci ->
  StringRead (before ++ size0 :: 255 :: after) start ci IoOk offset = None.
Proof.
  intros H Hb Ho. unfold StringRead, ReadFileVariable. destruct (Z.ltb_spec offset (csize ci)); [|lia].
  cbn [io_eqb]. cbn zeta. rewrite <- Hb. unfold fread.
  replace (Nat.leb (length before + 2) (length (before ++ size0 :: 255 :: after))) with true.
  2:{ symmetry. apply Nat.leb_le. rewrite app_length. cbn [length]. lia. }
  rewrite slice_app. cbn [firstn]. destruct H as [-> | ->]; reflexivity.
Qed.
Lemma strings_items bodies : Forall (fun b : list Z => Z.of_nat (length b) < 2 ^ 15) bodies ->
  CollectionSpec.itemsOK (VarSize 2 getFinalStringSize)
    (map (fun b => (Z.of_nat (length b) mod 256) :: (Z.of_nat (length b) / 256) :: b) bodies).
Proof.
  intros H. split; [lia|]. intros it Hi. apply in_map_iff in Hi. destruct Hi as (b & <- & Hb).
  rewrite Forall_forall in H. specialize (H b Hb). split; [cbn; lia|]. cbn [firstn length].
  unfold getFinalStringSize, int16Of. cbn [nth]. cbn zeta.
  pose proof (Z.div_mod (Z.of_nat (length b)) 256 ltac:(lia)) as D.
  replace (Z.of_nat (length b) mod 256 + 256 * (Z.of_nat (length b) / 256)) with (Z.of_nat (length b)) by lia.
  destruct (Z.leb_spec (2 ^ 15) (Z.of_nat (length b))); [lia|]. rewrite Z.mod_small by lia. lia.
Qed.
Lemma float_bytes w : 0 <= w < 2 ^ 32 -> floatOf (littleEndian w) = w.
Proof.
  intros H. unfold floatOf, littleEndian. cbn [nth].
  pose proof (Z.div_mod w 256 ltac:(lia)). pose proof (Z.div_mod (w / 256) 256 ltac:(lia)) as H1. pose proof (Z.div_mod (w / 65536) 256 ltac:(lia)) as H2.
  assert (w / 65536 = w / 256 / 256) as E1 by (rewrite Z.div_div by lia; reflexivity).
  assert (w / 16777216 = w / 65536 / 256) as E2 by (rewrite Z.div_div by lia; reflexivity).
  assert (0 <= w / 16777216 < 256) by (split; [apply Z.div_pos; lia|apply Z.div_lt_upper_bound; lia]).
  rewrite (Z.mod_small (w / 16777216)) by lia. change (2 ^ 16) with 65536. change (2 ^ 24) with 16777216. lia.
Qed.
Lemma native_word x : 0 <= NativeToFloat x < 2 ^ 32.
Proof.
  unfold NativeToFloat. set (p := match fpclassify x with FP_NAN => _ | _ => _ end). unfold wordOf.
  pose proof (Z.mod_pos_bound (mantissa p) (2 ^ 23) ltac:(lia)). pose proof (Z.mod_pos_bound (exponent p) (2 ^ 8) ltac:(lia)).
  pose proof (Z.mod_pos_bound (sign p) 2 ltac:(lia)). lia.
Qed.

Lemma searchValues_failed atof memory getString getValue p name r tr :
  searchValues atof memory getString getValue p name = Some (r, false, tr) -> r = 0.
Proof.
  unfold searchValues. destruct (BinarySearch _ _ _ _ _) as [((r0, ok0), tr0)|] eqn:B; [|discriminate].
  destruct (forallb _ _); [|discriminate]. intros E. injection E as -> -> _.
  exact (proj1 (PropertiesCollection.binary_search_exception _ _ _ _ _ _ _ _ B)).
Qed.
Lemma byName_failed atof memory getString getValue p name : forall o tr, ValueGetByName atof memory getString getValue p name = Some (o, false, tr) -> o = None.
Proof. intros o tr. unfold ValueGetByName. destruct (firstValueIndex p =? _); [discriminate|].
    destruct (searchValues _ _ _ _ _ _) as [((r, ok), tr')|]; [|discriminate]. intros H. injection H as <- -> _. now rewrite andb_false_r.
Qed.
Lemma indexByName_failed atof memory getString getValue p name : forall r tr, ValueGetIndexByName atof memory getString getValue p name = Some (r, false, tr) -> r = 0.
Proof.
 intros r tr. unfold ValueGetIndexByName.
    destruct (searchValues _ _ _ _ _ _) as [((r', [|]), tr')|] eqn:E; [|intros [= <- _]|discriminate].
    + destruct tr' as [|[i|i] tr']; try discriminate. destruct (getValue i) as ([v|], ok); discriminate.
    + now apply searchValues_failed in E.
Qed.
