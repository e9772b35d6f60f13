(* Proofs about IpModel *)
From Verif Require Import IpModel IpSpec.

Lemma walk t : (forall c, In c t -> isSep c = false) -> forall k R seg len first type cur,
  iterate (length t + k) (t ++ R) seg len first type cur =
  iterate k R seg (len + length t) (match t with [] => first | _ => false end) type cur.
Proof.
  induction t as [|c t IH]; intros Ht k R seg len first type cur.
  - cbn [length app Nat.add]. now rewrite Nat.add_0_r.
  - cbn [length app Nat.add iterate]. destruct (Nat.ltb_spec 0 (S (length t + k) + len)); [|lia]. cbn [hd tl].
    rewrite (Ht c) by now left. rewrite IH by (intros; apply Ht; now right).
    replace (S len + length t) with (len + S (length t)) by lia. now destruct t.
Qed.

Lemma at_end R seg len first type cur : isSep (hd 0%Z R) = true -> 0 < len -> first = false ->
  iterate 0 R seg len first type cur =
  (match type with INVALID => getSegmentTypeWithSeparator (hd 0%Z R) type cur | _ => type end,
   [(getSegmentTypeWithSeparator (hd 0%Z R) type cur, seg, len)]).
Proof. intros Hs Hl ->. cbn [iterate]. destruct (Nat.ltb_spec 0 (0 + len)); [|lia]. rewrite Hs. reflexivity. Qed.

Lemma at_sep k c R seg len first type cur : isSep c = true ->
  iterate (S k) (c :: R) seg len first type cur =
  (let cur' := getSegmentTypeWithSeparator c type cur in
   let type' := match type with INVALID => cur' | _ => type end in
   let (t, calls) := iterate k R R 0 false type' cur' in
   (t, if first then calls else (cur', seg, len) :: calls)).
Proof. intros Hs. cbn [iterate hd tl]. destruct (Nat.ltb_spec 0 (S k + len)); [|lia]. rewrite Hs. reflexivity. Qed.

Lemma ended_sep R : ended R -> isSep (hd 0%Z R) = true /\ getIpTypeFromSeparator (hd 0%Z R) = INVALID.
Proof. intros [->|(r & [-> | ->])]; split; reflexivity. Qed.

(* ---- decimal numbers *)
Lemma digit_nosep c : (48 <= c <= 57)%Z -> isSep c = false.
Proof. intros H. unfold isSep. repeat match goal with |- context[Z.eqb c ?x] => destruct (Z.eqb_spec c x); try lia end; try reflexivity. Qed.
Lemma digitVal_dec c : (48 <= c <= 57)%Z -> digitVal c = (c - 48)%Z.
Proof. intros H. unfold digitVal. destruct (Z.leb_spec 48 c); [|lia]. destruct (Z.leb_spec c 57); [|lia]. reflexivity. Qed.
Lemma decimal_digits n : isByte n -> decimal n <> [] /\ forall c, In c (decimal n) -> (48 <= c <= 57)%Z.
Proof.
  unfold isByte, decimal. intros H.
  pose proof (Z.div_mod n 10 ltac:(lia)). pose proof (Z.mod_pos_bound n 10 ltac:(lia)).
  assert (n / 100 = n / 10 / 10)%Z as E100 by (rewrite Z.div_div by lia; reflexivity).
  pose proof (Z.div_mod (n / 10) 10 ltac:(lia)). pose proof (Z.mod_pos_bound (n / 10) 10 ltac:(lia)).
  destruct (Z.ltb_spec n 10); [|destruct (Z.ltb_spec n 100)]; (split; [discriminate|]); cbn [In]; intros c Hc.
  - destruct Hc as [<-|[]]. lia.
  - destruct Hc as [<-|[<-|[]]]; lia.
  - rewrite E100 in Hc. destruct Hc as [<-|[<-|[<-|[]]]]; lia.
Qed.
Lemma digits_stop base acc l : (99 < base -> False)%Z -> (forall c, hd_error l = Some c -> (base <= digitVal c)%Z) -> digits base acc l = acc.
Proof. intros _ H. destruct l as [|c l]; [reflexivity|]. cbn. specialize (H c eq_refl). destruct (Z.ltb_spec (digitVal c) base); [lia|reflexivity]. Qed.

Lemma digits_decimal n R : isByte n -> (forall c, hd_error R = Some c -> (10 <= digitVal c)%Z) ->
  digits 10 0 (decimal n ++ R) = n.
Proof.
  unfold isByte, decimal. intros H HR.
  pose proof (Z.div_mod n 10 ltac:(lia)). pose proof (Z.mod_pos_bound n 10 ltac:(lia)).
  assert (n / 100 = n / 10 / 10)%Z as E100 by (rewrite Z.div_div by lia; reflexivity).
  pose proof (Z.div_mod (n / 10) 10 ltac:(lia)). pose proof (Z.mod_pos_bound (n / 10) 10 ltac:(lia)).
  assert (forall acc c l, (48 <= c <= 57)%Z -> digits 10 acc (c :: l) = digits 10 (acc * 10 + (c - 48)) l) as Hd.
  { intros acc c l Hc. cbn [digits]. rewrite digitVal_dec by lia. destruct (Z.ltb_spec (c - 48) 10); [reflexivity|lia]. }
  destruct (Z.ltb_spec n 10); [|destruct (Z.ltb_spec n 100)]; cbn [app]; try rewrite E100;
    rewrite !Hd by lia; rewrite digits_stop by (auto; lia); lia.
Qed.
Lemma atoi_decimal n R : isByte n -> (forall c, hd_error R = Some c -> (10 <= digitVal c)%Z) -> getIpByte (atoi (decimal n ++ R)) = n.
Proof.
  intros H HR. destruct (decimal_digits n H) as (Hne & Hd). pose proof (digits_decimal n R H HR) as E.
  destruct (decimal n) as [|c l] eqn:Ed; [congruence|]. assert (48 <= c <= 57)%Z as Hc by (apply Hd; now left).
  unfold atoi, strtol. cbn [app skipSpace]. unfold isSpace.
  destruct (Z.eqb_spec c 32); [lia|]. destruct (Z.leb_spec c 13); [lia|]. rewrite andb_false_r. cbn [orb].
  destruct (Z.eqb_spec c 45); [lia|]. destruct (Z.eqb_spec c 43); [lia|]. cbn [app] in E. rewrite E.
  unfold isByte in H. unfold clampLong, toInt, getIpByte.
  destruct (Z.ltb_spec n (- 2 ^ 63)); [lia|]. destruct (Z.ltb_spec (2 ^ 63 - 1) n); [lia|].
  rewrite Z.mod_small by lia. replace (n + 2 ^ 31 - 2 ^ 31)%Z with n by lia.
  destruct (Z.ltb_spec n 0); [lia|]. destruct (Z.ltb_spec 255 n); [lia|reflexivity].
Qed.

(* n dotted numbers *)
Definition isDec (t : list Z) : Prop := exists n, isByte n /\ t = decimal n.
Lemma dec_nosep t : isDec t -> forall c, In c t -> isSep c = false.
Proof. intros (n & H & ->) c Hc. apply digit_nosep. now apply (decimal_digits n H). Qed.
Lemma dec_len t : isDec t -> 0 < length t.
Proof. intros (n & H & ->). destruct (decimal_digits n H) as (Hne & _). destruct (decimal n); [congruence|cbn; lia]. Qed.

(* a segment ended by a dot *)
Lemma dotted t k R type cur first : isDec t -> type <> V6 ->
  iterate (length (t ++ dot :: R) + k - length R) (t ++ dot :: R) (t ++ dot :: R) 0 first type cur =
  (let (ty, cs) := iterate k R R 0 false V4 V4 in (ty, (V4, t ++ dot :: R, length t) :: cs)).
Proof.
  intros Ht Hty. rewrite app_length. cbn [length]. replace (length t + S (length R) + k - length R) with (length t + S k) by lia.
  rewrite walk by now apply dec_nosep. rewrite at_sep by reflexivity. pose proof (dec_len t Ht).
  destruct t as [|c t]; [cbn in *; lia|]. cbn zeta. destruct type; try congruence; cbn [getSegmentTypeWithSeparator];
    change (getIpTypeFromSeparator dot) with V4; destruct (iterate k R R 0 false V4 V4); reflexivity.
Qed.
Lemma last_dec t R : isDec t -> ended R ->
  iterate (length t) (t ++ R) (t ++ R) 0 false V4 V4 = (V4, [(V4, t ++ R, length t)]).
Proof.
  intros Ht HR. replace (length t) with (length t + 0) at 1 by lia. rewrite walk by now apply dec_nosep.
  pose proof (dec_len t Ht). rewrite at_end; [reflexivity|apply ended_sep, HR|lia|destruct t; [cbn in *; lia|reflexivity]].
Qed.

Lemma quad_iterate a b c d R type : isByte a -> isByte b -> isByte c -> isByte d -> ended R -> type <> V6 ->
  iterateIpAddress (quad a b c d ++ R) (length (quad a b c d)) type =
  (V4, [(V4, quad a b c d ++ R, length (decimal a));
        (V4, decimal b ++ dot :: decimal c ++ dot :: decimal d ++ R, length (decimal b));
        (V4, decimal c ++ dot :: decimal d ++ R, length (decimal c));
        (V4, decimal d ++ R, length (decimal d))]).
Proof.
  intros Ha Hb Hc Hd HR Hty. assert (forall n, isByte n -> isDec (decimal n)) as HD by (intros; eexists; eauto).
  unfold iterateIpAddress, quad. repeat (rewrite <- app_assoc; cbn [app]).
  set (R3 := decimal d ++ R). set (R2 := decimal c ++ dot :: R3). set (R1 := decimal b ++ dot :: R2).
  pose proof (dotted (decimal a) (length (decimal b) + S (length (decimal c) + S (length (decimal d)))) R1 type INVALID true (HD _ Ha) Hty) as E1.
  pose proof (dotted (decimal b) (length (decimal c) + S (length (decimal d))) R2 V4 V4 false (HD _ Hb) ltac:(discriminate)) as E2.
  pose proof (dotted (decimal c) (length (decimal d)) R3 V4 V4 false (HD _ Hc) ltac:(discriminate)) as E3.
  pose proof (last_dec (decimal d) R (HD _ Hd) HR) as E4. fold R3 in E4. rewrite E4 in E3.
  replace (length (decimal c ++ dot :: R3) + length (decimal d) - length R3) with (length (decimal c) + S (length (decimal d))) in E3
    by (rewrite app_length; cbn [length]; lia).
  fold R2 in E3. rewrite E3 in E2.
  match type of E2 with iterate ?n _ _ _ _ _ _ = _ => replace n with (length (decimal b) + S (length (decimal c) + S (length (decimal d)))) in E2
    by (rewrite app_length; cbn [length]; lia) end.
  fold R1 in E2. rewrite E2 in E1.
  match type of E1 with iterate ?n _ _ _ _ _ _ = _ => replace n with (length (decimal a ++ dot :: decimal b ++ dot :: decimal c ++ dot :: decimal d)) in E1
    by (rewrite !app_length; cbn [length]; rewrite !app_length; cbn [length]; rewrite app_length; cbn [length]; lia) end.
  exact E1.
Qed.

Lemma quad_parse a b c d R : isByte a -> isByte b -> isByte c -> isByte d -> ended R ->
  IpParseAddress (quad a b c d ++ R) (length (quad a b c d)) = Some (mkAddr V4 [a; b; c; d]).
Proof.
  intros Ha Hb Hc Hd HR. unfold IpParseAddress. rewrite (quad_iterate a b c d R INVALID) by (auto; discriminate).
  rewrite (quad_iterate a b c d R V4) by (auto; discriminate). cbn [snd flat_map buildCall app length Nat.leb addressSize].
  assert (forall x, (10 <= digitVal (hd 0%Z (dot :: x)))%Z) as Hdot by (intros; vm_compute; congruence).
  unfold quad. rewrite <- !app_assoc. cbn [app]. rewrite !atoi_decimal; auto.
  - intros x Hx. destruct HR as [->|(r & [-> | ->])]; [discriminate| |]; injection Hx as <-; vm_compute; congruence.
  - intros x Hx. injection Hx as <-. apply (Hdot []).
  - intros x Hx. injection Hx as <-. apply (Hdot []).
  - intros x Hx. injection Hx as <-. apply (Hdot []).
Qed.

(* ---- hexadecimal groups *)
Lemma hexDigit_val c v : hexDigit c v -> digitVal c = v /\ (0 <= v < 16)%Z /\ isSpace c = false /\ c <> 45%Z /\ c <> 43%Z /\ isSep c = false.
Proof.
  unfold hexDigit, digitVal, isSpace, isSep. intros H.
  repeat match goal with |- context[Z.leb ?a ?b] => destruct (Z.leb_spec a b); try lia end;
  repeat match goal with |- context[Z.eqb ?a ?b] => destruct (Z.eqb_spec a b); try lia end;
  cbn [andb orb]; repeat split; lia.
Qed.
Lemma strtol_hex c1 v1 c2 v2 : hexDigit c1 v1 -> hexDigit c2 v2 -> getIpByte (toInt (strtol 16 [c1; c2])) = (v1 * 16 + v2)%Z.
Proof.
  intros H1 H2. apply hexDigit_val in H1, H2. destruct H1 as (A1 & A2 & A3 & A4 & A5 & _). destruct H2 as (B1 & B2 & _).
  unfold strtol. cbn [skipSpace]. rewrite A3. destruct (Z.eqb_spec c1 45); [congruence|]. destruct (Z.eqb_spec c1 43); [congruence|].
  cbn [digits]. rewrite A1, B1. destruct (Z.ltb_spec v1 16); [|lia]. destruct (Z.ltb_spec v2 16); [|lia].
  replace ((0 * 16 + v1) * 16 + v2)%Z with (v1 * 16 + v2)%Z by lia.
  unfold clampLong, toInt, getIpByte. destruct (Z.ltb_spec (v1 * 16 + v2) (- 2 ^ 63)); [lia|]. destruct (Z.ltb_spec (2 ^ 63 - 1) (v1 * 16 + v2)); [lia|].
  rewrite Z.mod_small by lia. replace (v1 * 16 + v2 + 2 ^ 31 - 2 ^ 31)%Z with (v1 * 16 + v2)%Z by lia.
  destruct (Z.ltb_spec (v1 * 16 + v2) 0); [lia|]. destruct (Z.ltb_spec 255 (v1 * 16 + v2)); [lia|reflexivity].
Qed.
Lemma group_nosep t g : hexGroup t g -> forall c, In c t -> isSep c = false.
Proof.
  intros (vs & Hf & _) c Hc. induction Hf as [|x v t vs Hx Hf IH]; [contradiction|].
  destruct Hc as [->|Hc]; [apply (hexDigit_val _ _ Hx)|auto].
Qed.
Lemma group_len t g : hexGroup t g -> 0 < length t.
Proof. intros (vs & _ & H & _). lia. Qed.

Lemma group_bytes bp t g R : hexGroup t g -> parseIpV6Segment bp (t ++ R) (length t) = [g / 256; g mod 256]%Z.
Proof.
  intros (vs & Hf & Hl & ->). unfold parseIpV6Segment. rewrite firstn_app, Nat.sub_diag, firstn_all, firstn_O, app_nil_r.
  assert (hexDigit 48 0) as H0 by (left; lia). assert (forall x, (0 <= x < 16)%Z -> ((0 * 16 + x) = x)%Z) as Hz by (intros; lia).
  destruct Hf as [|c1 v1 t vs H1 Hf]; [cbn in *; lia|]. pose proof (hexDigit_val _ _ H1) as (_ & B1 & _).
  destruct Hf as [|c2 v2 t vs H2 Hf].
  { cbn [length Nat.eqb Nat.ltb Nat.leb nth Nat.sub]. erewrite !strtol_hex by eassumption. cbn [hexNumber fold_left].
    rewrite Z.div_small, Z.mod_small by (unfold hexNumber; cbn [fold_left]; lia). unfold hexNumber. cbn [fold_left]. repeat f_equal; lia. }
  pose proof (hexDigit_val _ _ H2) as (_ & B2 & _).
  destruct Hf as [|c3 v3 t vs H3 Hf].
  { cbn [length Nat.eqb Nat.ltb Nat.leb nth Nat.sub]. erewrite !strtol_hex by eassumption. unfold hexNumber. cbn [fold_left].
    rewrite Z.div_small, Z.mod_small by lia. repeat f_equal; lia. }
  pose proof (hexDigit_val _ _ H3) as (_ & B3 & _).
  destruct Hf as [|c4 v4 t vs H4 Hf].
  { cbn [length Nat.eqb Nat.ltb Nat.leb nth Nat.sub]. erewrite !strtol_hex by eassumption. unfold hexNumber. cbn [fold_left].
    replace (((0 * 16 + v1) * 16 + v2) * 16 + v3)%Z with ((v2 * 16 + v3) + v1 * 256)%Z by lia.
    rewrite Z.div_add, Z.mod_add, Z.div_small, Z.mod_small by lia. repeat f_equal; lia. }
  pose proof (hexDigit_val _ _ H4) as (_ & B4 & _).
  destruct Hf as [|c5 v5 t vs H5 Hf]; [|cbn in Hl; lia].
  cbn [length Nat.eqb Nat.ltb Nat.leb nth Nat.sub]. erewrite !strtol_hex by eassumption. unfold hexNumber. cbn [fold_left].
  replace ((((0 * 16 + v1) * 16 + v2) * 16 + v3) * 16 + v4)%Z with ((v3 * 16 + v4) + (v1 * 16 + v2) * 256)%Z by lia.
  rewrite Z.div_add, Z.mod_add, Z.div_small, Z.mod_small by lia. repeat f_equal; lia.
Qed.

(* groups each followed by a colon *)
Definition pre (l : list (list Z)) : list Z := flat_map (fun t => t ++ [colon]) l.
Fixpoint callsOf (l : list (list Z)) (R : list Z) : list call :=
  match l with [] => [] | t :: l' => (V6, pre l ++ R, length t) :: callsOf l' R end.
Definition isGroup (t : list Z) : Prop := exists g, hexGroup t g.

Lemma colons l : forall R k first type cur, l <> [] -> (forall t, In t l -> isGroup t) -> type <> V4 ->
  iterate (length (pre l) + k) (pre l ++ R) (pre l ++ R) 0 first type cur =
  (let (ty, cs) := iterate k R R 0 false V6 V6 in (ty, callsOf l R ++ cs)).
Proof.
  induction l as [|t l IH]; intros R k first type cur Hl Hg Hty; [congruence|].
  destruct (Hg t (or_introl eq_refl)) as (g & Ht).
  assert (pre (t :: l) ++ R = t ++ colon :: pre l ++ R) as Et by (unfold pre; cbn [flat_map]; rewrite <- !app_assoc; reflexivity).
  assert (length (pre (t :: l)) + k = length t + S (length (pre l) + k)) as En.
  { unfold pre. cbn [flat_map]. rewrite !app_length. cbn. lia. }
  cbn [callsOf]. rewrite Et, En. rewrite walk by (eapply group_nosep; eauto). rewrite at_sep by reflexivity.
  pose proof (group_len _ _ Ht). cbn zeta.
  assert (getSegmentTypeWithSeparator colon type cur = V6) as -> by (destruct type; congruence || reflexivity).
  assert (match type with INVALID => V6 | _ => type end = V6) as -> by (destruct type; congruence || reflexivity).
  destruct l as [|t' l'].
  - cbn [pre flat_map length Nat.add app callsOf]. destruct (iterate k R R 0 false V6 V6) as (ty, cs).
    destruct t as [|c t]; [cbn in *; lia|reflexivity].
  - rewrite IH; [|discriminate|intros; apply Hg; now right|discriminate].
    destruct (iterate k R R 0 false V6 V6) as (ty, cs). destruct t as [|c t]; [cbn in *; lia|reflexivity].
Qed.
Lemma last_group t R : isGroup t -> ended R ->
  iterate (length t) (t ++ R) (t ++ R) 0 false V6 V6 = (V6, [(V6, t ++ R, length t)]).
Proof.
  intros (g & Ht) HR. replace (length t) with (length t + 0) at 1 by lia. rewrite walk by (eapply group_nosep; eauto).
  pose proof (group_len _ _ Ht). destruct (ended_sep _ HR) as (Hs & Hn).
  rewrite at_end; [|auto|lia|destruct t; [cbn in *; lia|reflexivity]]. cbn [getSegmentTypeWithSeparator].
  unfold getIpTypeFromSeparator in Hn. destruct (Z.eqb (hd 0%Z R) 46); [discriminate|]. destruct (Z.eqb (hd 0%Z R) 58); [discriminate|].
  reflexivity.
Qed.
Lemma join_snoc l t : join (l ++ [t]) = pre l ++ t.
Proof.
  induction l as [|a l IH]; [reflexivity|]. cbn [app]. destruct (l ++ [t]) as [|b m] eqn:E; [destruct l; discriminate|].
  change (join (a :: b :: m)) with (a ++ colon :: join (b :: m)). rewrite IH. unfold pre. cbn [flat_map].
  rewrite <- !app_assoc. reflexivity.
Qed.
Lemma pre_snoc l t : pre (l ++ [t]) = pre l ++ t ++ [colon].
Proof. unfold pre. rewrite flat_map_app. cbn [flat_map]. now rewrite app_nil_r. Qed.
Lemma join_pre l : l <> [] -> pre l = join l ++ [colon].
Proof.
  intros H. destruct (exists_last H) as (l' & t & ->). rewrite join_snoc, pre_snoc. now rewrite app_assoc.
Qed.

(* calls for groups up to the end *)
Definition endCalls (ts : list (list Z)) (R : list Z) : list call :=
  match ts with [] => [] | _ => callsOf (removelast ts) (last ts [] ++ R) ++ [(V6, last ts [] ++ R, length (last ts []))] end.
Lemma groups_end ts R : (forall t, In t ts -> isGroup t) -> ended R ->
  iterate (length (join ts)) (join ts ++ R) (join ts ++ R) 0 false V6 V6 = (V6, endCalls ts R).
Proof.
  intros Hg HR. destruct ts as [|a ts'] eqn:E; [reflexivity|]. rewrite <- E in *. assert (ts <> []) as Hne by congruence.
  assert (endCalls ts R = callsOf (removelast ts) (last ts [] ++ R) ++ [(V6, last ts [] ++ R, length (last ts []))]) as -> by now rewrite E.
  clear E a ts'. destruct (exists_last Hne) as (l & t & ->). rewrite removelast_last, last_last, join_snoc.
  assert (isGroup t) as Ht by (apply Hg, in_or_app; right; now left).
  rewrite app_length, <- app_assoc. destruct l as [|x l].
  - cbn [pre flat_map length app callsOf]. now apply last_group.
  - rewrite colons; [|discriminate|intros; apply Hg, in_or_app; now left|discriminate].
    rewrite last_group by auto. reflexivity.
Qed.

(* counting and building the calls *)
Lemma count_app l1 l2 : forall n, fold_left countCall (l1 ++ l2) n = fold_left countCall l2 (fold_left countCall l1 n).
Proof. intros. apply fold_left_app. Qed.
Lemma count_calls l : (forall t, In t l -> isGroup t) -> forall R n, fold_left countCall (callsOf l R) n = n + 2 * length l.
Proof.
  induction l as [|t l IH]; intros Hg R n; [cbn; lia|]. cbn [callsOf fold_left countCall].
  destruct (Hg t (or_introl eq_refl)) as (g & Ht). pose proof (group_len _ _ Ht). destruct (Nat.ltb_spec 0 (length t)); [|lia].
  rewrite IH by (intros; apply Hg; now right). cbn [length]. lia.
Qed.
Lemma build_calls bp l gs : Forall2 hexGroup l gs -> forall R, flat_map (buildCall bp) (callsOf l R) = groupBytes gs.
Proof.
  induction 1 as [|t g l gs Ht Hf IH]; intros R; [reflexivity|]. cbn [callsOf flat_map buildCall groupBytes].
  rewrite IH. f_equal. unfold pre. cbn [flat_map]. rewrite <- !app_assoc. now apply group_bytes.
Qed.
Lemma count_end ts R n : (forall t, In t ts -> isGroup t) -> fold_left countCall (endCalls ts R) n = n + 2 * length ts.
Proof.
  intros Hg. destruct ts as [|a ts'] eqn:E; [cbn; lia|]. rewrite <- E in *. assert (ts <> []) as Hne by congruence.
  assert (endCalls ts R = callsOf (removelast ts) (last ts [] ++ R) ++ [(V6, last ts [] ++ R, length (last ts []))]) as -> by now rewrite E.
  clear E a ts'. destruct (exists_last Hne) as (l & t & ->). rewrite removelast_last, last_last, count_app, app_length.
  rewrite count_calls by (intros; apply Hg, in_or_app; now left). cbn [fold_left countCall length].
  destruct (Hg t) as (g & Ht); [apply in_or_app; right; now left|]. pose proof (group_len _ _ Ht).
  destruct (Nat.ltb_spec 0 (length t)); lia.
Qed.
Lemma build_end bp ts gs R : Forall2 hexGroup ts gs -> flat_map (buildCall bp) (endCalls ts R) = groupBytes gs.
Proof.
  intros Hf. destruct ts as [|a ts'] eqn:E; [inversion Hf; reflexivity|]. rewrite <- E in *. assert (ts <> []) as Hne by congruence.
  assert (endCalls ts R = callsOf (removelast ts) (last ts [] ++ R) ++ [(V6, last ts [] ++ R, length (last ts []))]) as -> by now rewrite E.
  clear E a ts'. destruct (exists_last Hne) as (l & t & ->). rewrite removelast_last, last_last.
  apply Forall2_app_inv_l in Hf. destruct Hf as (g1 & g2 & H1 & H2 & ->). inversion H2 as [|? g ? ? Ht H3]; subst. inversion H3; subst.
  rewrite flat_map_app, (build_calls bp l g1) by auto. unfold groupBytes. rewrite flat_map_app. f_equal.
  cbn [flat_map buildCall app]. rewrite (group_bytes bp t g R) by auto. reflexivity.
Qed.
Lemma groups_isGroup ts gs : Forall2 hexGroup ts gs -> forall t, In t ts -> isGroup t.
Proof. induction 1; intros u Hu; [destruct Hu|]. destruct Hu as [<-|Hu]; [eexists; eauto|auto]. Qed.
Lemma groupBytes_len gs : length (groupBytes gs) = 2 * length gs.
Proof. unfold groupBytes. induction gs as [|g gs IH]; [reflexivity|]. cbn [flat_map app length]. rewrite IH. lia. Qed.

Lemma F2_len {A B} (P : A -> B -> Prop) l m : Forall2 P l m -> length l = length m.
Proof. induction 1; cbn; lia. Qed.

Lemma full_parse ts gs R : Forall2 hexGroup ts gs -> length gs = 8 -> ended R ->
  IpParseAddress (join ts ++ R) (length (join ts)) = Some (mkAddr V6 (groupBytes gs)).
Proof.
  intros Hf H8 HR. pose proof (groups_isGroup _ _ Hf) as Hg. pose proof (F2_len _ _ _ Hf) as Hlen.
  destruct ts as [|t1 [|t2 ts]]; [cbn in *; lia|cbn in *; lia|].
  assert (forall type, type <> V4 -> iterateIpAddress (join (t1 :: t2 :: ts) ++ R) (length (join (t1 :: t2 :: ts))) type =
    (V6, callsOf [t1] (join (t2 :: ts) ++ R) ++ endCalls (t2 :: ts) R)) as HI.
  { intros type Hty. unfold iterateIpAddress.
    assert (join (t1 :: t2 :: ts) = pre [t1] ++ join (t2 :: ts)) as ->.
    { change (join (t1 :: t2 :: ts)) with (t1 ++ colon :: join (t2 :: ts)). unfold pre. cbn [flat_map]. rewrite app_nil_r, <- app_assoc. reflexivity. }
    rewrite app_length, <- app_assoc. rewrite colons; [|discriminate|intros t [<-|[]]; apply Hg; now left|auto].
    rewrite groups_end; [reflexivity|intros; apply Hg; now right|auto]. }
  unfold IpParseAddress. rewrite (HI INVALID) by discriminate. rewrite (HI V6) by discriminate. cbn [snd].
  rewrite flat_map_app. inversion Hf as [|? g1 ? gs' Hg1 Hf']; subst.
  rewrite (build_calls _ [t1] [g1]) by (repeat constructor; auto). rewrite (build_end _ (t2 :: ts) gs') by auto.
  change (groupBytes [g1] ++ groupBytes gs') with (groupBytes (g1 :: gs')). rewrite groupBytes_len, H8. reflexivity.
Qed.

Lemma abbreviated_parse ls gl rs gr R : Forall2 hexGroup ls gl -> Forall2 hexGroup rs gr -> length gl + length gr <= 7 -> ended R ->
  IpParseAddress (join ls ++ [colon; colon] ++ join rs ++ R) (length (join ls ++ [colon; colon] ++ join rs)) =
  Some (mkAddr V6 (groupBytes (gl ++ repeat 0%Z (8 - length gl - length gr) ++ gr))).
Proof.
  intros Hl Hr Hlen HR. pose proof (groups_isGroup _ _ Hl) as Gl. pose proof (groups_isGroup _ _ Hr) as Gr.
  pose proof (F2_len _ _ _ Hl) as Ll. pose proof (F2_len _ _ _ Hr) as Lr.
  set (emp := (V6, colon :: join rs ++ R, 0) : call).
  assert (forall type, type <> V4 -> iterateIpAddress (join ls ++ [colon; colon] ++ join rs ++ R) (length (join ls ++ [colon; colon] ++ join rs)) type =
    (V6, callsOf ls (colon :: join rs ++ R) ++ emp :: endCalls rs R)) as HI.
  { intros type Hty. unfold iterateIpAddress.
    assert (iterate (S (length (join rs))) (colon :: join rs ++ R) (colon :: join rs ++ R) 0 false V6 V6 = (V6, emp :: endCalls rs R)) as Hmid.
    { rewrite at_sep by reflexivity. cbn zeta. cbn [getSegmentTypeWithSeparator]. change (Z.eqb colon 58) with true. cbv iota.
      rewrite groups_end by auto. reflexivity. }
    destruct ls as [|t ls'].
    - cbn [join app callsOf length]. rewrite at_sep by reflexivity. cbn zeta.
      assert (getSegmentTypeWithSeparator colon type INVALID = V6) as -> by (destruct type; congruence || reflexivity).
      assert (match type with INVALID => V6 | _ => type end = V6) as -> by (destruct type; congruence || reflexivity).
      rewrite Hmid. reflexivity.
    - set (ls := t :: ls') in *. assert (ls <> []) as Hne by discriminate. pose proof (join_pre ls Hne) as Ep.
      assert (join ls ++ [colon; colon] ++ join rs ++ R = pre ls ++ colon :: join rs ++ R) as ->.
      { rewrite Ep. rewrite <- app_assoc. reflexivity. }
      assert (length (join ls ++ [colon; colon] ++ join rs) = length (pre ls) + S (length (join rs))) as ->.
      { rewrite Ep. rewrite !app_length. cbn [length]. lia. }
      rewrite colons by auto. rewrite Hmid. reflexivity. }
  unfold IpParseAddress. rewrite (HI INVALID) by discriminate. rewrite (HI V6) by discriminate. cbn [snd].
  rewrite count_app, count_calls by auto. cbn [fold_left]. change (countCall (0 + 2 * length ls) emp) with (0 + 2 * length ls).
  rewrite count_end by auto. rewrite flat_map_app, (build_calls _ ls gl) by auto. cbn [flat_map].
  rewrite (build_end _ rs gr) by auto. cbn [buildCall emp parseIpV6Segment Nat.eqb].
  rewrite Z.mod_small by lia.
  assert (repeat 0%Z (Z.to_nat (16 - Z.of_nat (0 + 2 * length ls + 2 * length rs))) = groupBytes (repeat 0%Z (8 - length gl - length gr))) as Ez.
  { replace (Z.to_nat (16 - Z.of_nat (0 + 2 * length ls + 2 * length rs))) with (2 * (8 - length gl - length gr)) by lia.
    generalize (8 - length gl - length gr). intros n. induction n as [|n IH]; [reflexivity|].
    replace (2 * S n) with (S (S (2 * n))) by lia. cbn [repeat groupBytes flat_map]. cbn. f_equal. f_equal. exact IH. }
  change (parseIpV6Segment (Z.of_nat (0 + 2 * length ls + 2 * length rs)) (colon :: join rs ++ R) 0) with
    (repeat 0%Z (Z.to_nat (16 - Z.of_nat (0 + 2 * length ls + 2 * length rs)))).
  rewrite Ez. assert (forall x y, groupBytes x ++ groupBytes y = groupBytes (x ++ y)) as Ha by (intros; unfold groupBytes; now rewrite flat_map_app).
  rewrite !Ha. rewrite groupBytes_len. rewrite !app_length, repeat_length. cbn [addressSize].
  destruct (Nat.leb_spec (2 * (length gl + (8 - length gl - length gr + length gr))) 16); [|lia]. reflexivity.
Qed.

(* ---- an IPv4 address at the end of an IPv6 address *)
Lemma dotted6 t k R cur : isDec t ->
  iterate (length t + S k) (t ++ dot :: R) (t ++ dot :: R) 0 false V6 cur =
  (let (ty, cs) := iterate k R R 0 false V6 V4 in (ty, (V4, t ++ dot :: R, length t) :: cs)).
Proof.
  intros Ht. rewrite walk by now apply dec_nosep. rewrite at_sep by reflexivity. pose proof (dec_len t Ht).
  destruct t as [|c t]; [cbn in *; lia|]. cbn zeta. cbn [getSegmentTypeWithSeparator].
  change (Z.eqb dot 58) with false. change (Z.eqb dot 46) with true. cbv iota.
  destruct (iterate k R R 0 false V6 V4); reflexivity.
Qed.
Lemma last_dec6 t R : isDec t -> ended R ->
  iterate (length t) (t ++ R) (t ++ R) 0 false V6 V4 = (V6, [(V4, t ++ R, length t)]).
Proof.
  intros Ht HR. replace (length t) with (length t + 0) at 1 by lia. rewrite walk by now apply dec_nosep.
  pose proof (dec_len t Ht). destruct (ended_sep _ HR) as (Hs & Hn).
  rewrite at_end; [|auto|lia|destruct t; [cbn in *; lia|reflexivity]]. cbn [getSegmentTypeWithSeparator].
  unfold getIpTypeFromSeparator in Hn. destruct (Z.eqb (hd 0%Z R) 46); [discriminate|]. destruct (Z.eqb (hd 0%Z R) 58); [discriminate|].
  reflexivity.
Qed.
Definition quadCalls (a b c d : Z) (R : list Z) : list call :=
  [(V4, quad a b c d ++ R, length (decimal a));
   (V4, decimal b ++ dot :: decimal c ++ dot :: decimal d ++ R, length (decimal b));
   (V4, decimal c ++ dot :: decimal d ++ R, length (decimal c));
   (V4, decimal d ++ R, length (decimal d))].
Lemma quad6 a b c d R cur : isByte a -> isByte b -> isByte c -> isByte d -> ended R ->
  iterate (length (quad a b c d)) (quad a b c d ++ R) (quad a b c d ++ R) 0 false V6 cur = (V6, quadCalls a b c d R).
Proof.
  intros Ha Hb Hc Hd HR. assert (forall n, isByte n -> isDec (decimal n)) as HD by (intros; eexists; eauto).
  unfold quadCalls, quad. repeat (rewrite <- app_assoc; cbn [app]).
  replace (length (decimal a ++ dot :: decimal b ++ dot :: decimal c ++ dot :: decimal d)) with
    (length (decimal a) + S (length (decimal b) + S (length (decimal c) + S (length (decimal d)))))
    by (rewrite !app_length; cbn [length]; rewrite !app_length; cbn [length]; rewrite app_length; cbn [length]; lia).
  rewrite dotted6 by auto. rewrite dotted6 by auto. rewrite dotted6 by auto. rewrite last_dec6 by auto. reflexivity.
Qed.
Lemma quad_count a b c d R n : isByte a -> isByte b -> isByte c -> isByte d -> fold_left countCall (quadCalls a b c d R) n = n + 4.
Proof.
  intros Ha Hb Hc Hd. assert (forall n, isByte n -> 0 < length (decimal n)) as HD.
  { intros x Hx. apply dec_len. eexists; eauto. }
  unfold quadCalls. cbn [fold_left countCall].
  pose proof (HD a Ha). pose proof (HD b Hb). pose proof (HD c Hc). pose proof (HD d Hd).
  destruct (Nat.ltb_spec 0 (length (decimal a))); [|lia]. destruct (Nat.ltb_spec 0 (length (decimal b))); [|lia].
  destruct (Nat.ltb_spec 0 (length (decimal c))); [|lia]. destruct (Nat.ltb_spec 0 (length (decimal d))); [|lia]. lia.
Qed.
Lemma quad_build bp a b c d R : isByte a -> isByte b -> isByte c -> isByte d -> ended R ->
  flat_map (buildCall bp) (quadCalls a b c d R) = [a; b; c; d].
Proof.
  intros Ha Hb Hc Hd HR. unfold quadCalls. cbn [flat_map buildCall app].
  assert (forall x, (10 <= digitVal (hd 0%Z (dot :: x)))%Z) as Hdot by (intros; vm_compute; congruence).
  unfold quad. rewrite <- !app_assoc. cbn [app]. rewrite !atoi_decimal; auto.
  - intros x Hx. destruct HR as [->|(r & [-> | ->])]; [discriminate| |]; injection Hx as <-; vm_compute; congruence.
  - intros x Hx. injection Hx as <-. apply (Hdot []).
  - intros x Hx. injection Hx as <-. apply (Hdot []).
  - intros x Hx. injection Hx as <-. apply (Hdot []).
Qed.
(* groups with colons, then the IPv4 address *)
Lemma groups_quad rs a b c d R : (forall t, In t rs -> isGroup t) -> isByte a -> isByte b -> isByte c -> isByte d -> ended R ->
  iterate (length (pre rs ++ quad a b c d)) (pre rs ++ quad a b c d ++ R) (pre rs ++ quad a b c d ++ R) 0 false V6 V6 =
  (V6, callsOf rs (quad a b c d ++ R) ++ quadCalls a b c d R).
Proof.
  intros Hg Ha Hb Hc Hd HR. destruct rs as [|t rs'].
  - cbn [pre flat_map app callsOf]. now apply quad6.
  - rewrite app_length. rewrite colons; [|discriminate|auto|discriminate]. rewrite quad6 by auto. reflexivity.
Qed.

Lemma mixed_full_parse ts gs a b c d R : Forall2 hexGroup ts gs -> length gs = 6 -> isByte a -> isByte b -> isByte c -> isByte d -> ended R ->
  IpParseAddress ((join ts ++ colon :: quad a b c d) ++ R) (length (join ts ++ colon :: quad a b c d)) =
  Some (mkAddr V6 (groupBytes gs ++ [a; b; c; d])).
Proof.
  intros Hf H6 Ha Hb Hc Hd HR. pose proof (groups_isGroup _ _ Hf) as Hg. pose proof (F2_len _ _ _ Hf) as Hlen.
  assert (ts <> []) as Hne by (intros ->; cbn in *; lia).
  assert (join ts ++ colon :: quad a b c d = pre ts ++ quad a b c d) as -> by (rewrite (join_pre ts Hne), <- app_assoc; reflexivity).
  assert (forall type, type <> V4 -> iterateIpAddress ((pre ts ++ quad a b c d) ++ R) (length (pre ts ++ quad a b c d)) type =
    (V6, callsOf ts (quad a b c d ++ R) ++ quadCalls a b c d R)) as HI.
  { intros type Hty. unfold iterateIpAddress. rewrite app_length, <- app_assoc. rewrite colons by auto. rewrite quad6 by auto. reflexivity. }
  unfold IpParseAddress. rewrite (HI INVALID) by discriminate. rewrite (HI V6) by discriminate. cbn [snd].
  rewrite flat_map_app, (build_calls _ ts gs) by auto. rewrite quad_build by auto.
  rewrite app_length, groupBytes_len, H6. reflexivity.
Qed.
Lemma mixed_abbreviated_parse ls gl rs gr a b c d R : Forall2 hexGroup ls gl -> Forall2 hexGroup rs gr -> length gl + length gr <= 5 ->
  isByte a -> isByte b -> isByte c -> isByte d -> ended R ->
  IpParseAddress ((join ls ++ [colon; colon] ++ pre rs ++ quad a b c d) ++ R) (length (join ls ++ [colon; colon] ++ pre rs ++ quad a b c d)) =
  Some (mkAddr V6 (groupBytes gl ++ repeat 0%Z (12 - 2 * length gl - 2 * length gr) ++ groupBytes gr ++ [a; b; c; d])).
Proof.
  intros Hl Hr Hlen Ha Hb Hc Hd HR. pose proof (groups_isGroup _ _ Hl) as Gl. pose proof (groups_isGroup _ _ Hr) as Gr.
  pose proof (F2_len _ _ _ Hl) as Ll. pose proof (F2_len _ _ _ Hr) as Lr.
  set (Q := pre rs ++ quad a b c d).
  set (emp := (V6, colon :: Q ++ R, 0) : call).
  set (E := callsOf rs (quad a b c d ++ R) ++ quadCalls a b c d R).
  assert (forall type, type <> V4 -> iterateIpAddress ((join ls ++ [colon; colon] ++ Q) ++ R) (length (join ls ++ [colon; colon] ++ Q)) type =
    (V6, callsOf ls (colon :: Q ++ R) ++ emp :: E)) as HI.
  { intros type Hty. unfold iterateIpAddress.
    assert (iterate (S (length Q)) (colon :: Q ++ R) (colon :: Q ++ R) 0 false V6 V6 = (V6, emp :: E)) as Hmid.
    { rewrite at_sep by reflexivity. cbn zeta. cbn [getSegmentTypeWithSeparator]. change (Z.eqb colon 58) with true. cbv iota.
      unfold Q, E. rewrite <- app_assoc. rewrite groups_quad by auto. unfold emp, Q. rewrite <- app_assoc. reflexivity. }
    destruct ls as [|t ls'].
    - cbn [join app callsOf length]. rewrite at_sep by reflexivity. cbn zeta.
      assert (getSegmentTypeWithSeparator colon type INVALID = V6) as -> by (destruct type; congruence || reflexivity).
      assert (match type with INVALID => V6 | _ => type end = V6) as -> by (destruct type; congruence || reflexivity).
      rewrite Hmid. reflexivity.
    - set (ls := t :: ls') in *. assert (ls <> []) as Hne by discriminate. pose proof (join_pre ls Hne) as Ep.
      assert ((join ls ++ [colon; colon] ++ Q) ++ R = pre ls ++ colon :: Q ++ R) as ->.
      { rewrite Ep. rewrite <- !app_assoc. reflexivity. }
      assert (length (join ls ++ [colon; colon] ++ Q) = length (pre ls) + S (length Q)) as ->.
      { rewrite Ep. rewrite !app_length. cbn [length]. lia. }
      rewrite colons by auto. rewrite Hmid. reflexivity. }
  unfold IpParseAddress. rewrite (HI INVALID) by discriminate. rewrite (HI V6) by discriminate. cbn [snd].
  rewrite count_app, count_calls by auto. cbn [fold_left]. change (countCall (0 + 2 * length ls) emp) with (0 + 2 * length ls).
  unfold E. rewrite count_app, count_calls, quad_count by auto. rewrite flat_map_app, (build_calls _ ls gl) by auto. cbn [flat_map].
  rewrite flat_map_app, (build_calls _ rs gr) by auto. rewrite quad_build by auto.
  rewrite Z.mod_small by lia.
  change (buildCall (Z.of_nat (0 + 2 * length ls + 2 * length rs + 4)) emp) with
    (repeat 0%Z (Z.to_nat (16 - Z.of_nat (0 + 2 * length ls + 2 * length rs + 4)))).
  replace (Z.to_nat (16 - Z.of_nat (0 + 2 * length ls + 2 * length rs + 4))) with (12 - 2 * length gl - 2 * length gr) by lia.
  match goal with |- context[Nat.leb ?n ?m] => assert (Nat.leb n m = true) as -> end; [|reflexivity].
  apply Nat.leb_le. rewrite !app_length, !groupBytes_len, repeat_length. cbn [addressSize length]. lia.
Qed.

(* ---- bounds *)
Lemma sep_separator c : isSep c = separator c.
Proof. unfold isSep, separator. cbn [existsb]. rewrite orb_false_r, <- !orb_assoc. reflexivity. Qed.

(* the lengths of the segments that are reported *)
Fixpoint reported (first : bool) (ns : list nat) : list nat :=
  match ns with
  | [] => []
  | [n] => if Nat.eqb n 0 then [] else if first then [] else [n]
  | n :: ns' => if first then reported false ns' else n :: reported false ns'
  end.
Definition lens (cs : list call) : list nat := map snd cs.
Definition addHead (len : nat) (ns : list nat) : list nat := match ns with n :: ns' => (len + n) :: ns' | [] => [] end.
Definition startsEmpty (l : list Z) : bool := match l with [] => true | c :: _ => separator c end.
Lemma split_ne l : split l <> [].
Proof. destruct l as [|c l]; cbn [split]; [discriminate|]. destruct (separator c); [discriminate|]. destruct (split l); discriminate. Qed.
Lemma iterate_lens left : forall rest seg len first type cur, isSep (nth left rest 0%Z) = true -> left <= length rest ->
  (first = true -> len = 0) ->
  lens (snd (iterate left rest seg len first type cur)) =
  reported (first && startsEmpty (firstn left rest)) (addHead len (map (@length Z) (split (firstn left rest)))).
Proof.
  induction left as [|left IH]; intros rest seg len first type cur Hs Hle Hf.
  - cbn [firstn split map addHead reported length startsEmpty iterate Nat.add]. rewrite Nat.add_0_r, andb_true_r.
    assert (hd 0%Z rest = nth 0 rest 0%Z) as -> by now destruct rest. rewrite Hs.
    destruct (Nat.ltb_spec 0 len); destruct (Nat.eqb_spec len 0); try lia; destruct first; reflexivity.
  - destruct rest as [|c rest]; [cbn in Hle; lia|]. cbn [nth] in Hs. cbn [length] in Hle.
    cbn [iterate]. destruct (Nat.ltb_spec 0 (S left + len)); [|lia]. cbn [hd tl firstn split startsEmpty]. rewrite sep_separator.
    destruct (separator c) eqn:Ec.
    + destruct (iterate left rest rest 0 false _ _) as (t, cs) eqn:Ei. pose proof (f_equal (fun x => lens (snd x)) Ei) as El. cbn [snd] in El.
      rewrite (IH rest rest 0 false) in El; [|auto|lia|auto]. cbn [andb] in El.
      pose proof (split_ne (firstn left rest)) as Hne. destruct (split (firstn left rest)) as [|t0 ts] eqn:Esp; [congruence|].
      cbn [map length addHead Nat.add] in *. rewrite andb_true_r, Nat.add_0_r.
      change (reported first (len :: length t0 :: map (@length Z) ts)) with
        (if first then reported false (length t0 :: map (@length Z) ts) else len :: reported false (length t0 :: map (@length Z) ts)).
      destruct first; cbn [snd]; [exact (eq_sym El)|]. unfold lens. cbn [map snd]. f_equal. exact (eq_sym El).
    + rewrite (IH rest seg (S len) false); [|auto|lia|discriminate]. rewrite andb_false_r. cbn [andb].
      pose proof (split_ne (firstn left rest)) as Hne. destruct (split (firstn left rest)) as [|t0 ts] eqn:Esp; [congruence|].
      cbn [map addHead length]. f_equal. f_equal. lia.
Qed.
Lemma lens_length cs : length (lens cs) = length cs.
Proof. apply map_length. Qed.
Lemma reported_length f ns : length (reported f ns) <= length ns.
Proof.
  revert f. induction ns as [|n ns IH]; intros f; [cbn; lia|]. destruct ns as [|m ns].
  - cbn. destruct (Nat.eqb n 0), f; cbn; lia.
  - change (reported f (n :: m :: ns)) with (if f then reported false (m :: ns) else n :: reported false (m :: ns)).
    specialize (IH false). destruct f; cbn [length] in *; lia.
Qed.
Lemma reported_nonzero f ns : length (filter (fun n => negb (Nat.eqb n 0)) (reported f ns)) <= length (filter (fun n => negb (Nat.eqb n 0)) ns).
Proof.
  revert f. induction ns as [|n ns IH]; intros f; [cbn; lia|]. destruct ns as [|m ns].
  - destruct n as [|n]; destruct f; cbn; lia.
  - change (reported f (n :: m :: ns)) with (if f then reported false (m :: ns) else n :: reported false (m :: ns)).
    specialize (IH false). generalize dependent (m :: ns). intros q IH. destruct f; cbn [filter]; destruct (negb (Nat.eqb n 0)); cbn [length]; lia.
Qed.
Lemma reported_zero_tail ns : length (filter (Nat.eqb 0) (reported false ns)) <= length (filter (Nat.eqb 0) (removelast ns)).
Proof.
  induction ns as [|n ns IH]; [cbn; lia|]. destruct ns as [|m ns].
  - cbn [reported removelast filter]. destruct (Nat.eqb_spec n 0) as [->|N]; cbn; [lia|]. destruct n; [lia|cbn; lia].
  - change (reported false (n :: m :: ns)) with (n :: reported false (m :: ns)).
    change (removelast (n :: m :: ns)) with (n :: removelast (m :: ns)). cbn [filter]. destruct (Nat.eqb 0 n); cbn [length] in *; lia.
Qed.

(* types of the calls *)
Lemma v4_calls left : forall rest seg len first type cur,
  (type = V4 \/ (type = INVALID /\ fst (iterate left rest seg len first type cur) = V4)) ->
  forall c, In c (snd (iterate left rest seg len first V4 cur)) -> fst (fst c) = V4.
Proof.
  induction left as [|left IH]; intros rest seg len first type cur Ht c; cbn [iterate].
  - destruct (Nat.ltb 0 (0 + len)); [|contradiction]. destruct (isSep (hd 0%Z rest)); [|contradiction].
    destruct first; [contradiction|]. intros [<-|[]]. reflexivity.
  - destruct (Nat.ltb 0 (S left + len)); [|contradiction]. destruct (isSep (hd 0%Z rest)).
    + destruct (iterate left (tl rest) (tl rest) 0 false V4 V4) as (t, cs) eqn:E. cbn [getSegmentTypeWithSeparator]. rewrite E.
      assert (forall c, In c cs -> fst (fst c) = V4) as Hc.
      { intros c' Hc'. apply (IH (tl rest) (tl rest) 0 false V4 V4); [now left|]. now rewrite E. }
      destruct first; cbn [snd]; [apply Hc|]. intros [<-|Hi]; [reflexivity|auto].
    + apply (IH (tl rest) seg (S len) false V4 cur). now left.
Qed.
Lemma v4_bytes bp cs : (forall c : call, In c cs -> fst (fst c) = V4) -> length (flat_map (buildCall bp) cs) = length cs.
Proof.
  induction cs as [|c cs IH]; intros H; [reflexivity|]. cbn [flat_map]. rewrite app_length, IH by (intros; apply H; now right).
  specialize (H c (or_introl eq_refl)). destruct c as ((t, seg), len). cbn in H. subst t. reflexivity.
Qed.

(* both passes see the same segments of an IPv6 text *)
Lemma v6_same left : forall rest seg len first,
  fst (iterate left rest seg len first INVALID INVALID) = V6 ->
  iterate left rest seg len first V6 INVALID = iterate left rest seg len first INVALID INVALID.
Proof.
  induction left as [|left IH]; intros rest seg len first; cbn [iterate].
  - destruct (Nat.ltb 0 (0 + len)); [|discriminate]. destruct (isSep (hd 0%Z rest)); [|discriminate].
    cbn [getSegmentTypeWithSeparator fst]. unfold getIpTypeFromSeparator.
    destruct (Z.eqb_spec (hd 0%Z rest) 46) as [E|E]; [discriminate|]. destruct (Z.eqb_spec (hd 0%Z rest) 58); [reflexivity|discriminate].
  - destruct (Nat.ltb 0 (S left + len)); [|discriminate]. destruct (isSep (hd 0%Z rest)).
    + cbn [getSegmentTypeWithSeparator]. unfold getIpTypeFromSeparator.
      destruct (Z.eqb_spec (hd 0%Z rest) 46) as [E|E].
      * rewrite E. cbn [Z.eqb Pos.eqb]. intros H. exfalso.
        assert (forall left rest seg len first cur, fst (iterate left rest seg len first V4 cur) = V4) as Hv.
        { clear. induction left as [|left IH]; intros rest seg len first cur; cbn [iterate].
          - destruct (Nat.ltb _ _); [|reflexivity]. destruct (isSep _); [|reflexivity]. destruct first; reflexivity.
          - destruct (Nat.ltb _ _); [|reflexivity]. destruct (isSep _); [|apply IH]. cbn [getSegmentTypeWithSeparator].
            specialize (IH (tl rest) (tl rest) 0 false V4). destruct (iterate left _ _ _ _ _ _). exact IH. }
        specialize (Hv left (tl rest) (tl rest) 0 false V4). destruct (iterate left _ _ _ _ _ _) as (t, cs). cbn in *. congruence.
      * destruct (Z.eqb_spec (hd 0%Z rest) 58); [reflexivity|].
        intros H. specialize (IH (tl rest) (tl rest) 0 false).
        destruct (iterate left (tl rest) (tl rest) 0 false INVALID INVALID) as (t, cs). cbn [fst] in *. now rewrite IH.
    + apply IH.
Qed.
(* without dots every segment of an IPv6 text is hexadecimal, or not yet typed *)
Lemma v6_calls left : forall rest seg len first type cur, (forall c, In c (firstn (S left) (rest ++ [0%Z])) -> c <> 46%Z) ->
  type <> V4 -> cur <> V4 -> left <= length rest ->
  forall c, In c (snd (iterate left rest seg len first type cur)) -> fst (fst c) <> V4.
Proof.
  induction left as [|left IH]; intros rest seg len first type cur Hd Ht Hc Hle c; cbn [iterate].
  - destruct (Nat.ltb 0 (0 + len)); [|contradiction]. destruct (isSep (hd 0%Z rest)); [|contradiction].
    destruct first; [contradiction|]. intros [<-|[]]. cbn [fst].
    assert (hd 0%Z rest <> 46%Z) as Hn by (destruct rest; cbn; [lia|]; apply Hd; cbn; auto).
    unfold getSegmentTypeWithSeparator, getIpTypeFromSeparator. destruct type; [congruence| |];
      destruct (Z.eqb_spec (hd 0%Z rest) 46); try congruence; destruct (Z.eqb (hd 0%Z rest) 58); congruence.
  - destruct rest as [|x rest]; [cbn in Hle; lia|]. cbn [length] in Hle.
    assert (forall c, In c (firstn (S left) (rest ++ [0%Z])) -> c <> 46%Z) as Hd'.
    { intros c' Hc'. apply Hd. change (firstn (S (S left)) ((x :: rest) ++ [0%Z])) with (x :: firstn (S left) (rest ++ [0%Z])). now right. }
    assert (x <> 46%Z) as Hx by (apply Hd; now left).
    destruct (Nat.ltb 0 (S left + len)); [|contradiction]. cbn [hd tl]. destruct (isSep x).
    + assert (getSegmentTypeWithSeparator x type cur <> V4) as Hcur.
      { unfold getSegmentTypeWithSeparator, getIpTypeFromSeparator. destruct type; [congruence| |];
          destruct (Z.eqb_spec x 46); try congruence; destruct (Z.eqb x 58); congruence. }
      destruct (iterate left rest rest 0 false _ _) as (t, cs) eqn:E.
      assert (forall c, In c cs -> fst (fst c) <> V4) as Hcs.
      { intros c' Hc'. eapply (IH rest rest 0 false _ _ Hd'); [|exact Hcur|lia|rewrite E; exact Hc']. destruct type; congruence. }
      destruct first; cbn [snd]; [apply Hcs|]. intros [<-|Hi]; [exact Hcur|auto].
    + apply IH; auto. lia.
Qed.
Lemma v6_count cs : (forall c : call, In c cs -> fst (fst c) <> V4) -> forall n,
  fold_left countCall cs n <= n + 2 * length (filter (fun k => negb (Nat.eqb k 0)) (lens cs)) /\ Nat.Even (fold_left countCall cs n - n) /\ n <= fold_left countCall cs n.
Proof.
  induction cs as [|c cs IH]; intros H n; [cbn; split; [lia|split; [exists 0; lia|lia]]|].
  cbn [fold_left]. destruct (IH (fun c' Hc' => H c' (or_intror Hc')) (countCall n c)) as (A & (m & B) & C).
  specialize (H c (or_introl eq_refl)). destruct c as ((t, seg), len). cbn [fst] in H. cbn [countCall lens map snd filter] in *.
  change (map snd cs) with (lens cs) in *. destruct (Nat.ltb_spec 0 len); destruct (Nat.eqb_spec len 0); try lia; cbn [negb length].
  - destruct t; [congruence| |].
    + split; [lia|]. split; [exists (S m); lia|lia].
    + split; [lia|]. split; [exists m; lia|lia].
  - split; [lia|]. split; [exists m; lia|lia].
Qed.
Lemma v6_bytes bp cs : (forall c : call, In c cs -> fst (fst c) <> V4) -> forall n,
  length (flat_map (buildCall bp) cs) + n <= fold_left countCall cs n + length (filter (Nat.eqb 0) (lens cs)) * Z.to_nat (16 - bp).
Proof.
  induction cs as [|c cs IH]; intros H n; [cbn; lia|]. cbn [flat_map fold_left]. rewrite app_length.
  specialize (IH (fun c' Hc' => H c' (or_intror Hc')) (countCall n c)).
  specialize (H c (or_introl eq_refl)). destruct c as ((t, seg), len). cbn [fst] in H.
  cbn [lens map snd filter] in *. change (map snd cs) with (lens cs) in *. cbn [countCall] in *.
  destruct (Nat.ltb_spec 0 len).
  - destruct (Nat.eqb_spec 0 len); [lia|]. destruct t; [congruence| |]; cbn [buildCall length] in *.
    + unfold parseIpV6Segment. destruct (Nat.eqb_spec len 0); [lia|]. cbn [length]. lia.
    + lia.
  - destruct (Nat.eqb_spec 0 len); [|lia]. subst len. destruct t; [congruence| |]; cbn [buildCall length parseIpV6Segment Nat.eqb] in *.
    + change (parseIpV6Segment bp seg 0) with (repeat 0%Z (Z.to_nat (16 - bp))). rewrite repeat_length. lia.
    + lia.
Qed.

Definition splitLens (l : list Z) := map (@length Z) (split l).
Lemma filter_len_nonempty ts : length (filter (fun n => negb (Nat.eqb n 0)) (map (@length Z) ts)) = length (filter (fun t => negb (isEmpty t)) ts).
Proof. induction ts as [|[|c t] ts IH]; [reflexivity| |]; cbn; auto. Qed.
Lemma filter_len_empty ts : length (filter (Nat.eqb 0) (map (@length Z) ts)) = length (filter isEmpty ts).
Proof. induction ts as [|[|c t] ts IH]; [reflexivity| |]; cbn; auto. Qed.
Lemma removelast_map {A B} (f : A -> B) l : map f (removelast l) = removelast (map f l).
Proof. induction l as [|a [|b l] IH]; [reflexivity|reflexivity|]. cbn [map removelast] in *. now rewrite IH. Qed.
Lemma split_first_empty l : startsEmpty l = false -> exists t ts, split l = t :: ts /\ isEmpty t = false.
Proof.
  destruct l as [|c l]; cbn; [discriminate|]. intros ->. destruct (split l) as [|t ts]; eauto.
Qed.
Lemma split_start_empty l : startsEmpty l = true -> exists ts, split l = [] :: ts.
Proof. destruct l as [|c l]; cbn; [eauto|]. intros ->. eauto. Qed.

(* first separator decides the type; the calls of both passes *)
Lemma parse_v4 s e : isSep (nth e s 0%Z) = true -> e <= length s -> fst (iterateIpAddress s e INVALID) = V4 ->
  length (split (firstn e s)) <= 4 -> exists a, IpParseAddress s e = Some a /\ atype a = V4.
Proof.
  intros Hs He Ht Hn. unfold IpParseAddress. destruct (iterateIpAddress s e INVALID) as (type, cs) eqn:E. cbn [fst] in Ht. subst type.
  assert (length (flat_map (buildCall (Z.of_nat (fold_left countCall cs 0) mod 256)) (snd (iterateIpAddress s e V4))) <= 4) as Hl.
  { rewrite v4_bytes.
    - rewrite <- lens_length. unfold iterateIpAddress. rewrite iterate_lens by auto.
      etransitivity; [apply reported_length|]. pose proof (split_ne (firstn e s)). destruct (split (firstn e s)) as [|t ts]; [congruence|].
      cbn [map addHead length] in *. rewrite map_length. lia.
    - apply (v4_calls e s s 0 true V4 INVALID). now left. }
  cbn [addressSize]. destruct (Nat.leb_spec (length (flat_map (buildCall (Z.of_nat (fold_left countCall cs 0) mod 256)) (snd (iterateIpAddress s e V4)))) 4); [|lia].
  eauto.
Qed.
Lemma parse_v6 s e : isSep (nth e s 0%Z) = true -> e <= length s -> fst (iterateIpAddress s e INVALID) = V6 ->
  (forall c, In c (firstn (S e) (s ++ [0%Z])) -> c <> 46%Z) ->
  nonEmpty (firstn e s) <= 8 -> innerEmpty (firstn e s) <= 1 -> exists a, IpParseAddress s e = Some a /\ atype a = V6.
Proof.
  intros Hs He Ht Hd H8 H1. unfold IpParseAddress. pose proof (v6_same e s s 0 true Ht) as Hsame.
  destruct (iterateIpAddress s e INVALID) as (type, cs) eqn:E. cbn [fst] in Ht. subst type.
  assert (iterateIpAddress s e V6 = (V6, cs)) as -> by (unfold iterateIpAddress in *; congruence). cbn [snd].
  assert (forall c, In c cs -> fst (fst c) <> V4) as Hcs.
  { intros c Hc. eapply (v6_calls e s s 0 true INVALID INVALID); auto; try discriminate. unfold iterateIpAddress in E. now rewrite E. }
  assert (lens cs = reported (startsEmpty (firstn e s)) (map (@length Z) (split (firstn e s)))) as El.
  { pose proof (iterate_lens e s s 0 true INVALID INVALID Hs He (fun _ => eq_refl)) as Q. unfold iterateIpAddress in E. rewrite E in Q. cbn [snd andb] in Q.
    rewrite Q. f_equal. destruct (split (firstn e s)); reflexivity. }
  destruct (v6_count cs Hcs 0) as (A & B & _). pose proof (v6_bytes (Z.of_nat (fold_left countCall cs 0) mod 256) cs Hcs 0) as C.
  assert (length (filter (fun k => negb (Nat.eqb k 0)) (lens cs)) <= 8) as A8.
  { rewrite El. etransitivity; [apply reported_nonzero|]. rewrite filter_len_nonempty. exact H8. }
  assert (length (filter (Nat.eqb 0) (lens cs)) <= 1) as A1.
  { rewrite El. unfold innerEmpty in H1. destruct (startsEmpty (firstn e s)) eqn:Es.
    - destruct (split_start_empty _ Es) as (ts & Ets). rewrite Ets in *. cbn [tl] in H1. cbn [map length].
      destruct ts as [|t ts]; [cbn; lia|]. cbn [map].
      change (reported true (0 :: length t :: map (@length Z) ts)) with (reported false (map (@length Z) (t :: ts))).
      etransitivity; [apply reported_zero_tail|]. rewrite <- removelast_map, filter_len_empty. exact H1.
    - destruct (split_first_empty _ Es) as (t & ts & Ets & Et). rewrite Ets in *. cbn [tl] in H1.
      etransitivity; [apply reported_zero_tail|]. rewrite <- removelast_map, filter_len_empty.
      destruct ts as [|t' ts]; [cbn; lia|]. change (removelast (t :: t' :: ts)) with (t :: removelast (t' :: ts)).
      cbn [filter]. rewrite Et. exact H1. }
  rewrite Z.mod_small in * by lia. cbn [addressSize].
  destruct (Nat.leb_spec (length (flat_map (buildCall (Z.of_nat (fold_left countCall cs 0))) cs)) 16); [eauto|].
  exfalso. assert (length (filter (Nat.eqb 0) (lens cs)) * Z.to_nat (16 - Z.of_nat (fold_left countCall cs 0)) <= Z.to_nat (16 - Z.of_nat (fold_left countCall cs 0))) by nia.
  lia.
Qed.

(* ---- comparison *)
Lemma bigEndian_acc l : forall a, fold_left (fun a b => a * 256 + b)%Z l a = (a * 256 ^ Z.of_nat (length l) + bigEndian l)%Z.
Proof.
  unfold bigEndian. induction l as [|x l IH]; intros a; [cbn; lia|]. cbn [fold_left length]. rewrite IH. rewrite (IH (0 * 256 + x)%Z).
  rewrite Nat2Z.inj_succ, Z.pow_succ_r by lia. lia.
Qed.
Lemma bigEndian_cons x l : bigEndian (x :: l) = (x * 256 ^ Z.of_nat (length l) + bigEndian l)%Z.
Proof. unfold bigEndian. cbn [fold_left]. rewrite bigEndian_acc. reflexivity. Qed.
Lemma bigEndian_bound l : (forall x, In x l -> isByte x) -> (0 <= bigEndian l < 256 ^ Z.of_nat (length l))%Z.
Proof.
  induction l as [|x l IH]; intros H; [cbn; lia|]. rewrite bigEndian_cons. specialize (IH (fun y Hy => H y (or_intror Hy))).
  specialize (H x (or_introl eq_refl)). unfold isByte in H. cbn [length]. rewrite Nat2Z.inj_succ, Z.pow_succ_r by lia. nia.
Qed.
Lemma compare_spec n : forall a b, length a = n -> length b = n -> (forall x, In x a -> isByte x) -> (forall x, In x b -> isByte x) ->
  exists r, compareBytes n a b = Some r /\ (Z.sgn r = Z.sgn (bigEndian a - bigEndian b))%Z.
Proof.
  induction n as [|n IH]; intros a b Ha Hb Ba Bb.
  - destruct a; [|discriminate]. destruct b; [|discriminate]. exists 0%Z. auto.
  - destruct a as [|x a]; [discriminate|]. destruct b as [|y b]; [discriminate|]. cbn [compareBytes]. injection Ha as Ha. injection Hb as Hb.
    pose proof (bigEndian_bound a (fun z Hz => Ba z (or_intror Hz))) as B1. pose proof (bigEndian_bound b (fun z Hz => Bb z (or_intror Hz))) as B2.
    rewrite !bigEndian_cons, Ha, Hb in *. destruct (Z.eqb_spec (x - y) 0) as [E|E].
    + destruct (IH a b) as (r & Er & Es); auto; [intros; apply Ba; now right|intros; apply Bb; now right|]. exists r. split; auto.
      replace x with y by lia. rewrite Es. f_equal. lia.
    + exists (x - y)%Z. split; auto. assert (0 < 256 ^ Z.of_nat n)%Z by (apply Z.pow_pos_nonneg; lia).
      destruct (Z.lt_trichotomy (x - y) 0) as [L|[L|L]]; [|lia|].
      * rewrite !Z.sgn_neg; auto. nia.
      * rewrite !Z.sgn_pos; auto. nia.
Qed.
Lemma bigEndian_inj a : forall b, length a = length b -> (forall x, In x a -> isByte x) -> (forall x, In x b -> isByte x) ->
  bigEndian a = bigEndian b -> a = b.
Proof.
  induction a as [|x a IH]; intros [|y b] Hl Ba Bb E; try discriminate; [reflexivity|]. injection Hl as Hl. rewrite !bigEndian_cons, Hl in E.
  pose proof (bigEndian_bound a (fun z Hz => Ba z (or_intror Hz))) as B1. pose proof (bigEndian_bound b (fun z Hz => Bb z (or_intror Hz))) as B2.
  rewrite Hl in B1. assert (x = y) by nia. subst y. f_equal. apply IH; auto; [intros; apply Ba; now right|intros; apply Bb; now right|lia].
Qed.

(* ---- lists of addresses *)
Definition listSep (c : Z) : bool := Z.eqb c 32 || Z.eqb c 44 || Z.eqb c 0.
Lemma pa_walk t : (forall c, In c t -> listSep c = false) -> forall x R start len, listSep (hd 0%Z R) = true ->
  parseAddresses (x :: t ++ R) start len =
  match IpParseAddress start (len + length t) with
  | None => None
  | Some a => match parseAddresses R (tl R) 0 with Some l => Some (a :: l) | None => None end
  end.
Proof.
  induction t as [|c t IH]; intros Ht x R start len HR.
  - cbn [app length parseAddresses]. fold (listSep (hd 0%Z R)). rewrite HR, Nat.add_0_r. reflexivity.
  - cbn [app]. change (parseAddresses (x :: c :: t ++ R) start len) with
      (if listSep c then match IpParseAddress start len with
         | None => None | Some a => match parseAddresses (c :: t ++ R) (t ++ R) 0 with Some l => Some (a :: l) | None => None end end
       else parseAddresses (c :: t ++ R) start (S len)).
    rewrite (Ht c) by now left. rewrite IH by (auto; intros; apply Ht; now right). cbn [length]. now rewrite Nat.add_succ_comm.
Qed.

Lemma v4_stays left : forall rest seg len first type cur, type <> INVALID -> fst (iterate left rest seg len first type cur) = type.
Proof.
  induction left as [|left IH]; intros rest seg len first type cur Ht; cbn [iterate].
  - destruct (Nat.ltb _ _); [|reflexivity]. destruct (isSep _); [|reflexivity]. destruct type; [reflexivity..|congruence].
  - destruct (Nat.ltb _ _); [|reflexivity]. destruct (isSep _); [|now apply IH].
    assert (match type with INVALID => getSegmentTypeWithSeparator (hd 0%Z rest) type cur | _ => type end = type) as -> by (destruct type; congruence).
    specialize (IH (tl rest) (tl rest) 0 false type (getSegmentTypeWithSeparator (hd 0%Z rest) type cur) Ht).
    destruct (iterate left _ _ _ _ _ _). exact IH.
Qed.
Definition typeOf (m : option Z) : ipType := match m with Some c => getIpTypeFromSeparator c | None => INVALID end.
Lemma iterate_type left : forall rest seg len first cur, left <= length rest -> getIpTypeFromSeparator (nth left rest 0%Z) = INVALID ->
  fst (iterate left rest seg len first INVALID cur) = typeOf (mark (firstn left rest)).
Proof.
  induction left as [|left IH]; intros rest seg len first cur Hle Hn; cbn [iterate].
  - destruct (Nat.ltb _ _); [|reflexivity]. destruct (isSep _); [|reflexivity]. cbn [fst getSegmentTypeWithSeparator firstn mark typeOf].
    destruct rest; exact Hn.
  - destruct rest as [|c rest]; [cbn in Hle; lia|]. cbn [length] in Hle. cbn [nth] in Hn.
    destruct (Nat.ltb_spec 0 (S left + len)); [|lia]. cbn [hd tl firstn mark].
    destruct (isSep c) eqn:Es.
    + cbn [getSegmentTypeWithSeparator]. unfold getIpTypeFromSeparator at 1 2 3. unfold dot, colon.
      destruct (Z.eqb_spec c 46) as [->|N1]; [|destruct (Z.eqb_spec c 58) as [->|N2]]; cbn [orb].
      * pose proof (v4_stays left rest rest 0 false V4 V4 ltac:(discriminate)) as Q. destruct (iterate left rest rest 0 false V4 V4). exact Q.
      * pose proof (v4_stays left rest rest 0 false V6 V6 ltac:(discriminate)) as Q. destruct (iterate left rest rest 0 false V6 V6). exact Q.
      * specialize (IH rest rest 0 false INVALID ltac:(lia) Hn). destruct (iterate left rest rest 0 false INVALID INVALID). exact IH.
    + assert (Z.eqb c dot || Z.eqb c colon = false) as ->.
      { unfold isSep in Es. unfold dot, colon. destruct (Z.eqb c 46); [rewrite !orb_true_r in Es; cbn in Es; discriminate|].
        destruct (Z.eqb c 58); [rewrite !orb_true_r in Es; cbn in Es; discriminate|]. reflexivity. }
      apply IH; auto. lia.
Qed.

Lemma ended_nth s e : ended (skipn e s) -> e <= length s -> hd 0%Z (skipn e s) = nth e s 0%Z.
Proof. intros _. revert e. induction s as [|c s IH]; intros [|e] H; cbn in *; auto; try lia. apply IH. lia. Qed.

Lemma ipText_parse t b R : ipText t b -> ended R ->
  IpParseAddress (t ++ R) (length t) = Some (mkAddr (if fst b then V4 else V6) (snd b)).
Proof.
  intros Ht HR. destruct Ht as [a b' c d Ha Hb Hc Hd|t gs Ht|t bytes Ht].
  - now apply quad_parse.
  - destruct Ht as [ts gs Hf H8|ls gl rs gr Hl Hr Hn].
    + now apply full_parse.
    + rewrite <- !app_assoc. cbn [fst snd]. now apply abbreviated_parse.
  - destruct Ht as [ts gs a b c d Hf H6 Ha Hb Hc Hd|ls gl rs gr a b c d Hl Hr Hn Ha Hb Hc Hd]; cbn [fst snd].
    + now apply mixed_full_parse.
    + now apply mixed_abbreviated_parse.
Qed.
Lemma nosep_listSep c : isSep c = false -> listSep c = false.
Proof.
  unfold isSep, listSep. rewrite !orb_false_iff. tauto.
Qed.
Lemma join_chars ts gs : Forall2 hexGroup ts gs -> forall c, In c (join ts) -> listSep c = false.
Proof.
  induction 1 as [|t g ts gs Ht Hf IH]; intros c Hc; [destruct Hc|].
  destruct ts as [|t' ts].
  - apply nosep_listSep. eapply group_nosep; eauto.
  - change (join (t :: t' :: ts)) with (t ++ colon :: join (t' :: ts)) in Hc. apply in_app_or in Hc. destruct Hc as [Hc|[<-|Hc]]; auto.
    apply nosep_listSep. eapply group_nosep; eauto.
Qed.
Lemma ipText_chars t b : ipText t b -> t <> [] /\ forall c, In c t -> listSep c = false.
Proof.
  assert (forall a b c d x, isByte a -> isByte b -> isByte c -> isByte d -> In x (quad a b c d) -> listSep x = false) as HQ.
  { unfold quad. intros a b' c d x Ha Hb Hc Hd Hx.
    assert (forall n y, isByte n -> In y (decimal n) -> listSep y = false) as HD.
    { intros n y Hn Hy. apply nosep_listSep, digit_nosep. now apply (decimal_digits n Hn). }
    repeat (apply in_app_or in Hx; destruct Hx as [Hx|Hx]; [eapply HD; [|exact Hx]; assumption|]; destruct Hx as [<-|Hx]; [reflexivity|]).
    eapply HD; [|exact Hx]; assumption. }
  intros Ht. destruct Ht as [a b' c d Ha Hb Hc Hd|t gs Ht|t bytes Ht].
  - split; [unfold quad; destruct (decimal a); discriminate|]. intros x Hx. eapply HQ; [| | | |exact Hx]; assumption.
  - destruct Ht as [ts gs Hf H8|ls gl rs gr Hl Hr Hn].
    + split; [|eapply join_chars; eauto]. destruct Hf as [|t g ts gs Ht Hf]; [discriminate|]. pose proof (group_len _ _ Ht).
      destruct ts as [|t' ts]; [destruct t; [cbn in *; lia|discriminate]|].
      change (join (t :: t' :: ts)) with (t ++ colon :: join (t' :: ts)). destruct t; discriminate.
    + split; [destruct (join ls); discriminate|]. intros c Hc. apply in_app_or in Hc. destruct Hc as [Hc|[<-|[<-|Hc]]]; [exact (join_chars _ _ Hl _ Hc)|reflexivity|reflexivity|exact (join_chars _ _ Hr _ Hc)].
  - destruct Ht as [ts gs a b' c d Hf H6 Ha Hb Hc Hd|ls gl rs gr a b' c d Hl Hr Hn Ha Hb Hc Hd].
    + split; [destruct (join ts); discriminate|]. intros x Hx. apply in_app_or in Hx. destruct Hx as [Hx|[<-|Hx]]; [exact (join_chars _ _ Hf _ Hx)|reflexivity|].
      eapply HQ; [| | | |exact Hx]; assumption.
    + split; [destruct (join ls); discriminate|]. intros x Hx. apply in_app_or in Hx. destruct Hx as [Hx|[<-|[<-|Hx]]]; [exact (join_chars _ _ Hl _ Hx)|reflexivity|reflexivity|].
      change ([] ++ flat_map (fun t => t ++ [colon]) rs ++ quad a b' c d) with (flat_map (fun t => t ++ [colon]) rs ++ quad a b' c d) in Hx.
      apply in_app_or in Hx. destruct Hx as [Hx|Hx].
      * apply in_flat_map in Hx. destruct Hx as (t & Ht & Hx). apply in_app_or in Hx. destruct Hx as [Hx|[<-|[]]]; [|reflexivity].
        destruct (groups_isGroup _ _ Hr t Ht) as (g & Hg). apply nosep_listSep. exact (group_nosep _ _ Hg _ Hx).
      * eapply HQ; [| | | |exact Hx]; assumption.
Qed.
Definition toAddr (b : bool * list Z) : address := mkAddr (if fst b then V4 else V6) (snd b).
Lemma ipTexts_tail l r : ipTexts l r -> forall c, parseAddresses (c :: l) l 0 = Some (map toAddr r).
Proof.
  induction 1 as [t a Ht|t a c l r Ht Hc Hl IH]; intros x.
  - destruct (ipText_chars _ _ Ht) as (_ & Hn). pose proof (pa_walk t Hn x [] t 0 eq_refl) as Q. rewrite app_nil_r in Q. rewrite Q. cbn [Nat.add].
    pose proof (ipText_parse t a [] Ht (or_introl eq_refl)) as P. rewrite app_nil_r in P. rewrite P. reflexivity.
  - destruct (ipText_chars _ _ Ht) as (_ & Hn). rewrite (pa_walk t Hn x (c :: l)) by (destruct Hc as [-> | ->]; reflexivity). cbn [Nat.add tl].
    rewrite (ipText_parse t a (c :: l) Ht) by (right; exists l; destruct Hc as [-> | ->]; auto). rewrite IH. reflexivity.
Qed.
Lemma ipTexts_parse l r : ipTexts l r -> IpParseAddresses l = Some (map toAddr r).
Proof.
  intros H. unfold IpParseAddresses. destruct H as [t a Ht|t a c l r Ht Hc Hl].
  - destruct (ipText_chars _ _ Ht) as (Hne & Hn). destruct t as [|x t]; [congruence|].
    pose proof (pa_walk t (fun c Hc => Hn c (or_intror Hc)) x [] (x :: t) 1 eq_refl) as Q. rewrite app_nil_r in Q. rewrite Q.
    pose proof (ipText_parse (x :: t) a [] Ht (or_introl eq_refl)) as P. rewrite app_nil_r in P. cbn [length] in P.
    change (1 + length t) with (S (length t)). rewrite P. reflexivity.
  - destruct (ipText_chars _ _ Ht) as (Hne & Hn). destruct t as [|x t]; [congruence|]. cbn [app].
    rewrite (pa_walk t (fun y Hy => Hn y (or_intror Hy)) x (c :: l)) by (destruct Hc as [-> | ->]; reflexivity). cbn [tl].
    pose proof (ipText_parse (x :: t) a (c :: l) Ht) as P. cbn [length app] in P. change (1 + length t) with (S (length t)).
    rewrite P by (right; exists l; destruct Hc as [-> | ->]; auto). rewrite (ipTexts_tail l r Hl c). reflexivity.
Qed.
