From Verif Require Export FloatModel FloatSpec.
Local Open Scope Z_scope.

Lemma digits_bounds m : 2 ^ (Z.pos (digits2_pos m) - 1) <= Z.pos m < 2 ^ Z.pos (digits2_pos m).
Proof.
  induction m as [m IH|m IH|]; cbn [digits2_pos]; [| |cbn; lia];
  rewrite Pos2Z.inj_succ; (replace (Z.succ (Z.pos (digits2_pos m)) - 1) with (Z.succ (Z.pos (digits2_pos m) - 1)) by lia);
  rewrite !Z.pow_succ_r by lia; lia.
Qed.
Lemma digits_unique m k : 0 < k -> 2 ^ (k - 1) <= Z.pos m < 2 ^ k -> Z.pos (digits2_pos m) = k.
Proof.
  intros Hk H. pose proof (digits_bounds m) as B. set (d := Z.pos (digits2_pos m)) in *.
  assert (0 < d) by (unfold d; lia).
  destruct (Z.lt_trichotomy d k) as [L|[E|L]]; [|exact E|]; exfalso.
  - assert (2 ^ d <= 2 ^ (k - 1)) by (apply Z.pow_le_mono_r; lia). lia.
  - assert (2 ^ k <= 2 ^ (d - 1)) by (apply Z.pow_le_mono_r; lia). lia.
Qed.
Lemma digits_shift m n k : 0 <= k -> Z.pos n = Z.pos m * 2 ^ k -> Z.pos (digits2_pos n) = Z.pos (digits2_pos m) + k.
Proof.
  intros Hk E. apply digits_unique; [lia|]. rewrite E. pose proof (digits_bounds m) as B.
  replace (Z.pos (digits2_pos m) + k - 1) with (Z.pos (digits2_pos m) - 1 + k) by lia.
  rewrite !Z.pow_add_r by lia. assert (0 < 2 ^ k) by (apply Z.pow_pos_nonneg; lia). nia.
Qed.

Lemma shr_double z : 0 < z -> shr_1 (Build_shr_record (2 * z) false false) = Build_shr_record z false false.
Proof. destruct z as [|p|p]; try lia. intros _. reflexivity. Qed.
Definition R m := Build_shr_record m false false.
Lemma iter_shr p : forall m n, 0 < m -> n = m * 2 ^ Z.pos p -> iter_pos shr_1 p (R n) = R m.
Proof.
  induction p as [p IH|p IH|]; intros m n Hm E.
  - assert (0 < 2 ^ Z.pos p) by (apply Z.pow_pos_nonneg; lia).
    assert (E1 : n = 2 * (m * 2 ^ Z.pos p * 2 ^ Z.pos p)).
    { rewrite E, (Pos2Z.inj_xI p), Z.pow_add_r by lia. replace (2 * Z.pos p) with (Z.pos p + Z.pos p) by lia. rewrite (Z.pow_add_r 2 (Z.pos p) (Z.pos p)) by lia. lia. }
    change (iter_pos shr_1 p (iter_pos shr_1 p (shr_1 (R n))) = R m).
    assert (E2 : shr_1 (R n) = R (m * 2 ^ Z.pos p * 2 ^ Z.pos p)) by (rewrite E1; apply shr_double; nia).
    rewrite E2. rewrite (IH (m * 2 ^ Z.pos p) _) by (reflexivity || nia). apply IH; [exact Hm|reflexivity].
  - assert (0 < 2 ^ Z.pos p) by (apply Z.pow_pos_nonneg; lia).
    assert (E1 : n = m * 2 ^ Z.pos p * 2 ^ Z.pos p).
    { rewrite E, (Pos2Z.inj_xO p). replace (2 * Z.pos p) with (Z.pos p + Z.pos p) by lia. rewrite (Z.pow_add_r 2 (Z.pos p) (Z.pos p)) by lia. lia. }
    change (iter_pos shr_1 p (iter_pos shr_1 p (R n)) = R m).
    rewrite (IH (m * 2 ^ Z.pos p) n) by (assumption || nia). apply IH; [exact Hm|reflexivity].
  - change (shr_1 (R n) = R m). subst n. change (2 ^ 1) with 2. rewrite Z.mul_comm. now apply shr_double.
Qed.

(* mantissas and exponents of binary32 *)
Definition canon (m e : Z) : Prop := 0 < m < 2 ^ 24 /\ -149 <= e <= 104 /\ (2 ^ 23 <= m \/ e = -149).
Lemma fexp_def k : fexp 24 128 k = Z.max (k - 24) (-149).
Proof. reflexivity. Qed.
Lemma canon_fexp m e : canon (Z.pos m) e -> fexp 24 128 (Z.pos (digits2_pos m) + e) = e.
Proof.
  intros (H1 & H2 & H3). rewrite fexp_def. pose proof (digits_bounds m) as B.
  set (d := Z.pos (digits2_pos m)) in *. assert (0 < d) by (unfold d; lia).
  assert (d <= 24). { destruct (Z.le_gt_cases d 24) as [|L]; [assumption|]. assert (2 ^ 24 <= 2 ^ (d - 1)) by (apply Z.pow_le_mono_r; lia). lia. }
  destruct H3 as [H3| ->]; [|lia].
  assert (24 <= d). { destruct (Z.le_gt_cases 24 d) as [|L]; [assumption|]. assert (2 ^ d <= 2 ^ 23) by (apply Z.pow_le_mono_r; lia). lia. }
  lia.
Qed.
Lemma canon_float s m e : isFloat (S754_finite s m e) <-> canon (Z.pos m) e.
Proof.
  unfold isFloat. cbn [valid_binary]. unfold bounded, canonical_mantissa. rewrite andb_true_iff, <- Zeq_is_eq_bool.
  change (Zle_bool e (128 - 24)) with (e <=? 104). rewrite Z.leb_le, fexp_def.
  pose proof (digits_bounds m) as B. set (d := Z.pos (digits2_pos m)) in *. assert (0 < d) by (unfold d; lia).
  split.
  - intros (H1 & H2).
    assert (2 ^ d <= 2 ^ 24) by (apply Z.pow_le_mono_r; lia).
    split; [lia|]. split; [lia|].
    destruct (Z.le_gt_cases 24 d) as [L|L]; [left|right; lia].
    assert (2 ^ 23 <= 2 ^ (d - 1)) by (apply Z.pow_le_mono_r; lia). lia.
  - intros C. pose proof (canon_fexp m e C) as F. rewrite fexp_def in F. destruct C as (H1 & H2 & H3). split; [exact F|lia].
Qed.

(* Rounding a number that is representable changes nothing. *)
Lemma aux_exact s m e m' e' : canon m' e' -> e <= e' -> Z.pos m = m' * 2 ^ (e' - e) ->
  binary_round_aux 24 128 s (Z.pos m) e loc_Exact = S754_finite s (Z.to_pos m') e'.
Proof.
  intros C He E. pose proof C as (H1 & H2 & H3). destruct m' as [|m'|m']; try lia. cbn [Z.to_pos].
  pose proof (canon_fexp m' e' C) as F.
  assert (D : Z.pos (digits2_pos m) = Z.pos (digits2_pos m') + (e' - e)) by (apply digits_shift; [lia|exact E]).
  assert (S1 : shr_fexp 24 128 (Z.pos m) e loc_Exact = (Build_shr_record (Z.pos m') false false, e')).
  { unfold shr_fexp. cbn [Zdigits2 shr_record_of_loc]. rewrite D.
    replace (Z.pos (digits2_pos m') + (e' - e) + e) with (Z.pos (digits2_pos m') + e') by lia. rewrite F.
    destruct (e' - e) as [|p|p] eqn:Ep; [| |lia].
    - cbn [shr]. replace (Z.pos m) with (Z.pos m') by lia. f_equal. lia.
    - cbn [shr]. change (Build_shr_record (Z.pos m) false false) with (R (Z.pos m)). rewrite (iter_shr p (Z.pos m')) by (lia || exact E). unfold R. f_equal. lia. }
  unfold binary_round_aux. rewrite S1. cbn [shr_m loc_of_shr_record round_nearest_even].
  assert (S2 : shr_fexp 24 128 (Z.pos m') e' loc_Exact = (Build_shr_record (Z.pos m') false false, e')).
  { unfold shr_fexp. cbn [Zdigits2 shr_record_of_loc]. rewrite F, Z.sub_diag. reflexivity. }
  rewrite S2. cbn [shr_m]. change (Zle_bool e' (128 - 24)) with (e' <=? 104). destruct (Z.leb_spec e' 104); [reflexivity|lia].
Qed.
Lemma shift_pos_mul p m : Z.pos (shift_pos p m) = Z.pos m * 2 ^ Z.pos p.
Proof. rewrite Zpower.shift_pos_correct. rewrite Zpower.Zpower_pos_nat, <- Zpower.Zpower_pos_nat. change (Z.pow_pos 2 p) with (2 ^ Z.pos p). lia. Qed.
(* m 2^e = m' 2^e' *)
Definition veq (m e m' e' : Z) : Prop := m * 2 ^ (e - Z.min e e') = m' * 2 ^ (e' - Z.min e e').
Lemma round_exact s m e m' e' : canon m' e' -> veq (Z.pos m) e m' e' ->
  binary_round 24 128 s m e = S754_finite s (Z.to_pos m') e'.
Proof.
  intros C V. pose proof C as (H1 & H2 & H3). unfold veq in V.
  assert (F : fexp 24 128 (Z.pos (digits2_pos m) + e) = e').
  { rewrite <- (canon_fexp (Z.to_pos m') e') by (rewrite Z2Pos.id by lia; exact C). f_equal.
    destruct (Z.le_gt_cases e e') as [L|L].
    - rewrite Z.min_l in V by lia. rewrite Z.sub_diag, Z.mul_1_r in V.
      rewrite (digits_shift (Z.to_pos m') m (e' - e)); [lia|lia|]. rewrite Z2Pos.id by lia. exact V.
    - rewrite Z.min_r in V by lia. rewrite Z.sub_diag, Z.mul_1_r in V.
      rewrite (digits_shift m (Z.to_pos m') (e - e')); [lia|lia|]. rewrite Z2Pos.id by lia. lia. }
  unfold binary_round. rewrite F. unfold shl_align. destruct (e' - e) as [|p|p] eqn:Ep.
  - apply aux_exact; [exact C|lia|]. rewrite Ep. rewrite Z.min_l in V by lia. rewrite Z.sub_diag in V.
    replace (e' - e) with 0 in V by lia. lia.
  - apply aux_exact; [exact C|lia|]. rewrite Z.min_l in V by lia. rewrite Z.sub_diag in V. lia.
  - apply aux_exact; [exact C|lia|]. rewrite shift_pos_mul. rewrite Z.min_r in V by lia. rewrite Z.sub_diag in *.
    replace (e - e') with (Z.pos p) in V by lia. exact V.
Qed.

(* The canonical form of m 2^e for 0 < m < 2^24: shift m to 24 digits. *)
Lemma norm_exists m : 0 < m < 2 ^ 24 -> exists k, 0 <= k <= 23 /\ 2 ^ 23 <= m * 2 ^ k < 2 ^ 24.
Proof.
  intros H. destruct m as [|p|p]; try lia. pose proof (digits_bounds p) as B. set (d := Z.pos (digits2_pos p)) in *. assert (0 < d) by (unfold d; lia).
  assert (d <= 24). { destruct (Z.le_gt_cases d 24) as [|L]; [assumption|]. assert (2 ^ 24 <= 2 ^ (d - 1)) by (apply Z.pow_le_mono_r; lia). lia. }
  exists (24 - d). split; [lia|].
  replace (2 ^ 23) with (2 ^ (d - 1) * 2 ^ (24 - d)) by (rewrite <- Z.pow_add_r by lia; f_equal; lia).
  replace (2 ^ 24) with (2 ^ d * 2 ^ (24 - d)) by (rewrite <- Z.pow_add_r by lia; f_equal; lia).
  assert (0 < 2 ^ (24 - d)) by (apply Z.pow_pos_nonneg; lia). nia.
Qed.

Lemma ofInt_exact m k : 0 <= k <= 23 -> 2 ^ 23 <= m * 2 ^ k < 2 ^ 24 -> ofInt m = S754_finite false (Z.to_pos (m * 2 ^ k)) (- k).
Proof.
  intros Hk H. assert (0 < 2 ^ k) by (apply Z.pow_pos_nonneg; lia). unfold ofInt. destruct m as [|p|p]; try (cbn in H; lia); try nia.
  cbn [binary_normalize]. apply round_exact.
  - split; [lia|]. split; lia.
  - unfold veq. rewrite Z.min_r by lia. replace (0 - - k) with k by lia. rewrite Z.sub_diag. lia.
Qed.
Lemma pos_eq (a b : positive) : Z.pos a = Z.pos b -> a = b.
Proof. congruence. Qed.

(* division by 2^23 *)
Lemma fdiv_23 m e : 2 ^ 23 <= m < 2 ^ 24 -> -24 <= e <= 0 ->
  fdiv (S754_finite false (Z.to_pos m) e) (powf2 23) = S754_finite false (Z.to_pos m) (e - 23).
Proof.
  intros Hm He. destruct m as [|p|p]; try lia. cbn [Z.to_pos]. unfold fdiv, powf2. cbn [SFdiv xorb].
  assert (D : Z.pos (digits2_pos p) = 24) by (apply digits_unique; lia).
  unfold SFdiv_core_binary. cbn [Zdigits2]. rewrite D. change (Z.pos (digits2_pos (2 ^ 23))) with 24.
  rewrite fexp_def. replace (Z.min (Z.max (24 + e - (24 + (23 - 23)) - 24) (-149)) (e - (23 - 23))) with (e - 24) by lia.
  replace (e - (23 - 23) - (e - 24)) with 24 by lia. cbv match.
  replace (Z.shiftl (Z.pos p) 24) with (Z.pos p * 2 ^ 24) by (symmetry; apply Z.shiftl_mul_pow2; lia).
  assert (Dv : Z.div_eucl (Z.pos p * 2 ^ 24) (Z.pos (2 ^ 23)) = (Z.pos p * 2, 0)).
  { rewrite (surjective_pairing (Z.div_eucl _ _)).
    change (snd (Z.div_eucl (Z.pos p * 2 ^ 24) (Z.pos (2 ^ 23)))) with ((Z.pos p * 2 ^ 24) mod (Z.pos (2 ^ 23))).
    change (fst (Z.div_eucl (Z.pos p * 2 ^ 24) (Z.pos (2 ^ 23)))) with ((Z.pos p * 2 ^ 24) / (Z.pos (2 ^ 23))).
    replace (Z.pos p * 2 ^ 24) with (Z.pos p * 2 * Z.pos (2 ^ 23)) by lia.
    rewrite Z.div_mul, Z.mod_mul by lia. reflexivity. }
  rewrite Dv. change (new_location (Z.pos (2 ^ 23)) 0) with loc_Exact.
  change (Z.pos p * 2) with (Z.pos (p * 2)).
  rewrite (aux_exact false (p * 2) (e - 24) (Z.pos p) (e - 23)); [reflexivity|split; [lia|split; [lia|lia]]|lia|].
  replace (e - 23 - (e - 24)) with 1 by lia. lia.
Qed.
Lemma fmul_exact s1 m1 e1 s2 m2 e2 m' e' : canon m' e' -> e1 + e2 <= e' -> Z.pos m1 * Z.pos m2 = m' * 2 ^ (e' - (e1 + e2)) ->
  fmul (S754_finite s1 m1 e1) (S754_finite s2 m2 e2) = S754_finite (xorb s1 s2) (Z.to_pos m') e'.
Proof. intros C L E. unfold fmul. cbn [SFmul]. apply aux_exact; assumption. Qed.
Lemma frac_exact m k : 0 <= k <= 23 -> 2 ^ 23 <= m * 2 ^ k < 2 ^ 24 ->
  fdiv (ofInt m) (powf2 23) = S754_finite false (Z.to_pos (m * 2 ^ k)) (- k - 23).
Proof. intros Hk H. rewrite (ofInt_exact m k) by assumption. apply fdiv_23; lia. Qed.
Lemma shl_align_fst m e e' : e' <= e -> Z.pos (fst (shl_align m e e')) = Z.pos m * 2 ^ (e - e').
Proof.
  intros H. unfold shl_align. destruct (e' - e) as [|p|p] eqn:E; cbn [fst].
  - replace (e - e') with 0 by lia. lia.
  - lia.
  - rewrite shift_pos_mul. replace (e - e') with (Z.pos p) by lia. reflexivity.
Qed.
Lemma one_float : ofInt 1 = S754_finite false (2 ^ 23) (-23).
Proof. reflexivity. Qed.
Lemma onePlus m k : 0 < m < 2 ^ 23 -> 0 <= k <= 23 -> 2 ^ 23 <= m * 2 ^ k < 2 ^ 24 ->
  fadd (ofInt 1) (S754_finite false (Z.to_pos (m * 2 ^ k)) (- k - 23)) = S754_finite false (Z.to_pos (2 ^ 23 + m)) (-23).
Proof.
  intros Hm Hk H. rewrite one_float. unfold fadd. cbn [SFadd]. rewrite Z.min_r by lia. cbn [cond_Zopp].
  rewrite !shl_align_fst by lia. rewrite Z2Pos.id by lia.
  replace (-23 - (- k - 23)) with k by lia. replace (- k - 23 - (- k - 23)) with 0 by lia.
  change (Z.pos (2 ^ 23)) with (2 ^ 23). rewrite Z.pow_0_r, Z.mul_1_r.
  assert (0 < 2 ^ k) by (apply Z.pow_pos_nonneg; lia).
  destruct (2 ^ 23 * 2 ^ k + m * 2 ^ k) as [|q|q] eqn:Eq; [lia| |lia]. cbn [binary_normalize].
  apply round_exact.
  - split; [lia|]. split; lia.
  - unfold veq. rewrite Z.min_l by lia. rewrite Z.sub_diag, Z.pow_0_r. replace (-23 - (- k - 23)) with k by lia. lia.
Qed.
Lemma fmul_one_pow s k : -126 <= k <= 127 -> fmul (powfMinus1 s) (powf2 k) = S754_finite (Z.odd s) (2 ^ 23) (k - 23).
Proof.
  intros H. unfold powfMinus1, powf2. rewrite (fmul_exact _ _ _ _ _ _ (2 ^ 23) (k - 23)).
  - rewrite xorb_false_r. reflexivity.
  - split; [lia|]. split; lia.
  - lia.
  - replace (k - 23 - (-23 + (k - 23))) with 23 by lia. reflexivity.
Qed.

Lemma word_parts s e m : isSign s -> 0 <= e <= 255 -> isMantissa m -> partsOf (word s e m) = mkParts m e s.
Proof.
  unfold isMantissa. intros Hs He Hm. unfold partsOf, word. f_equal.
  - replace (s * 2 ^ 31 + e * 2 ^ 23 + m) with (m + (s * 2 ^ 8 + e) * 2 ^ 23) by lia. rewrite Z.mod_add by lia. apply Z.mod_small. lia.
  - replace (s * 2 ^ 31 + e * 2 ^ 23 + m) with (m + (s * 2 ^ 8 + e) * 2 ^ 23) by lia. rewrite Z.div_add by lia.
    rewrite Z.div_small by lia. replace (0 + (s * 2 ^ 8 + e)) with (e + s * 2 ^ 8) by lia. rewrite Z.mod_add by lia. apply Z.mod_small. lia.
  - replace (s * 2 ^ 31 + e * 2 ^ 23 + m) with ((e * 2 ^ 23 + m) + s * 2 ^ 31) by lia. rewrite Z.div_add by lia.
    rewrite Z.div_small by lia. destruct Hs as [-> | ->]; reflexivity.
Qed.
Lemma odd_sign s : isSign s -> Z.odd s = (s =? 1).
Proof. intros [-> | ->]; reflexivity. Qed.

Lemma decode_normal s e m : isSign s -> isNormalExponent e -> isMantissa m ->
  FloatToNative (word s e m) = finite s (2 ^ 23 + m) (e - 150).
Proof.
  unfold isNormalExponent. intros Hs He Hm. unfold FloatToNative. rewrite word_parts by (assumption || lia). cbn [exponent mantissa sign].
  destruct (Z.eqb_spec e 0); [lia|]. destruct (Z.eqb_spec e FLOAT_EXP_MAX); [unfold FLOAT_EXP_MAX in *; lia|].
  unfold FLOAT_BIAS, FLOAT_MANT_SIZE. rewrite fmul_one_pow by lia. unfold isMantissa in Hm.
  assert (A : fadd (ofInt 1) (fdiv (ofInt m) (powf2 23)) = S754_finite false (Z.to_pos (2 ^ 23 + m)) (-23)).
  { destruct (Z.eq_dec m 0) as [-> |Nm]; [reflexivity|]. destruct (norm_exists m) as (k & Hk & H); [lia|].
    rewrite (frac_exact m k) by assumption. apply onePlus; (assumption || lia). }
  rewrite A. rewrite (fmul_exact _ _ _ _ _ _ (2 ^ 23 + m) (e - 150)).
  - rewrite xorb_false_r, odd_sign by assumption. reflexivity.
  - split; [lia|]. split; lia.
  - lia.
  - rewrite Z2Pos.id by lia. replace (e - 150 - (e - 127 - 23 + -23)) with 23 by lia. change (Z.pos (2 ^ 23)) with (2 ^ 23). lia.
Qed.
Lemma decode_subnormal s m : isSign s -> isMantissa m -> m <> 0 -> FloatToNative (word s 0 m) = finite s m (-149).
Proof.
  intros Hs Hm Nm. unfold FloatToNative. rewrite word_parts by (assumption || lia). cbn [exponent mantissa sign].
  destruct (Z.eqb_spec 0 0); [|lia]. destruct (Z.eqb_spec m 0); [lia|].
  unfold FLOAT_BIAS, FLOAT_MANT_SIZE. rewrite fmul_one_pow by lia. unfold isMantissa in Hm.
  destruct (norm_exists m) as (k & Hk & H); [lia|]. rewrite (frac_exact m k) by assumption.
  rewrite (fmul_exact _ _ _ _ _ _ m (-149)).
  - rewrite xorb_false_r, odd_sign by assumption. reflexivity.
  - split; [lia|]. split; lia.
  - lia.
  - rewrite Z2Pos.id by lia. change (Z.pos (2 ^ 23)) with (2 ^ 23). replace (-149 - (1 - 127 - 23 + (- k - 23))) with (23 + k) by lia.
    rewrite Z.pow_add_r by lia. lia.
Qed.
Lemma decode_zero s : isSign s -> FloatToNative (word s 0 0) = S754_zero false.
Proof. intros [-> | ->]; reflexivity. Qed.
Lemma decode_special s m : isSign s -> isMantissa m ->
  FloatToNative (word s 255 m) = if m =? 2 ^ 23 - 1 then S754_infinity false else S754_nan.
Proof.
  intros Hs Hm. unfold FloatToNative. rewrite word_parts by (assumption || lia). reflexivity.
Qed.
Lemma word_cases w : isWord w -> exists s e m, w = word s e m /\ isSign s /\ 0 <= e <= 255 /\ isMantissa m.
Proof.
  unfold isWord, isSign, isMantissa, word. intros H.
  pose proof (Z.div_mod w (2 ^ 23) ltac:(lia)) as A. pose proof (Z.mod_pos_bound w (2 ^ 23) ltac:(lia)) as A'.
  pose proof (Z.div_mod (w / 2 ^ 23) (2 ^ 8) ltac:(lia)) as B. pose proof (Z.mod_pos_bound (w / 2 ^ 23) (2 ^ 8) ltac:(lia)) as B'.
  exists (w / 2 ^ 23 / 2 ^ 8), (w / 2 ^ 23 mod 2 ^ 8), (w mod 2 ^ 23).
  assert (0 <= w / 2 ^ 23 < 2 ^ 9) by (split; [apply Z.div_pos; lia|apply Z.div_lt_upper_bound; lia]).
  assert (0 <= w / 2 ^ 23 / 2 ^ 8 < 2) by (split; [apply Z.div_pos; lia|apply Z.div_lt_upper_bound; lia]).
  repeat split; lia.
Qed.
Lemma word_inj s e m s' e' m' : isSign s -> 0 <= e <= 255 -> isMantissa m -> isSign s' -> 0 <= e' <= 255 -> isMantissa m' ->
  word s e m = word s' e' m' -> s = s' /\ e = e' /\ m = m'.
Proof.
  intros A B C A' B' C' E. assert (P : partsOf (word s e m) = partsOf (word s' e' m')) by (rewrite E; reflexivity).
  rewrite !word_parts in P by assumption. injection P as -> -> ->. auto.
Qed.
Lemma wordOf_word s e m : isSign s -> 0 <= e <= 255 -> isMantissa m -> wordOf (mkParts m e s) = word s e m.
Proof.
  unfold isMantissa. intros Hs He Hm. unfold wordOf, word. cbn [mantissa exponent sign]. rewrite !Z.mod_small by (destruct Hs; lia). lia.
Qed.

(* Encoding *)
Definition bit (s : bool) : Z := if s then 1 else 0.
Lemma bit_sign s : isSign (bit s).
Proof. destruct s; [right|left]; reflexivity. Qed.
Lemma sign_word s e m p : 0 <= e <= 255 -> isMantissa p ->
  wordOf (mkParts p e (if geZero (S754_finite s m 0) then 0 else -1)) = word (bit s) e p.
Proof.
  intros He Hp. destruct s; cbn.
  - transitivity (wordOf (mkParts p e 1)); [reflexivity|]. apply wordOf_word; [now right|assumption..].
  - apply wordOf_word; [now left|assumption..].
Qed.
Lemma geZero_exp s m e : geZero (S754_finite s m e) = geZero (S754_finite s m 0).
Proof. reflexivity. Qed.
Lemma digits24 m : 2 ^ 23 <= Z.pos m < 2 ^ 24 -> digits2_pos m = 24%positive.
Proof. intros H. apply pos_eq. apply digits_unique; lia. Qed.
Lemma encode_normal s m e : canon (Z.pos m) e -> 2 ^ 23 <= Z.pos m ->
  NativeToFloat (S754_finite s m e) = word (bit s) (e + 150) (Z.pos m - 2 ^ 23).
Proof.
  intros C Hm. pose proof C as (H1 & H2 & H3). unfold NativeToFloat. cbn [fpclassify].
  destruct (Z.leb_spec (2 ^ 23) (Z.pos m)) as [G0|G0]; [|lia].
  assert (F : SFfrexp 24 128 (S754_finite s m e) = (S754_finite s m (-24), e + 24)).
  { cbn [SFfrexp]. rewrite (digits24 m) by lia. reflexivity. }
  rewrite F. cbn [SFabs]. unfold FLOAT_RADIX, FLOAT_MANT_SIZE, FLOAT_BIAS.
  change (ofInt 2) with (S754_finite false (2 ^ 23) (-22)). rewrite one_float.
  rewrite (fmul_exact _ _ _ _ _ _ (Z.pos m) (-23)); [|split; [lia|split; lia]|lia|reflexivity].
  cbn [xorb Z.to_pos]. unfold fsub. cbn [SFsub cond_Zopp]. change (Z.min (-23) (-23)) with (-23). rewrite !shl_align_fst by lia.
  change (-23 - -23) with 0. rewrite Z.pow_0_r, !Z.mul_1_r. change (Z.pos (2 ^ 23)) with (2 ^ 23).
  assert (T : toInt (fmul (binary_normalize 24 128 (Z.pos m - 2 ^ 23) (-23) false) (powf2 23)) = Z.pos m - 2 ^ 23).
  { destruct (Z.pos m - 2 ^ 23) as [|j|j] eqn:Ej; [reflexivity| |lia]. cbn [binary_normalize].
    destruct (norm_exists (Z.pos j)) as (k & Hk & H); [lia|].
    rewrite (round_exact false j (-23) (Z.pos j * 2 ^ k) (-23 - k)).
    - unfold powf2. rewrite (fmul_exact _ _ _ _ _ _ (Z.pos j * 2 ^ k) (- k)).
      + cbn [toInt xorb]. rewrite Z2Pos.id by lia. destruct (Z.leb_spec 0 (- k)) as [L|L].
        * replace k with 0 by lia. cbn. lia.
        * rewrite Z.opp_involutive. apply Z.div_mul. apply Z.pow_nonzero; lia.
      + split; [lia|]. split; lia.
      + lia.
      + rewrite Z2Pos.id by lia. replace (- k - (-23 - k + (23 - 23))) with 23 by lia. reflexivity.
    - split; [lia|]. split; lia.
    - unfold veq. rewrite Z.min_r by lia. rewrite Z.sub_diag, Z.pow_0_r. replace (-23 - (-23 - k)) with k by lia. lia. }
  rewrite T, geZero_exp. replace (e + 24 - 1 + 127) with (e + 150) by lia. apply sign_word; [lia|]. unfold isMantissa. lia.
Qed.
Lemma encode_subnormal s m e k : canon (Z.pos m) e -> 0 <= k -> 2 ^ 22 <= Z.pos m * 2 ^ k < 2 ^ 23 ->
  NativeToFloat (S754_finite s m e) = word (bit s) 0 (Z.pos m * 2 ^ k).
Proof.
  intros C Hk H. pose proof C as (H1 & H2 & H3). assert (P : 0 < 2 ^ k) by (apply Z.pow_pos_nonneg; lia).
  unfold NativeToFloat. cbn [fpclassify].
  destruct (Z.leb_spec (2 ^ 23) (Z.pos m)) as [L|L]; [nia|].
  assert (D : Z.pos (digits2_pos m) = 23 - k).
  { assert (D : Z.pos (digits2_pos (Z.to_pos (Z.pos m * 2 ^ k))) = 23) by (apply digits_unique; [lia|]; rewrite Z2Pos.id by lia; exact H).
    rewrite (digits_shift m _ k) in D; [lia|exact Hk|]. rewrite Z2Pos.id by lia. reflexivity. }
  assert (F : exists x, SFfrexp 24 128 (S754_finite s m e) = (S754_finite s (Z.to_pos (Z.pos m * 2 ^ (k + 1))) (-24), x)).
  { cbn [SFfrexp]. destruct (Pos.leb_spec (Z.to_pos 24) (digits2_pos m)) as [G|G].
    - change (Z.to_pos 24) with 24%positive in G. lia.
    - eexists. f_equal. f_equal. apply pos_eq. rewrite shift_pos_mul. rewrite D.
      rewrite !Z2Pos.id; [f_equal; f_equal; lia| |lia].
      rewrite Z.pow_add_r by lia. nia. }
  destruct F as (x & F). rewrite F. cbn [SFabs]. unfold FLOAT_MANT_SIZE, powf2.
  assert (E1 : Z.pos m * 2 ^ (k + 1) = Z.pos m * 2 ^ k * 2) by (rewrite Z.pow_add_r by lia; change (2 ^ 1) with 2; lia).
  rewrite (fmul_exact _ _ _ _ _ _ (Z.pos m * 2 ^ (k + 1)) (-1)).
  - cbn [toInt xorb]. change (0 <=? -1) with false. cbv iota. rewrite Z2Pos.id by lia. change (2 ^ (- -1)) with 2.
    rewrite E1, Z.div_mul by lia. rewrite geZero_exp. apply sign_word; [lia|]. unfold isMantissa. lia.
  - split; [lia|]. split; lia.
  - lia.
  - rewrite Z2Pos.id by lia. reflexivity.
Qed.
Lemma norm22 m : 0 < m < 2 ^ 23 -> exists k, 0 <= k /\ 2 ^ 22 <= m * 2 ^ k < 2 ^ 23.
Proof.
  intros H. destruct (norm_exists m) as (k & Hk & B); [lia|].
  assert (k <> 0) by (intros ->; cbn in B; lia). exists (k - 1). split; [lia|].
  replace k with (k - 1 + 1) in B by lia. rewrite Z.pow_add_r in B by lia. change (2 ^ 1) with 2 in B. lia.
Qed.

Lemma bytesDiffer_spec n : forall a b, 0 <= a < 256 ^ Z.of_nat n -> 0 <= b < 256 ^ Z.of_nat n -> bytesDiffer n a b = if a =? b then 0 else 1.
Proof.
  induction n as [|n IH]; intros a b Ha Hb.
  - cbn in *. destruct (Z.eqb_spec a b); [reflexivity|lia].
  - cbn [bytesDiffer]. rewrite Nat2Z.inj_succ, Z.pow_succ_r in Ha, Hb by lia.
    rewrite IH by (split; [apply Z.div_pos; lia|apply Z.div_lt_upper_bound; lia]).
    pose proof (Z.div_mod a 256 ltac:(lia)). pose proof (Z.div_mod b 256 ltac:(lia)).
    destruct (Z.eqb_spec (a mod 256) (b mod 256)), (Z.eqb_spec (a / 256) (b / 256)), (Z.eqb_spec a b); try reflexivity; exfalso; try (subst; congruence); try lia.
Qed.
