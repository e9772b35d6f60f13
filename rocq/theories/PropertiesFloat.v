(* C31: the portable float format (float.c) *)
From Verif Require Import FloatModel FloatSpec FloatProofs.
Local Open Scope Z_scope.

(* What every bit pattern decodes to.  Finite patterns have their IEEE value
   except that -0 becomes 0; only the pattern with all exponent and mantissa
   bits set is an infinity, always the positive one. *)
Theorem float_decode_value : forall s e m, isSign s -> isMantissa m ->
  (isNormalExponent e -> FloatToNative (word s e m) = finite s (2 ^ 23 + m) (e - 150)) /\
  (m <> 0 -> FloatToNative (word s 0 m) = finite s m (-149)) /\
  FloatToNative (word s 0 0) = S754_zero false /\
  FloatToNative (word s 255 m) = (if m =? 2 ^ 23 - 1 then S754_infinity false else S754_nan).
Proof.
  intros s e m Hs Hm. split; [intros He; now apply decode_normal|]. split; [intros N; now apply decode_subnormal|].
  split; [now apply decode_zero|now apply decode_special].
Qed.
Print Assumptions float_decode_value.
(* -6.25 = - 25 / 4 *)
Example float_decode_example : isSign 1 /\ isMantissa 4718592 /\ isNormalExponent 129 /\
  finite 1 (2 ^ 23 + 4718592) (129 - 150) = S754_finite true 13107200 (-21) /\ 13107200 * 4 = 25 * 2 ^ 21 /\
  FloatToNative (word 1 129 4718592) = S754_finite true 13107200 (-21).
Proof. unfold isSign, isMantissa, isNormalExponent. repeat split; auto; lia. Qed.

(* C31, native to portable and back: the value is kept exactly by zeros, normal
   numbers, NaN, plus infinity and the upper half of the subnormal numbers. *)
Theorem float_encode_decode : forall x, isFloat x ->
  (sameValue (FloatToNative (NativeToFloat x)) x <->
   x <> S754_infinity true /\ forall s m e, x = S754_finite s m e -> 2 ^ 22 <= Z.pos m).
Proof.
  intros x Hx. destruct x as [s|s| |s m e].
  - split; [intros _; split; congruence|]. intros _. right. split; [|now exists s]. exists false. reflexivity.
  - destruct s; (split; [intros [H|(_ & (z & H))]; [|discriminate H]; try discriminate H; split; congruence|]).
    + intros (H & _). congruence.
    + intros _. left. reflexivity.
  - split; [intros _; split; congruence|]. intros _. left. reflexivity.
  - apply canon_float in Hx. pose proof Hx as (H1 & H2 & H3).
    destruct (Z.le_gt_cases (2 ^ 23) (Z.pos m)) as [N|N].
    + split; [intros _; split; [congruence|intros s' m' e' E; injection E as <- <- <-; lia]|]. intros _. left.
      rewrite encode_normal by assumption. rewrite decode_normal; [|apply bit_sign|unfold isNormalExponent; lia|unfold isMantissa; lia].
      unfold finite. replace (2 ^ 23 + (Z.pos m - 2 ^ 23)) with (Z.pos m) by lia. cbn [Z.to_pos].
      replace (e + 150 - 150) with e by lia. f_equal. destruct s; reflexivity.
    + assert (e = -149) by lia. subst e. destruct (norm22 (Z.pos m)) as (k & Hk & B); [lia|].
      assert (D : FloatToNative (NativeToFloat (S754_finite s m (-149))) = S754_finite s (Z.to_pos (Z.pos m * 2 ^ k)) (-149)).
      { rewrite (encode_subnormal s m (-149) k) by assumption. rewrite decode_subnormal; [|apply bit_sign|unfold isMantissa; lia|lia].
        unfold finite. f_equal. destruct s; reflexivity. }
      rewrite D. split.
      * intros [E|((z & E) & _)]; [|discriminate E]. split; [congruence|]. intros s' m' e' E'. injection E' as <- <- <-.
        assert (E2 : Z.to_pos (Z.pos m * 2 ^ k) = m) by congruence. apply (f_equal Z.pos) in E2. rewrite Z2Pos.id in E2 by lia. lia.
      * intros (_ & G). specialize (G s m (-149) eq_refl). left. f_equal. apply pos_eq. rewrite Z2Pos.id by lia.
        assert (k = 0). { destruct (Z.eq_dec k 0) as [|Nk]; [assumption|]. assert (2 ^ 1 <= 2 ^ k) by (apply Z.pow_le_mono_r; lia). nia. }
        subst k. lia.
Qed.
Print Assumptions float_encode_decode.
Example float_encode_decode_example : isFloat (S754_finite true 13107200 (-21)) /\
  NativeToFloat (S754_finite true 13107200 (-21)) = 3234332672 /\
  FloatToNative 3234332672 = S754_finite true 13107200 (-21).
Proof. repeat split. Qed.
(* C31 refuted: the smallest positive float comes back 2^22 times as large; minus
   infinity as plus infinity. *)
Theorem float_encode_decode_refuted :
  (isFloat (S754_finite false 1 (-149)) /\ FloatToNative (NativeToFloat (S754_finite false 1 (-149))) = S754_finite false 4194304 (-149)) /\
  FloatToNative (NativeToFloat (S754_infinity true)) = S754_infinity false.
Proof. repeat split. Qed.
Print Assumptions float_encode_decode_refuted.

(* C31, portable to native and back. *)
Theorem float_decode_encode : forall s e m, isSign s -> 0 <= e <= 255 -> isMantissa m ->
  (NativeToFloat (FloatToNative (word s e m)) = word s e m <->
   isNormalExponent e \/ (e = 0 /\ 2 ^ 22 <= m) \/ (s = 0 /\ e = 0 /\ m = 0) \/ (s = 0 /\ e = 255 /\ (m = 1 \/ m = 2 ^ 23 - 1))).
Proof.
  intros s e m Hs He Hm. pose proof Hm as Hm'. unfold isMantissa in Hm'.
  assert (S1 : bit (s =? 1) = s) by (destruct Hs as [-> | ->]; reflexivity).
  destruct (Z.eq_dec e 0) as [-> |N0]; [|destruct (Z.eq_dec e 255) as [-> |N1]].
  - destruct (Z.eq_dec m 0) as [-> |Nm].
    + rewrite decode_zero by assumption. change (NativeToFloat (S754_zero false)) with (word 0 0 0).
      unfold isNormalExponent. split.
      * intros E. apply word_inj in E; [|assumption || now left || lia..]. right; right; left. lia.
      * intros [H|[H|[(-> & _)|H]]]; [lia|lia|reflexivity|lia].
    + rewrite decode_subnormal by assumption. unfold finite. destruct (norm22 m) as (k & Hk & B); [lia|].
      rewrite (encode_subnormal (s =? 1) (Z.to_pos m) (-149) k); [| |exact Hk|rewrite Z2Pos.id by lia; exact B].
      2: { rewrite Z2Pos.id by lia. split; [lia|]. split; lia. }
      rewrite Z2Pos.id by lia. rewrite S1. split.
      * intros E. apply word_inj in E; [|assumption || (unfold isMantissa; lia) || lia..]. destruct E as (_ & _ & E). right; left. lia.
      * intros G. f_equal. assert (2 ^ 22 <= m) by (unfold isNormalExponent in G; lia).
        assert (k = 0). { destruct (Z.eq_dec k 0) as [|Nk]; [assumption|]. assert (2 ^ 1 <= 2 ^ k) by (apply Z.pow_le_mono_r; lia). nia. }
        subst k. lia.
  - rewrite decode_special by assumption. destruct (Z.eqb_spec m (2 ^ 23 - 1)) as [-> |Nm].
    + change (NativeToFloat (S754_infinity false)) with (word 0 255 (2 ^ 23 - 1)). split.
      * intros E. apply word_inj in E; [|assumption || now left || (unfold isMantissa; lia) || lia..]. right; right; right. lia.
      * intros H. assert (s = 0) by (unfold isNormalExponent in H; lia). subst s. reflexivity.
    + change (NativeToFloat S754_nan) with (word 0 255 1). split.
      * intros E. apply word_inj in E; [|assumption || now left || (unfold isMantissa; lia) || lia..]. right; right; right. lia.
      * intros H. assert (s = 0 /\ m = 1) as (-> & ->) by (unfold isNormalExponent in H; lia). reflexivity.
  - assert (N : isNormalExponent e) by (unfold isNormalExponent; lia). split; [intros _; left; exact N|]. intros _.
    rewrite decode_normal by assumption. unfold finite. rewrite encode_normal; rewrite ?Z2Pos.id by lia; [| |lia].
    + rewrite S1. f_equal; lia.
    + unfold canon. lia.
Qed.
Print Assumptions float_decode_encode.
Example float_decode_encode_example : word 1 129 4718592 = 3234332672 /\
  NativeToFloat (FloatToNative 3234332672) = 3234332672.
Proof. split; reflexivity. Qed.
(* C31 refuted: minus zero, both IEEE infinities (mantissa 0), most NaNs and
   small subnormal patterns change. *)
Theorem float_decode_encode_refuted :
  NativeToFloat (FloatToNative (word 1 0 0)) = word 0 0 0 /\
  NativeToFloat (FloatToNative (word 0 255 0)) = word 0 255 1 /\
  NativeToFloat (FloatToNative (word 1 255 0)) = word 0 255 1 /\
  NativeToFloat (FloatToNative (word 0 0 1)) = word 0 0 (2 ^ 22).
Proof. repeat split. Qed.
Print Assumptions float_decode_encode_refuted.

(* FloatIsEqual returns zero exactly for equal bytes. *)
Theorem float_is_equal : forall a b, isWord a -> isWord b -> (FloatIsEqual a b = 0 <-> a = b) /\ (FloatIsEqual a b = 0 \/ FloatIsEqual a b = 1).
Proof.
  intros a b Ha Hb. unfold FloatIsEqual. rewrite bytesDiffer_spec by (unfold isWord in *; cbn; lia).
  destruct (Z.eqb_spec a b); (split; [split|]); intros; auto; try discriminate; congruence.
Qed.
Print Assumptions float_is_equal.
Example float_is_equal_example : isWord 3234332672 /\ FloatIsEqual 3234332672 3234332672 = 0 /\ FloatIsEqual 3234332672 3234267136 = 1.
Proof. unfold isWord. repeat split; lia. Qed.
