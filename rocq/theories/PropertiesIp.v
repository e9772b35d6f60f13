(* C24 - C28, C64, C65: IP addresses (ip.c, IpAddress.cpp) *)
From Verif Require Import IpModel IpSpec IpProofs.
From Coq Require Import Ascii String.
Open Scope string_scope.
Definition text (s : string) : list Z := map (fun c => Z.of_nat (nat_of_ascii c)) (list_ascii_of_string s).
Close Scope string_scope.

(* C24.  Whatever follows the text: its end, a space or a comma. *)
Theorem ip_v4_parses : forall a b c d rest, isByte a -> isByte b -> isByte c -> isByte d -> ended rest ->
  IpParseAddress (quad a b c d ++ rest) (List.length (quad a b c d)) = Some (mkAddr V4 [a; b; c; d]).
Proof. exact quad_parse. Qed.
Print Assumptions ip_v4_parses.
Example ip_v4_example : quad 192 168 0 25 = text "192.168.0.25" /\
  IpParseAddress (text "192.168.0.25,x") 12 = Some (mkAddr V4 [192; 168; 0; 25]%Z).
Proof. split; reflexivity. Qed.

(* C25 *)
Theorem ip_v6_parses : forall t gs rest, ipv6Text t gs -> ended rest ->
  IpParseAddress (t ++ rest) (List.length t) = Some (mkAddr V6 (groupBytes gs)).
Proof. intros t gs rest Ht HR. exact (ipText_parse t (false, groupBytes gs) rest (v6Text t gs Ht) HR). Qed.
Print Assumptions ip_v6_parses.
Lemma hd0 c v : (Z.leb 48 c && Z.leb c 57 = true)%Z -> v = (c - 48)%Z -> hexDigit c v.
Proof. intros H ->. apply andb_true_iff in H. destruct H as (A & B). apply Z.leb_le in A, B. left. lia. Qed.
Lemma hdl c v : (Z.leb 97 c && Z.leb c 102 = true)%Z -> v = (c - 87)%Z -> hexDigit c v.
Proof. intros H ->. apply andb_true_iff in H. destruct H as (A & B). apply Z.leb_le in A, B. right. lia. Qed.
Example ip_v6_example :
  ipv6Text (text "2001:db8::00a1") [8193; 3512; 0; 0; 0; 0; 0; 161]%Z /\
  IpParseAddress (text "2001:db8::00a1") 14 = Some (mkAddr V6 [32; 1; 13; 184; 0; 0; 0; 0; 0; 0; 0; 0; 0; 0; 0; 161]%Z) /\
  IpParseAddress (text "::") 2 = Some (mkAddr V6 (repeat 0%Z 16)) /\
  IpParseAddress (text "fe80::") 6 = Some (mkAddr V6 ([254; 128]%Z ++ repeat 0%Z 14)) /\
  IpParseAddress (text "::ffff:10.0.0.1") 15 = Some (mkAddr V6 (repeat 0%Z 10 ++ [255; 255; 10; 0; 0; 1]%Z)).
Proof.
  split; [|repeat split; reflexivity].
  apply (abbreviated [text "2001"; text "db8"] [8193; 3512]%Z [text "00a1"] [161]%Z); [| |cbn; lia].
  - constructor; [|constructor; [|constructor]].
    + exists [2; 0; 0; 1]%Z. split; [|split; [cbn; lia|reflexivity]]. repeat (apply Forall2_cons; [apply hd0; reflexivity|]). constructor.
    + exists [13; 11; 8]%Z. split; [|split; [cbn; lia|reflexivity]]. repeat (apply Forall2_cons; [(apply hd0; reflexivity) || (apply hdl; reflexivity)|]). constructor.
  - constructor; [|constructor]. exists [0; 0; 10; 1]%Z. split; [|split; [cbn; lia|reflexivity]].
    repeat (apply Forall2_cons; [(apply hd0; reflexivity) || (apply hdl; reflexivity)|]). constructor.
Qed.

(* C26 refuted: every part of a text writes one byte (IPv4) or two (IPv6), the
   memory is for 4 or 16; two abbreviations are both filled; a dotted part of
   an IPv6 text that is empty is written but not counted. *)
Theorem ip_parse_out_of_bounds_refuted :
  IpParseAddress (text "1.2.3.4.5") 9 = None /\
  IpParseAddress (text "1:2:3:4:5:6:7:8:9") 17 = None /\
  IpParseAddress (text "1::2::3") 7 = None /\
  IpParseAddress (text "::1..2") 6 = None.
Proof. repeat split; reflexivity. Qed.
Print Assumptions ip_parse_out_of_bounds_refuted.

(* C25, for texts that end in an IPv4 address *)
Theorem ip_v6_mixed_parses : forall t bytes rest, mixedText t bytes -> ended rest ->
  IpParseAddress (t ++ rest) (List.length t) = Some (mkAddr V6 bytes).
Proof. intros t bytes rest Ht HR. exact (ipText_parse t (false, bytes) rest (v6Mixed t bytes Ht) HR). Qed.
Print Assumptions ip_v6_mixed_parses.
Example ip_v6_mixed_example :
  mixedText (text "::ffff:1.2.3.4") (repeat 0%Z 10 ++ [255; 255; 1; 2; 3; 4]%Z) /\
  mixedText (text "64:ff9b::192.0.2.33") ([0; 100; 255; 155]%Z ++ repeat 0%Z 8 ++ [192; 0; 2; 33]%Z).
Proof.
  split.
  - apply (mixedAbbreviated [] [] [text "ffff"] [65535%Z] 1 2 3 4); try (unfold isByte; lia); [constructor|constructor; [|constructor]|cbn; lia].
    exists [15; 15; 15; 15]%Z. split; [repeat (apply Forall2_cons; [first [apply hd0; reflexivity|apply hdl; reflexivity]|]); constructor|]. split; [cbn; lia|reflexivity].
  - apply (mixedAbbreviated [text "64"; text "ff9b"] [100; 65435]%Z [] [] 192 0 2 33); try (unfold isByte; lia);
      [constructor; [|constructor; [|constructor]]|constructor|cbn; lia].
    + exists [6; 4]%Z. split; [repeat (apply Forall2_cons; [first [apply hd0; reflexivity|apply hdl; reflexivity]|]); constructor|]. split; [cbn; lia|reflexivity].
    + exists [15; 15; 9; 11]%Z. split; [|split; [cbn; lia|reflexivity]].
      repeat (apply Forall2_cons; [first [apply hd0; reflexivity|apply hdl; reflexivity]|]). constructor.
Qed.

(* C92 refuted.  "A text that is no address is refused" is false: wrong numbers are cut to a
   byte or wrap, missing ones are 0, letters that are no digits are 0, the
   first digits of a group that is too long are ignored, and with too few
   parts the other bytes are not set. *)
Theorem ip_wrong_text_refuted :
  IpParseAddress (text "300.-1.x.1") 10 = Some (mkAddr V4 [255; 0; 0; 1]%Z) /\
  IpParseAddress (text "1..2.3") 6 = Some (mkAddr V4 [1; 0; 2; 3]%Z) /\
  IpParseAddress (text "4294967297.99999999999999999999.1.1") 35 = Some (mkAddr V4 [1; 0; 1; 1]%Z) /\
  IpParseAddress (text "-9223372036854775809.-4294967295.1.1") 36 = Some (mkAddr V4 [0; 1; 1; 1]%Z) /\
  IpParseAddress (text "1.2.3") 5 = Some (mkAddr V4 [1; 2; 3]%Z) /\
  IpParseAddress (text "1.2.3,") 5 = Some (mkAddr V4 [1; 2; 3]%Z) /\
  IpParseAddress (text ".") 1 = Some (mkAddr V4 []) /\
  IpParseAddress (text "1:2") 3 = Some (mkAddr V6 [0; 1; 0; 2]%Z) /\
  IpParseAddress (text "12345::g") 8 = Some (mkAddr V6 ([35; 69]%Z ++ repeat 0%Z 14)).
Proof. repeat split; reflexivity. Qed.
Print Assumptions ip_wrong_text_refuted.

(* C26, what does hold: a text whose first mark is a dot and that has at most
   four parts; a text without dots whose first mark is a colon and that has at
   most eight non empty parts and at most one inner empty part; a text without
   marks.  The characters are otherwise arbitrary. *)
Theorem ip_parse_in_bounds : forall s e, e <= List.length s -> ended (skipn e s) ->
  match mark (firstn e s) with
  | Some m =>
    (m = dot -> List.length (split (firstn e s)) <= 4 -> exists a, IpParseAddress s e = Some a /\ atype a = V4) /\
    (m = colon -> ~ In dot (firstn e s) -> nonEmpty (firstn e s) <= 8 -> innerEmpty (firstn e s) <= 1 ->
       exists a, IpParseAddress s e = Some a /\ atype a = V6)
  | None => IpParseAddress s e = Some (mkAddr INVALID [])
  end.
Proof.
  intros s e He Hend. destruct (ended_sep _ Hend) as (Hs & Hn). rewrite (ended_nth s e Hend He) in Hs, Hn.
  pose proof (iterate_type e s s 0 true INVALID He Hn) as Ht.
  destruct (mark (firstn e s)) as [m|] eqn:Em; cbn [typeOf] in Ht.
  - split; intros ->.
    + intros H4. eapply parse_v4; eauto.
    + intros Hd H8 H1. eapply parse_v6; eauto.
      intros c Hc ->. assert (firstn (S e) (s ++ [0%Z]) = firstn e s ++ [nth e s 0%Z]) as E.
      { clear -He. revert e He. induction s as [|x s IH]; intros [|e] He; cbn in *; auto; try lia. f_equal. apply IH. lia. }
      rewrite E in Hc. apply in_app_or in Hc. destruct Hc as [Hc|[Hc|[]]]; [now apply Hd|]. rewrite Hc in Hn. discriminate.
  - unfold IpParseAddress. destruct (iterateIpAddress s e INVALID) as (ty, cs) eqn:E. unfold iterateIpAddress in E. rewrite E in Ht. cbn [fst] in Ht. subst ty.
    assert (forall c : call, In c cs -> fst (fst c) = INVALID) as HI.
    { assert (forall left rest seg len first, fst (iterate left rest seg len first INVALID INVALID) = INVALID ->
        forall c, In c (snd (iterate left rest seg len first INVALID INVALID)) -> fst (fst c) = INVALID) as G.
      { clear. induction left as [|left IH]; intros rest seg len first Ht c; cbn [iterate] in *.
        - destruct (Nat.ltb _ _); [|contradiction]. destruct (isSep _); [|contradiction]. cbn [fst] in Ht. destruct first; [contradiction|].
          cbn [snd]. intros [<-|[]]. exact Ht.
        - destruct (Nat.ltb _ _); [|contradiction]. destruct (isSep _); [|eapply IH; eauto].
          set (cur' := getSegmentTypeWithSeparator (hd 0%Z rest) INVALID INVALID) in *.
          destruct cur' eqn:Ec.
          + pose proof (v4_stays left (tl rest) (tl rest) 0 false V4 V4 ltac:(discriminate)) as Q. destruct (iterate left _ _ _ _ V4 V4). cbn in *. congruence.
          + pose proof (v4_stays left (tl rest) (tl rest) 0 false V6 V6 ltac:(discriminate)) as Q. destruct (iterate left _ _ _ _ V6 V6). cbn in *. congruence.
          + specialize (IH (tl rest) (tl rest) 0 false). destruct (iterate left _ _ _ _ INVALID INVALID) as (t, cs). cbn [fst] in Ht. subst t.
            specialize (IH eq_refl). destruct first; cbn [snd] in *; [apply IH|]. intros [<-|Hi]; [reflexivity|now apply IH]. }
      intros c Hc. eapply (G e s s 0 true); rewrite E; [reflexivity|exact Hc]. }
    unfold iterateIpAddress. rewrite E. cbn [snd].
    assert (forall bp, flat_map (buildCall bp) cs = []) as ->.
    { intros bp. clear E. induction cs as [|c cs IH]; [reflexivity|]. cbn [flat_map]. rewrite IH by (intros; apply HI; now right).
      specialize (HI c (or_introl eq_refl)). destruct c as ((t, seg), len). cbn in HI. subst t. reflexivity. }
    reflexivity.
Qed.
Print Assumptions ip_parse_in_bounds.

(* C92, what does hold: a text without dots and colons is given the type INVALID
   and no bytes. *)
Theorem ip_unmarked_refused : forall s e, e <= List.length s -> ended (skipn e s) -> ~ In dot (firstn e s) -> ~ In colon (firstn e s) ->
  IpParseAddress s e = Some (mkAddr INVALID []).
Proof.
  intros s e He Hend Hd Hc. pose proof (ip_parse_in_bounds s e He Hend) as H.
  assert (mark (firstn e s) = None) as Em; [|now rewrite Em in H].
  clear -Hd Hc. induction (firstn e s) as [|x l IH]; [reflexivity|]. cbn [mark].
  destruct (Z.eqb_spec x dot) as [->|]; [exfalso; apply Hd; now left|]. destruct (Z.eqb_spec x colon) as [->|]; [exfalso; apply Hc; now left|].
  cbn [orb]. apply IH; intros Q; [apply Hd|apply Hc]; now right.
Qed.
Print Assumptions ip_unmarked_refused.
Example ip_unmarked_example : IpParseAddress (text "localhost, 1.2.3.4") 9 = Some (mkAddr INVALID []).
Proof. reflexivity. Qed.
Example ip_in_bounds_example :
  mark (text "zz.-4.999") = Some dot /\ List.length (split (text "zz.-4.999")) = 3 /\
  IpParseAddress (text "zz.-4.999") 9 = Some (mkAddr V4 [0; 0; 255]%Z) /\
  mark (text ":::g12:") = Some colon /\ nonEmpty (text "::g12:") = 1 /\ innerEmpty (text "::g12:") = 1 /\
  IpParseAddress (text "::g12:") 6 = Some (mkAddr V6 (repeat 0%Z 14 ++ [0; 18]%Z)) /\
  mark (text "localhost") = None.
Proof. repeat split; reflexivity. Qed.

(* C27.  The result has the sign of the numeric comparison; so it is zero only
   for equal addresses, antisymmetric and transitive. *)
Theorem ip_compare_is_numeric : forall t a b, (t = V4 /\ List.length a = 4 \/ t = V6 /\ List.length a = 16) ->
  List.length b = List.length a -> (forall x, In x a -> isByte x) -> (forall x, In x b -> isByte x) ->
  exists r, CompareIpAddresses a b t = Some r /\ Z.sgn r = Z.sgn (bigEndian a - bigEndian b) /\ (r = 0%Z <-> a = b).
Proof.
  intros t a b Ht Hl Ba Bb. assert (CompareIpAddresses a b t = compareBytes (List.length a) a b) as E.
  { unfold CompareIpAddresses. destruct Ht as [(-> & H)|(-> & H)]; now rewrite H. }
  destruct (compare_spec (List.length a) a b eq_refl Hl Ba Bb) as (r & Er & Es). exists r. split; [congruence|]. split; auto. split.
  - intros ->. apply bigEndian_inj; auto. cbn in Es. symmetry in Es. apply Z.sgn_null_iff in Es. lia.
  - intros <-. rewrite Z.sub_diag in Es. now apply Z.sgn_null_iff.
Qed.
Print Assumptions ip_compare_is_numeric.
Theorem ip_compare_total_order : forall t n a b c, (t = V4 /\ n = 4 \/ t = V6 /\ n = 16) ->
  List.length a = n -> List.length b = n -> List.length c = n ->
  (forall x, In x a -> isByte x) -> (forall x, In x b -> isByte x) -> (forall x, In x c -> isByte x) ->
  exists ab ba bc ac, CompareIpAddresses a b t = Some ab /\ CompareIpAddresses b a t = Some ba /\
  CompareIpAddresses b c t = Some bc /\ CompareIpAddresses a c t = Some ac /\
  (ab = 0 <-> a = b)%Z /\ Z.sgn ab = (- Z.sgn ba)%Z /\ (ab <= 0 -> bc <= 0 -> ac <= 0)%Z /\ (ab < 0 -> bc <= 0 -> ac < 0)%Z.
Proof.
  intros t n a b c Ht La Lb Lc Ba Bb Bc.
  assert (forall x : list Z, List.length x = n -> (t = V4 /\ List.length x = 4 \/ t = V6 /\ List.length x = 16)) as H by (intros x Hx; rewrite Hx; exact Ht).
  destruct (ip_compare_is_numeric t a b) as (ab & E1 & S1 & Z1); auto; [congruence|].
  destruct (ip_compare_is_numeric t b a) as (ba & E2 & S2 & Z2); auto; [congruence|].
  destruct (ip_compare_is_numeric t b c) as (bc & E3 & S3 & Z3); auto; [congruence|].
  destruct (ip_compare_is_numeric t a c) as (ac & E4 & S4 & Z4); auto; [congruence|].
  exists ab, ba, bc, ac. repeat (split; [assumption|]). clear -S1 S2 S3 S4.
  assert (forall x y, Z.sgn x = Z.sgn y -> (x <= 0 <-> y <= 0) /\ (x < 0 <-> y < 0))%Z as G by (intros x y; destruct x, y; cbn; intros; split; split; intros; lia).
  destruct (G _ _ S1), (G _ _ S3), (G _ _ S4). split; [|split; lia].
  rewrite S1, S2. rewrite <- Z.sgn_opp. f_equal. lia.
Qed.
Print Assumptions ip_compare_total_order.
Example ip_compare_example :
  CompareIpAddresses [10; 0; 0; 1]%Z [9; 255; 255; 255]%Z V4 = Some 1%Z /\ CompareIpAddresses [10; 0; 0; 1]%Z [10; 0; 1; 0]%Z V4 = Some (-1)%Z.
Proof. split; reflexivity. Qed.

(* C28 refuted: the values of the enumeration (0 and 1) are used as the number
   of bytes to copy, so no byte of an IPv4 address and one byte of an IPv6
   address is copied. *)
Theorem ip_wrapper_copy_refuted : forall old a copy size, List.length a = 16 -> List.length copy = size -> 1 <= size ->
  getCopyOfIpAddress (init old (firstn 4 a) V4) V4 copy size = copy /\
  getCopyOfIpAddress (init old a V6) V6 copy size = firstn 1 a ++ tl copy.
Proof.
  intros old a copy size Ha Hc Hs. destruct size as [|size]; [lia|]. split; [reflexivity|].
  destruct a as [|x a]; [discriminate|]. destruct copy as [|y copy]; [discriminate|].
  unfold getCopyOfIpAddress, init, typeValue. destruct (Nat.ltb_spec (S size) 1); [lia|]. reflexivity.
Qed.
Print Assumptions ip_wrapper_copy_refuted.
(* C28, what does hold: the object itself keeps the bytes *)
Theorem ip_wrapper_keeps_bytes : forall t old a, List.length old = 16 ->
  (t = V4 /\ List.length a = 4 \/ t = V6 /\ List.length a = 16) ->
  firstn (List.length a) (init old a t) = a /\ List.length (init old a t) = 16.
Proof.
  intros t old a Ho [(-> & H)|(-> & H)]; unfold init; rewrite ?H, ?firstn_length; split.
  - rewrite <- H at 1. rewrite firstn_app. replace (firstn 4 a) with a by (rewrite <- H; symmetry; apply firstn_all).
    now rewrite firstn_all, Nat.sub_diag, firstn_O, app_nil_r.
  - rewrite app_length, firstn_length, skipn_length. lia.
  - rewrite firstn_firstn, Nat.min_id, <- H. apply firstn_all.
  - rewrite ?firstn_length, ?H; lia.
Qed.
Print Assumptions ip_wrapper_keeps_bytes.
Example ip_wrapper_example : firstn 4 (init (repeat 7%Z 16) [1; 2; 3; 4]%Z V4) = [1; 2; 3; 4]%Z /\
  getCopyOfIpAddress (init (repeat 7%Z 16) [1; 2; 3; 4]%Z V4) V4 [9; 9; 9; 9]%Z 4 = [9; 9; 9; 9]%Z.
Proof. split; reflexivity. Qed.

(* C64: a list of addresses, any mix of both types *)
Theorem ip_list_parses : forall l r, ipTexts l r ->
  IpParseAddresses l = Some (map (fun b : bool * list Z => mkAddr (if fst b then V4 else V6) (snd b)) r).
Proof. exact ipTexts_parse. Qed.
Print Assumptions ip_list_parses.
Example ip_list_example :
  ipTexts (text "10.0.0.1,:: 1.2.3.4") [(true, [10; 0; 0; 1]%Z); (false, repeat 0%Z 16); (true, [1; 2; 3; 4]%Z)].
Proof.
  apply (moreTexts (quad 10 0 0 1) _ 44%Z); [constructor; unfold isByte; lia|auto|].
  apply (moreTexts (text "::") (false, repeat 0%Z 16) 32%Z); [|auto|].
  - apply (v6Text _ (repeat 0%Z 8)). apply (abbreviated [] [] [] []); [constructor|constructor|cbn; lia].
  - apply oneText. apply (v4Text 1 2 3 4); unfold isByte; lia.
Qed.

(* C65 refuted: the pointer passed to free is that of the address bytes, inside
   the allocated block (after the structure), never one returned by malloc. *)
Theorem ip_free_refuted : forall structSize blocks b l, 0 < structSize -> IpFreeAddresses structSize blocks (b :: l) = None.
Proof.
  intros n blocks b l H. cbn. unfold freePtr. cbn. destruct (Nat.eqb_spec n 0); [lia|]. now rewrite andb_false_r.
Qed.
Print Assumptions ip_free_refuted.
