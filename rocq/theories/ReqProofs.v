(* Proofs about RequiredPropertiesConfig.cpp *)
From Verif Require Export PropsProofs ReqSpec.

Lemma case_same a : forall b, Forall textChar a -> Forall textChar b -> (strcasecmp a b = 0%Z <-> sameText a b).
Proof.
  induction a as [|x a IH]; intros [|y b] Ta Tb.
  - cbn. split; [constructor|reflexivity].
  - apply Forall_inv in Tb. pose proof (lowerUnsigned_pos y Tb). cbn. split; [lia|intros H'; inversion H'].
  - apply Forall_inv in Ta. pose proof (lowerUnsigned_pos x Ta). cbn. split; [lia|intros H'; inversion H'].
  - apply Forall_cons_iff in Ta. apply Forall_cons_iff in Tb. destruct Ta as (Tx & Ta), Tb as (Ty & Tb). cbn [strcasecmp].
    rewrite (lower_rank x), (lower_rank y) by apply Tx || apply Ty. destruct (Z.eqb_spec (rank x - rank y) 0) as [E|E].
    + assert (S : sameLetter x y) by (apply rank_same; [apply Tx|apply Ty|lia]). rewrite (IH b Ta Tb).
      split; [intros H; now constructor|intros H; now inversion H].
    + split; [lia|]. intros H. inversion H as [|? ? ? ? S]; subst. apply rank_same in S; [lia|apply Tx|apply Ty].
Qed.

Lemma span_commas c : forall x l, Forall comma c -> x <> 44%Z -> spanSeparators (c ++ x :: l) = Some (length c).
Proof.
  induction c as [|y c IH]; intros x l F N; cbn.
  - destruct (Z.eqb_spec x 44); congruence.
  - apply Forall_cons_iff in F. destruct F as (-> & F). cbn. rewrite IH by assumption. reflexivity.
Qed.
Lemma span_token w : forall x l, Forall (fun x => ~ comma x) w -> Forall (fun x => x <> 0%Z) w -> x = 44%Z \/ x = 0%Z -> spanToken (w ++ x :: l) = Some (length w).
Proof.
  induction w as [|y w IH]; intros x l F G N; cbn.
  - destruct (Z.eqb_spec x 44), (Z.eqb_spec x 0); cbn; try reflexivity; lia.
  - apply Forall_cons_iff in F. apply Forall_cons_iff in G. destruct F as (Fy & F), G as (Gy & G). unfold comma in Fy.
    destruct (Z.eqb_spec y 44), (Z.eqb_spec y 0); try contradiction. cbn. rewrite IH by assumption. reflexivity.
Qed.
Lemma cstring_end w : forall l, Forall (fun x => x <> 0%Z) w -> cstring (w ++ 0%Z :: l) = w.
Proof.
  induction w as [|y w IH]; intros l G; cbn; [reflexivity|]. apply Forall_cons_iff in G. destruct G as (Gy & G).
  destruct (Z.eqb_spec y 0); [contradiction|]. now rewrite IH.
Qed.
Lemma set_mid a x y b : set (length a) x (a ++ y :: b) = a ++ x :: b.
Proof. induction a as [|z a IH]; cbn; [reflexivity|now rewrite IH]. Qed.
Lemma nth_mid {A} (a : list A) y b : nth_error (a ++ y :: b) (length a) = Some y.
Proof. rewrite nth_error_app2, Nat.sub_diag by lia. reflexivity. Qed.
Lemma skip_app {A} (a b : list A) : skipn (length a) (a ++ b) = b.
Proof. rewrite skipn_app, skipn_all, Nat.sub_diag. reflexivity. Qed.

Lemma strtok_none pre c junk : Forall comma c -> strtok (pre ++ c ++ 0%Z :: junk) (length pre) = Some (None, pre ++ c ++ 0%Z :: junk, length pre + length c).
Proof.
  intros F. unfold strtok. rewrite skip_app, span_commas by (assumption || discriminate).
  rewrite app_assoc. rewrite <- app_length. rewrite nth_mid. cbn [Z.eqb]. rewrite <- app_assoc. reflexivity.
Qed.
Lemma strtok_word pre c w x tail : Forall comma c -> w <> [] -> Forall (fun x => ~ comma x) w -> Forall (fun x => x <> 0%Z) w -> x = 44%Z \/ x = 0%Z ->
  strtok (pre ++ c ++ w ++ x :: tail) (length pre) =
    Some (Some (length (pre ++ c)), pre ++ c ++ w ++ 0%Z :: tail, if Z.eqb x 0 then length (pre ++ c ++ w) else S (length (pre ++ c ++ w))).
Proof.
  intros Fc Nw Fw Gw X. unfold strtok. destruct w as [|y w']; [congruence|]. set (w := y :: w') in *.
  rewrite skip_app. change (c ++ w ++ x :: tail) with (c ++ y :: (w' ++ x :: tail)) at 1.
  rewrite span_commas; [|exact Fc|apply Forall_inv in Fw; exact Fw].
  rewrite <- app_length. rewrite app_assoc. change (w ++ x :: tail) with (y :: (w' ++ x :: tail)) at 1. rewrite nth_mid.
  destruct (Z.eqb_spec y 0) as [Y|Y]; [apply Forall_inv in Gw; contradiction|].
  rewrite skip_app, span_token by assumption.
  replace (length (pre ++ c) + length w) with (length ((pre ++ c) ++ w)) by (rewrite app_length; lia).
  assert (EQ : forall q, (pre ++ c) ++ w ++ q :: tail = ((pre ++ c) ++ w) ++ q :: tail) by (intros q; now rewrite <- !app_assoc).
  rewrite (EQ x). rewrite nth_mid, set_mid. rewrite <- !app_assoc. destruct X as [-> | ->]; cbn [Z.eqb]; reflexivity.
Qed.

Lemma cut_nz s s' : cutAfterFirst s s' -> Forall (fun x => x <> 0%Z) s -> Forall (fun x => x <> 0%Z) s'.
Proof.
  intros [s0 F|c w F N G|c w t F N G] A; try exact A. apply Forall_app in A. destruct A as (A & B). apply Forall_app in B. destruct B as (B & _). now apply Forall_app.
Qed.

(* the tokens of a text *)
Lemma tokens_ok found s l : namesIn s l -> Forall (fun x => x <> 0%Z) s ->
  forall fuel pre junk, length l < fuel ->
  exists seen m junk' s', tokens fuel found (pre ++ s ++ 0%Z :: junk) (length pre) = Some (seen, existsb found l, pre ++ m) /\
    cutAfterFirst s s' /\ m = s' ++ 0%Z :: junk' /\ (existsb found l = false -> seen = l).
Proof.
  induction 1 as [s F|c w F N G|c w s l F N G H IH]; intros A fuel pre junk L.
  - destruct fuel as [|fuel]; [cbn in L; lia|]. cbn [tokens]. rewrite strtok_none by assumption. cbn [existsb].
    exists [], (s ++ 0%Z :: junk), junk, s. split; [reflexivity|]. split; [now constructor|]. auto.
  - apply Forall_app in A. destruct A as (Ac & Aw). destruct fuel as [|fuel]; [cbn in L; lia|]. cbn [tokens].
    rewrite <- app_assoc. rewrite strtok_word by (assumption || now right). cbn [Z.eqb].
    replace (pre ++ c ++ w ++ 0%Z :: junk) with ((pre ++ c) ++ w ++ 0%Z :: junk) by (now rewrite <- !app_assoc).
    rewrite skip_app, cstring_end by assumption. cbn [existsb]. rewrite orb_false_r.
    assert (C : cutAfterFirst (c ++ w) (c ++ w)) by now constructor.
    destruct (found w) eqn:E.
    + exists [w], ((c ++ w) ++ 0%Z :: junk), junk, (c ++ w). split; [now rewrite <- !app_assoc|]. auto.
    + destruct fuel as [|fuel]; [cbn in L; lia|]. cbn [tokens].
      replace ((pre ++ c) ++ w ++ 0%Z :: junk) with ((pre ++ c ++ w) ++ [] ++ 0%Z :: junk) by (now rewrite <- !app_assoc).
      rewrite strtok_none by constructor. cbn [option_map app].
      exists [w], ((c ++ w) ++ 0%Z :: junk), junk, (c ++ w). split; [now rewrite <- !app_assoc|]. auto.
  - assert (A' := A). apply Forall_app in A. destruct A as (Ac & Aw). apply Forall_app in Aw. destruct Aw as (Aw & As). apply Forall_cons_iff in As. destruct As as (_ & As).
    destruct fuel as [|fuel]; [cbn in L; lia|]. cbn [tokens].
    replace ((c ++ w ++ 44%Z :: s) ++ 0%Z :: junk) with (c ++ w ++ 44%Z :: (s ++ 0%Z :: junk)) by (now rewrite <- !app_assoc).
    rewrite strtok_word by (assumption || now left). cbn [Z.eqb].
    assert (C : cutAfterFirst (c ++ w ++ 44%Z :: s) (c ++ w)) by now constructor.
    assert (CS : cstring (skipn (length (pre ++ c)) (pre ++ c ++ w ++ 0%Z :: s ++ 0%Z :: junk)) = w).
    { replace (pre ++ c ++ w ++ 0%Z :: s ++ 0%Z :: junk) with ((pre ++ c) ++ w ++ 0%Z :: s ++ 0%Z :: junk) by (now rewrite <- !app_assoc).
      now rewrite skip_app, cstring_end. }
    rewrite CS. cbn [existsb]. destruct (found w) eqn:E; cbn [orb].
    + exists [w], ((c ++ w) ++ 0%Z :: s ++ 0%Z :: junk), (s ++ 0%Z :: junk), (c ++ w). split; [now rewrite <- !app_assoc|]. split; [exact C|]. split; [reflexivity|discriminate].
    + destruct (IH As fuel (pre ++ c ++ w ++ [0%Z]) junk) as (seen & m & junk' & s' & T & _ & _ & Sn); [cbn in L; lia|].
      replace (S (length (pre ++ c ++ w))) with (length (pre ++ c ++ w ++ [0%Z])) by (rewrite !app_length; cbn; lia).
      replace (pre ++ c ++ w ++ 0%Z :: s ++ 0%Z :: junk) with ((pre ++ c ++ w ++ [0%Z]) ++ s ++ 0%Z :: junk) by (now rewrite <- !app_assoc).
      rewrite T. cbn [option_map]. exists (w :: seen), ((c ++ w) ++ 0%Z :: m), m, (c ++ w). split; [rewrite <- !app_assoc; reflexivity|].
      split; [exact C|]. split; [reflexivity|]. intros Q. now rewrite Sn.
Qed.

Lemma names_exist n : forall s, length s <= n -> exists l, namesIn s l /\ length l <= length s.
Proof.
  induction n as [|n IH]; intros s L.
  - destruct s; [|cbn in L; lia]. exists []. split; [now constructor|cbn; lia].
  - assert (D : forall s : list Z, exists c t, s = c ++ t /\ Forall comma c /\ (t = [] \/ exists x t', t = x :: t' /\ ~ comma x)).
    { clear. induction s as [|x s IHs]; [exists [], []; auto|]. destruct (Z.eq_dec x 44) as [->|N].
      - destruct IHs as (c & t & -> & F & T). exists (44%Z :: c), t. split; [reflexivity|]. split; [constructor; [reflexivity|exact F]|exact T].
      - exists [], (x :: s). split; [reflexivity|]. split; [constructor|]. right. exists x, s. auto. }
    assert (W : forall s : list Z, exists w t, s = w ++ t /\ Forall (fun x => ~ comma x) w /\ (t = [] \/ exists t', t = 44%Z :: t')).
    { clear. induction s as [|x s IHs]; [exists [], []; auto|]. destruct (Z.eq_dec x 44) as [->|N].
      - exists [], (44%Z :: s). split; [reflexivity|]. split; [constructor|]. right. now exists s.
      - destruct IHs as (w & t & -> & F & T). exists (x :: w), t. split; [reflexivity|]. split; [now constructor|exact T]. }
    destruct (D s) as (c & t & -> & F & T). destruct T as [->|(x & t' & -> & Nx)].
    + rewrite app_nil_r. exists []. split; [now constructor|cbn; lia].
    + destruct (W t') as (w & t2 & -> & Fw & T2). destruct T2 as [->|(t3 & ->)].
      * rewrite app_nil_r. exists [x :: w]. split; [constructor; [exact F|discriminate|now constructor]|]. rewrite app_length. cbn. lia.
      * destruct (IH t3) as (l & H & L2). { rewrite app_length in L. cbn in L. rewrite app_length in L. cbn in L. lia. }
        exists ((x :: w) :: l). split.
        -- change (c ++ x :: w ++ 44%Z :: t3) with (c ++ (x :: w) ++ 44%Z :: t3). constructor; [exact F|discriminate|now constructor|exact H].
        -- rewrite app_length. cbn. rewrite app_length. cbn. lia.
Qed.

Lemma names_text s l : namesIn s l -> Forall textChar s -> Forall (Forall textChar) l.
Proof.
  induction 1 as [s F|c w F N G|c w s l F N G H IH]; intros A; [constructor|..].
  - apply Forall_app in A. constructor; [apply A|constructor].
  - apply Forall_app in A. destruct A as (_ & A). apply Forall_app in A. destruct A as (B & A). apply Forall_cons_iff in A. constructor; [exact B|]. apply IH. apply A.
Qed.
Lemma text_nz s : Forall textChar s -> Forall (fun x => x <> 0%Z) s.
Proof. apply Forall_impl. intros a H. apply H. Qed.
Lemma cut_text s s' : cutAfterFirst s s' -> Forall textChar s -> Forall textChar s'.
Proof.
  intros [s0 F|c w F N G|c w t F N G] A; try exact A. apply Forall_app in A. destruct A as (A & B). apply Forall_app in B. destruct B as (B & _). now apply Forall_app.
Qed.

Lemma exists_same p l : Forall textChar p -> Forall (Forall textChar) l -> (existsb (fun n => Z.eqb (strcasecmp p n) 0) l = true <-> Exists (sameText p) l).
Proof.
  intros Tp Tl. rewrite existsb_exists, Exists_exists. rewrite Forall_forall in Tl. split; intros (x & I & E); exists x; (split; [exact I|]).
  - apply Z.eqb_eq in E. apply case_same; auto.
  - apply Z.eqb_eq. apply case_same; auto.
Qed.
Lemma existsb_none {A} (l : list A) : existsb (fun _ => false) l = false.
Proof. induction l; auto. Qed.

Lemma ask_text qs : forall s junk, Forall textChar s -> Forall askable qs ->
  exists as_, askAll qs (Text (s ++ 0%Z :: junk)) = Some as_ /\ answersText s qs as_.
Proof.
  induction qs as [|q qs IH]; intros s junk T Q; [exists []; split; [reflexivity|constructor]|].
  apply Forall_cons_iff in Q. destruct Q as (Qq & Q). destruct (names_exist _ s (le_n _)) as (l & H & L).
  assert (Fl : length l < S (length (s ++ 0%Z :: junk))) by (rewrite app_length; lia).
  destruct q as [|p|]; cbn [askAll ask].
  - unfold getProperties. destruct (tokens_ok (fun _ => false) s l H (text_nz s T) _ [] junk Fl) as (seen & m & junk' & s' & E & C & -> & Sn).
    cbn [app length] in E. rewrite E. cbn [option_map]. destruct (IH s' junk' (cut_text _ _ C T) Q) as (as_ & E2 & A). rewrite E2.
    exists (IsList seen :: as_). split; [reflexivity|]. rewrite Sn by apply existsb_none. econstructor; eassumption.
  - unfold containsProperty. destruct (tokens_ok (fun n => Z.eqb (strcasecmp p n) 0) s l H (text_nz s T) _ [] junk Fl) as (seen & m & junk' & s' & E & C & -> & Sn).
    cbn [app length] in E. rewrite E. cbn [option_map]. destruct (IH s' junk' (cut_text _ _ C T) Q) as (as_ & E2 & A). rewrite E2.
    eexists. split; [reflexivity|]. econstructor; try eassumption. apply exists_same; [exact Qq|]. exact (names_text _ _ H T).
  - destruct (IH s junk T Q) as (as_ & E2 & A). rewrite E2. eexists. split; [reflexivity|].
    replace (getCount (Text (s ++ 0%Z :: junk))) with (Z.of_nat (count_occ Z.eq_dec s 44%Z)); [now constructor|].
    unfold getCount. rewrite cstring_end by now apply text_nz. f_equal. clear.
    induction s as [|x s IHs]; [reflexivity|]. cbn [count_occ filter]. destruct (Z.eq_dec x 44) as [->|N].
    + cbn [Z.eqb Pos.eqb length]. now rewrite IHs.
    + destruct (Z.eqb_spec 44 x); [congruence|]. exact IHs.
Qed.

Lemma cstring_text s : Forall textChar s -> cstring s = s.
Proof.
  induction s as [|x s IH]; intros T; [reflexivity|]. apply Forall_cons_iff in T. destruct T as (Tx & T). cbn. destruct (Z.eqb_spec x 0); [destruct Tx; contradiction|]. now rewrite IH.
Qed.

(* the parts of a text are determined by it *)
Lemma split_comma (w : list Z) : forall w' t t', Forall (fun x => ~ comma x) w -> Forall (fun x => ~ comma x) w' -> w ++ 44%Z :: t = w' ++ 44%Z :: t' -> w = w' /\ t = t'.
Proof.
  induction w as [|x w IH]; intros [|y w'] t t' F G E; cbn in E.
  - injection E as ->. auto.
  - injection E as <- _. apply Forall_inv in G. now destruct G.
  - injection E as -> _. apply Forall_inv in F. now destruct F.
  - injection E as -> E. apply Forall_cons_iff in F. apply Forall_cons_iff in G. destruct (IH w' t t') as (-> & ->); tauto.
Qed.
Lemma no_comma_in (w : list Z) t w' : Forall (fun x => ~ comma x) w' -> w ++ 44%Z :: t = w' -> False.
Proof. intros F E. subst. apply Forall_app in F. destruct F as (_ & F). apply Forall_inv in F. now apply F. Qed.
Lemma lead (c : list Z) : forall c' t t', Forall comma c -> Forall comma c' -> (t = [] \/ exists x u, t = x :: u /\ ~ comma x) -> (t' = [] \/ exists x u, t' = x :: u /\ ~ comma x) ->
  c ++ t = c' ++ t' -> c = c' /\ t = t'.
Proof.
  induction c as [|x c IH]; intros [|y c'] t t' F G T T' E; cbn in E.
  - auto.
  - subst t. apply Forall_inv in G. unfold comma in G. subst y. destruct T as [T|(z & u & T & N)]; [discriminate T|]. injection T as <- _. now destruct N.
  - subst t'. apply Forall_inv in F. unfold comma in F. subst x. destruct T' as [T'|(z & u & T' & N)]; [discriminate T'|]. injection T' as <- _. now destruct N.
  - injection E as -> E. apply Forall_cons_iff in F. apply Forall_cons_iff in G. destruct (IH c' t t') as (-> & ->); tauto.
Qed.
Lemma word_lead (w t : list Z) : w <> [] -> Forall (fun x => ~ comma x) w -> (w ++ t = [] \/ exists x u, w ++ t = x :: u /\ ~ comma x).
Proof. intros N F. destruct w as [|x w]; [congruence|]. right. exists x, (w ++ t). split; [reflexivity|]. now apply Forall_inv in F. Qed.

Lemma names_unique s l : namesIn s l -> forall l', namesIn s l' -> l' = l.
Proof.
  induction 1 as [s F|c w F N G|c w s l F N G H IH]; intros l' H'; inversion H' as [s0 F' E0|c' w' F' N' G' E0|c' w' s' l0 F' N' G' H0 E0]; subst.
  - reflexivity.
  - apply Forall_app in F. destruct F as (_ & F). destruct w' as [|x w']; [congruence|]. apply Forall_inv in F. apply Forall_inv in G'. contradiction.
  - apply Forall_app in F. destruct F as (_ & F). apply Forall_app in F. destruct F as (F & _). destruct w' as [|x w']; [congruence|]. apply Forall_inv in F. apply Forall_inv in G'. contradiction.
  - apply Forall_app in F'. destruct F' as (_ & F'). destruct w as [|x w]; [congruence|]. apply Forall_inv in F'. apply Forall_inv in G. contradiction.
  - destruct (lead c c' w w') as (_ & ->); try assumption; try (symmetry; assumption); [..|reflexivity].
    + pose proof (word_lead w [] N G) as W. now rewrite app_nil_r in W.
    + pose proof (word_lead w' [] N' G') as W. now rewrite app_nil_r in W.
  - exfalso. destruct (lead c c' w (w' ++ 44%Z :: s')) as (_ & E); try assumption; try (symmetry; assumption).
    + pose proof (word_lead w [] N G) as W. now rewrite app_nil_r in W.
    + now apply word_lead.
    + symmetry in E. exact (no_comma_in _ _ _ G E).
  - apply Forall_app in F'. destruct F' as (_ & F'). apply Forall_app in F'. destruct F' as (F' & _). destruct w as [|x w]; [congruence|]. apply Forall_inv in F'. apply Forall_inv in G. contradiction.
  - exfalso. destruct (lead c' c w' (w ++ 44%Z :: s)) as (_ & E); try assumption.
    + pose proof (word_lead w' [] N' G') as W. now rewrite app_nil_r in W.
    + now apply word_lead.
    + symmetry in E. exact (no_comma_in _ _ _ G' E).
  - destruct (lead c' c (w' ++ 44%Z :: s') (w ++ 44%Z :: s)) as (_ & E); try assumption; try now apply word_lead.
    destruct (split_comma _ _ _ _ G' G E) as (-> & ->). now rewrite (IH l0).
Qed.

(* cutting a text with one name changes nothing *)
Lemma cut_one s s' l : cutAfterFirst s s' -> namesIn s l -> length l <= 1 -> namesIn s' l.
Proof.
  intros C H L. destruct C as [s F|c w F N G|c w t F N G]; try exact H.
  destruct (names_exist _ t (le_n _)) as (lt & Ht & _). assert (H2 := names_more c w t lt F N G Ht). rewrite <- (names_unique _ _ H _ H2) in *.
  destruct lt; [|cbn in L; lia]. now constructor.
Qed.
Lemma answers_one qs : forall s as_ l, answersText s qs as_ -> namesIn s l -> length l <= 1 -> ~ In AskCount qs -> Forall2 (isAnswer l) qs as_.
Proof.
  induction qs as [|q qs IH]; intros s as_ l A H L NC; inversion A as [| ? s' l' ? as0 H' C A' | ? s' l' p b ? as0 H' C B A' | ? ? as0 A']; subst; [constructor|..].
  - constructor; [cbn; exact (names_unique _ _ H _ H')|]. apply (IH s'); [exact A'| |exact L|]. { eapply cut_one; eassumption. } { intros I. apply NC. now right. }
  - constructor; [cbn; rewrite (names_unique _ _ H _ H') in B; exact B|]. apply (IH s'); [exact A'| |exact L|]. { eapply cut_one; eassumption. } { intros I. apply NC. now right. }
  - exfalso. apply NC. now left.
Qed.
