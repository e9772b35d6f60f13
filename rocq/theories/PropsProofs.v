(* Proofs about properties.c. *)
From Coq Require Import Permutation.
From Verif Require Export StringSpec StringProofs PropsModel PropsSpec.

(* characters *)
Lemma lower_rank c : (-128 <= c <= 127)%Z -> lowerUnsigned c = rank c.
Proof.
  intros H. unfold lowerUnsigned, tolower, rank. destruct (Z.ltb_spec c 0) as [N|N].
  - replace (c mod 256)%Z with (c + 256)%Z by (rewrite <- (Z.mod_add c 1 256) by lia; rewrite Z.mod_small; lia).
    destruct (Z.leb_spec 65 c); [lia|]. cbn [andb]. destruct (Z.leb_spec (c + 256) 90); [lia|]. now rewrite andb_false_r.
  - now rewrite Z.mod_small by lia.
Qed.
Lemma rank_same x y : (-128 <= x <= 127)%Z -> (-128 <= y <= 127)%Z -> (rank x = rank y <-> sameLetter x y).
Proof.
  intros Hx Hy. unfold rank, sameLetter, upperLower.
  destruct (Z.leb_spec 65 x), (Z.leb_spec x 90), (Z.leb_spec 65 y), (Z.leb_spec y 90), (Z.ltb_spec x 0), (Z.ltb_spec y 0); cbn [andb]; lia.
Qed.
Lemma rank_pos x : textChar x -> (0 < rank x)%Z.
Proof. intros (H & N). unfold rank. destruct (Z.leb_spec 65 x), (Z.leb_spec x 90), (Z.ltb_spec x 0); cbn [andb]; lia. Qed.

Lemma strn_same a : forall b, length a = length b -> Forall textChar a -> Forall textChar b ->
  (strncasecmp a b (length b) = 0%Z <-> sameText a b).
Proof.
  induction a as [|x a IH]; intros [|y b] L Ta Tb; try discriminate L.
  - cbn. split; [constructor|reflexivity].
  - apply Forall_cons_iff in Ta. apply Forall_cons_iff in Tb. destruct Ta as (Tx & Ta), Tb as (Ty & Tb). injection L as L.
    cbn [strncasecmp length hd tl]. rewrite (lower_rank x), (lower_rank y) by apply Tx || apply Ty.
    destruct (Z.eqb_spec (rank x - rank y) 0) as [E|E]; cbn [negb].
    + assert (S : sameLetter x y) by (apply rank_same; [apply Tx|apply Ty|lia]).
      destruct (Z.eqb_spec x 0) as [Q|Q]; [destruct Tx; congruence|]. rewrite (IH b L Ta Tb). split.
      * intros H. constructor; auto.
      * intros H. now inversion H.
    + split; [lia|]. intros H. inversion H as [|? ? ? ? S]; subst. apply rank_same in S; [lia|apply Tx|apply Ty].
Qed.

(* the sorting order *)
Lemma case_opp a : forall b, strcasecmp b a = (- strcasecmp a b)%Z.
Proof.
  induction a as [|x a IH]; intros [|y b]; cbn [strcasecmp]; try lia.
  destruct (Z.eqb_spec (lowerUnsigned x - lowerUnsigned y) 0), (Z.eqb_spec (lowerUnsigned y - lowerUnsigned x) 0); try lia. apply IH.
Qed.
Lemma lowerUnsigned_pos x : textChar x -> (0 < lowerUnsigned x)%Z.
Proof. intros T. rewrite lower_rank by apply T. now apply rank_pos. Qed.
Lemma case_trans a : forall b c, Forall textChar a -> Forall textChar b -> Forall textChar c ->
  (strcasecmp a b <= 0 -> strcasecmp b c <= 0 -> strcasecmp a c <= 0)%Z.
Proof.
  induction a as [|x a IH]; intros b c Ta Tb Tc.
  - destruct c as [|z c]; cbn [strcasecmp]; [lia|]. apply Forall_inv in Tc. pose proof (lowerUnsigned_pos z Tc). lia.
  - apply Forall_cons_iff in Ta. destruct Ta as (Tx & Ta). pose proof (lowerUnsigned_pos x Tx).
    destruct b as [|y b]; cbn [strcasecmp]; [lia|]. apply Forall_cons_iff in Tb. destruct Tb as (Ty & Tb). pose proof (lowerUnsigned_pos y Ty).
    destruct c as [|z c]; cbn [strcasecmp]; [lia|]. apply Forall_cons_iff in Tc. destruct Tc as (Tz & Tc).
    specialize (IH b c Ta Tb Tc).
    destruct (Z.eqb_spec (lowerUnsigned x - lowerUnsigned y) 0), (Z.eqb_spec (lowerUnsigned y - lowerUnsigned z) 0), (Z.eqb_spec (lowerUnsigned x - lowerUnsigned z) 0); try lia; auto.
Qed.
Lemma case_before a : forall b, Forall textChar a -> Forall textChar b -> (strcasecmp a b <= 0)%Z -> sameText a b \/ before a b.
Proof.
  induction a as [|x a IH]; intros [|y b] Ta Tb H.
  - left. constructor.
  - right. constructor.
  - apply Forall_inv in Ta. pose proof (lowerUnsigned_pos x Ta). cbn in H. lia.
  - apply Forall_cons_iff in Ta. apply Forall_cons_iff in Tb. destruct Ta as (Tx & Ta), Tb as (Ty & Tb). cbn [strcasecmp] in H.
    rewrite (lower_rank x), (lower_rank y) in H by apply Tx || apply Ty. destruct (Z.eqb_spec (rank x - rank y) 0) as [E|E].
    + assert (S : sameLetter x y) by (apply rank_same; [apply Tx|apply Ty|lia]).
      destruct (IH b Ta Tb H) as [Q|Q]; [left; now constructor|right; now constructor 3].
    + right. constructor 2. lia.
Qed.

(* events *)
Lemma held_from l i : forall n, fold_left (fun n e => match e with Got j => if Nat.eqb i j then n + 1 else n | Released j => if Nat.eqb i j then n - 1 else n end)%Z l n = (n + held l i)%Z.
Proof.
  unfold held. induction l as [|e l IH]; intros n; cbn [fold_left]; [lia|]. rewrite IH. symmetry. rewrite IH.
  destruct e as [j|j]; destruct (Nat.eqb i j); lia.
Qed.
Lemma held_app a b i : held (a ++ b) i = (held a i + held b i)%Z.
Proof. unfold held at 1. rewrite fold_left_app. apply held_from. Qed.
Lemma held_cons e l i : held (e :: l) i = ((match e with Got j => if Nat.eqb i j then 1 else 0 | Released j => if Nat.eqb i j then -1 else 0 end) + held l i)%Z.
Proof. unfold held at 1. cbn [fold_left]. rewrite held_from. destruct e as [j|j]; destruct (Nat.eqb i j); lia. Qed.
Lemma held_map_got l i : held (map Got l) i = Z.of_nat (count_occ Nat.eq_dec l i).
Proof.
  induction l as [|j l IH]; [reflexivity|]. cbn [map]. rewrite held_cons, IH. cbn [count_occ].
  destruct (Nat.eq_dec j i) as [->|N]; [rewrite Nat.eqb_refl; lia|]. destruct (Nat.eqb_spec i j); [congruence|lia].
Qed.
Lemma held_map_released l i : held (map Released l) i = (- Z.of_nat (count_occ Nat.eq_dec l i))%Z.
Proof.
  induction l as [|j l IH]; [reflexivity|]. cbn [map]. rewrite held_cons, IH. cbn [count_occ].
  destruct (Nat.eq_dec j i) as [->|N]; [rewrite Nat.eqb_refl; lia|]. destruct (Nat.eqb_spec i j); [congruence|lia].
Qed.
Definition quiet (t : list Event) : Prop := exists l, t = flat_map (fun i => [Got i; Released i]) l.
Lemma quiet_nil : quiet []. Proof. now exists []. Qed.
Lemma quiet_app a b : quiet a -> quiet b -> quiet (a ++ b).
Proof. intros (l & ->) (m & ->). exists (l ++ m). now rewrite flat_map_app. Qed.
Lemma quiet_cons i t : quiet t -> quiet (Got i :: Released i :: t).
Proof. intros (l & ->). now exists (i :: l). Qed.
Lemma quiet_held t i : quiet t -> held t i = 0%Z.
Proof. intros (l & ->). induction l as [|j l IH]; [reflexivity|]. cbn [flat_map app]. rewrite !held_cons, IH. destruct (Nat.eqb i j); lia. Qed.
(* never more given back than taken *)
Definition sound (t : list Event) : Prop := forall p s i, t = p ++ s -> (0 <= held p i)%Z.
Lemma sound_app a b : sound a -> (forall p s i, b = p ++ s -> (0 <= held a i + held p i)%Z) -> sound (a ++ b).
Proof.
  intros Sa Sb p s i E. destruct (Nat.le_gt_cases (length p) (length a)) as [L|L].
  - apply (Sa p (skipn (length p) a)). rewrite <- (firstn_skipn (length p) a) at 1. f_equal.
    assert (Q : firstn (length p) (a ++ b) = firstn (length p) (p ++ s)) by now rewrite E.
    rewrite !firstn_app, firstn_all in Q. replace (length p - length a) with 0 in Q by lia. rewrite Nat.sub_diag in Q. cbn in Q. now rewrite !app_nil_r in Q.
  - assert (Q : p = a ++ skipn (length a) p).
    { assert (Q : firstn (length a) (a ++ b) = firstn (length a) (p ++ s)) by now rewrite E.
      rewrite !firstn_app, firstn_all in Q. replace (length a - length p) with 0 in Q by lia. rewrite Nat.sub_diag in Q. cbn in Q. rewrite !app_nil_r in Q.
      rewrite Q at 1. symmetry. apply firstn_skipn. }
    rewrite Q in E. rewrite <- app_assoc in E. apply app_inv_head in E. rewrite Q, held_app. now apply (Sb _ s).
Qed.
Lemma quiet_prefix t : quiet t -> forall p s i, t = p ++ s -> (0 <= held p i)%Z.
Proof.
  intros (l & ->). induction l as [|j l IH]; intros p s i E; cbn [flat_map app] in E.
  - destruct p; [cbn; lia|discriminate E].
  - destruct p as [|e p]; [cbn; lia|]. injection E as <- E. destruct p as [|e p]; [rewrite held_cons; cbn; destruct (Nat.eqb i j); lia|].
    injection E as <- E. rewrite !held_cons. specialize (IH _ _ i E). destruct (Nat.eqb i j); lia.
Qed.
Lemma got_prefix l : forall p s i, map Got l = p ++ s -> (0 <= held p i)%Z.
Proof.
  induction l as [|j l IH]; intros p s i E; cbn [map] in E; (destruct p as [|e p]; [cbn; lia|]); [discriminate E|].
  injection E as <- E. rewrite held_cons. specialize (IH _ _ i E). destruct (Nat.eqb i j); lia.
Qed.
Lemma released_prefix l : forall p s i, map Released l = p ++ s -> (- Z.of_nat (count_occ Nat.eq_dec l i) <= held p i)%Z.
Proof.
  induction l as [|j l IH]; intros p s i E; cbn [map] in E; (destruct p as [|e p]; [cbn [held fold_left]; unfold held; cbn [fold_left]; lia|]); [discriminate E|].
  injection E as <- E. rewrite held_cons. specialize (IH _ _ i E). cbn [count_occ].
  destruct (Nat.eq_dec j i) as [->|N]; [rewrite Nat.eqb_refl; lia|]. destruct (Nat.eqb_spec i j); [congruence|lia].
Qed.

(* finding a name *)
Lemma index_from rest : forall i r, Forall (Forall textChar) rest -> Forall textChar r ->
  quiet (snd (getPropertyIndexFrom rest i r)) /\
  ((fst (getPropertyIndexFrom rest i r) = (-1)%Z /\ forall n, In n rest -> ~ sameText n r) \/
   exists k n, fst (getPropertyIndexFrom rest i r) = Z.of_nat (i + k) /\ nth_error rest k = Some n /\ sameText n r).
Proof.
  induction rest as [|test rest IH]; intros i r T Tr; cbn [getPropertyIndexFrom].
  - split; [apply quiet_nil|]. left. split; [reflexivity|intros n []].
  - apply Forall_cons_iff in T. destruct T as (Tt & T).
    destruct (Nat.eqb_spec (length test) (length r)) as [L|L]; cbn [andb].
    + destruct (Z.eqb_spec (strncasecmp test r (length r)) 0) as [E|E].
      * split; [apply (quiet_cons i []), quiet_nil|]. right. exists 0, test. rewrite Nat.add_0_r. split; [reflexivity|]. split; [reflexivity|]. now apply (strn_same test r).
      * specialize (IH (S i) r T Tr). destruct (getPropertyIndexFrom rest (S i) r) as (x, t). cbn [fst snd] in *. destruct IH as (Q & IH).
        split; [now apply quiet_cons|]. destruct IH as [(-> & N)|(k & n & -> & A & B)].
        -- left. split; [reflexivity|]. intros n [<-|H]; [|auto]. intros S. apply E. now apply strn_same.
        -- right. exists (S k), n. split; [f_equal; lia|]. auto.
    + specialize (IH (S i) r T Tr). destruct (getPropertyIndexFrom rest (S i) r) as (x, t). cbn [fst snd] in *. destruct IH as (Q & IH).
      split; [now apply quiet_cons|]. destruct IH as [(-> & N)|(k & n & -> & A & B)].
      * left. split; [reflexivity|]. intros n [<-|H]; [|auto]. intros S. apply L. now apply same_length.
      * right. exists (S k), n. split; [f_equal; lia|]. auto.
Qed.
Lemma index_good names r : goodNames names -> Forall textChar r ->
  quiet (snd (getPropertyIndex names r)) /\
  forall i, fst (getPropertyIndex names r) = Z.of_nat i <-> exists n, nth_error names i = Some n /\ sameText n r.
Proof.
  intros (T & D) Tr. unfold getPropertyIndex. destruct (index_from names 0 r T Tr) as (Q & [(E & N)|(k & n & E & A & B)]); (split; [exact Q|]); intros i; rewrite E; split.
  - lia.
  - intros (n & H1 & H2). exfalso. apply (N n); [eapply nth_error_In; eauto|exact H2].
  - intros H. apply Nat2Z.inj in H. cbn in H. subst. eauto.
  - intros (m & H1 & H2). f_equal. cbn. eapply D; [exact A|exact H1|]. eapply same_trans; [exact B|now apply same_sym].
Qed.
Lemma iterate_good names required : goodNames names -> Forall (Forall textChar) required ->
  quiet (snd (iterateProperties names required)) /\
  forall i, In i (fst (iterateProperties names required)) <-> exists r n, In r required /\ nth_error names i = Some n /\ sameText n r.
Proof.
  intros G. induction 1 as [|r required Tr T IH]; cbn [iterateProperties].
  - split; [apply quiet_nil|]. intros i. split; [intros []|intros (r & n & [] & _)].
  - destruct (index_good names r G Tr) as (Q & I). destruct (getPropertyIndex names r) as (k, t). destruct (iterateProperties names required) as (l, t').
    cbn [fst snd] in *. destruct IH as (Q' & IH). split; [now apply quiet_app|]. intros i.
    assert (X : In i (if Z.leb 0 k then Z.to_nat k :: l else l) <-> k = Z.of_nat i \/ In i l).
    { destruct (Z.leb_spec 0 k) as [L|L]; cbn [In]; [|split; [auto|intros [H|H]; [lia|exact H]]]. split; (intros [H|H]; [left; lia|right; exact H]). }
    rewrite X, I, IH. split.
    + intros [(n & A & B)|(r' & n & A & B & C)]; [exists r, n|exists r', n]; (split; [auto using in_eq, in_cons|auto]).
    + intros (r' & n & [<-|A] & B & C); [left; eauto|right; eauto].
Qed.

Lemma addAll_ok cap l : forall items, NoDup items -> length items + length l <= cap ->
  exists items', addAll cap l items = Some items' /\ NoDup items' /\ forall i, In i items' <-> In i items \/ In i l.
Proof.
  induction l as [|j l IH]; intros items D C; cbn [addAll].
  - exists items. split; [reflexivity|]. split; [exact D|]. intros i. cbn. tauto.
  - cbn [length] in C. unfold addRequiredProperty. destruct (existsb (Nat.eqb j) items) eqn:E.
    + destruct (IH items D) as (items' & A & B & H); [lia|]. exists items'. split; [exact A|]. split; [exact B|]. intros i. rewrite H. cbn.
      apply existsb_exists in E. destruct E as (x & X & E). apply Nat.eqb_eq in E. subst x. intuition congruence.
    + destruct (Nat.ltb_spec (length items) cap) as [L|L]; [|lia].
      assert (Nj : ~ In j items) by (intros H; enough (true = false) by discriminate; rewrite <- E; symmetry; apply existsb_exists; exists j; split; [exact H|apply Nat.eqb_refl]).
      destruct (IH (items ++ [j])) as (items' & A & B & H).
      * apply Permutation_NoDup with (l := j :: items); [apply Permutation_cons_append|]. now constructor.
      * rewrite app_length. cbn. lia.
      * exists items'. split; [exact A|]. split; [exact B|]. intros i. rewrite H, in_app_iff. cbn. intuition congruence.
Qed.

(* the names between separators *)
Lemma separator_bool c : isSeparator c = true <-> separator c.
Proof. unfold isSeparator, separator. rewrite !orb_true_iff, !Z.eqb_eq. tauto. Qed.
Lemma split_plain a : Forall (fun c => ~ separator c) a -> forall s p, splitFrom (a ++ s) p = splitFrom s (p ++ a).
Proof.
  induction 1 as [|c a N H IH]; intros s p; [now rewrite app_nil_r|]. cbn [app splitFrom].
  destruct (isSeparator c) eqn:E; [apply separator_bool in E; contradiction|]. rewrite IH, <- app_assoc. reflexivity.
Qed.
Lemma split_parts s l : parts s l -> splitFrom s [] = l.
Proof.
  induction 1 as [a H|a c s l H Sc P IH].
  - rewrite <- (app_nil_r a) at 1. rewrite split_plain by exact H. reflexivity.
  - rewrite split_plain by exact H. cbn [splitFrom app]. apply separator_bool in Sc. now rewrite Sc, IH.
Qed.
Lemma parts_total s : exists l, parts s l.
Proof.
  assert (G : forall s a, Forall (fun c => ~ separator c) a -> exists l, parts (a ++ s) l).
  { clear s. induction s as [|c s IH]; intros a H.
    - exists [a]. rewrite app_nil_r. now constructor.
    - destruct (isSeparator c) eqn:E.
      + apply separator_bool in E. destruct (IH [] (Forall_nil _)) as (l & P). exists (a :: l). now constructor.
      + destruct (IH (a ++ [c])) as (l & P); [apply Forall_app; split; [exact H|]; constructor; [|constructor]; intros S; apply separator_bool in S; congruence|].
        exists l. rewrite <- app_assoc in P. exact P. }
  apply (G s []). constructor.
Qed.
Lemma parts_text s l : parts s l -> Forall textChar s -> Forall (Forall textChar) l.
Proof.
  induction 1 as [a H|a c s l H Sc P IH]; intros T; [constructor; auto|].
  apply Forall_app in T. destruct T as (Ta & T). apply Forall_cons_iff in T. constructor; [exact Ta|]. now apply IH.
Qed.

Lemma countFrom_ok names : forall i, fst (countFrom names i) = i + length names /\ quiet (snd (countFrom names i)).
Proof.
  induction names as [|n names IH]; intros i; cbn [countFrom length].
  - split; [cbn; lia|apply quiet_nil].
  - specialize (IH (S i)). destruct (countFrom names (S i)) as (k, t). cbn [fst snd] in *. split; [lia|]. now apply quiet_cons.
Qed.

(* the items as they are before sorting *)
Definition item (evidence : nat -> list nat) (i : nat) (n : list Z) : PropertyAvailable := mkAvailable (Z.of_nat i) n i (evidence i).
Lemma setNames_ok names evidence items : Forall (fun i => i < length names) items ->
  exists l, setPropertyNames names evidence items = Some l /\ Forall2 (fun i x => exists n, nth_error names i = Some n /\ x = item evidence i n) items l.
Proof.
  induction 1 as [|i items Hi H (l & E & F)]; cbn [setPropertyNames]; [exists []; auto|].
  destruct (nth_error names i) as [n|] eqn:N; [|apply nth_error_None in N; lia]. rewrite E. eexists. split; [reflexivity|]. constructor; eauto.
Qed.
Lemma reset_same names evidence l : goodNames names -> (Z.of_nat (length names) <= 2 ^ 32)%Z ->
  Forall (fun x => exists i n, nth_error names i = Some n /\ x = item evidence i n) l ->
  fst (resetIndexes names l) = l /\ quiet (snd (resetIndexes names l)).
Proof.
  intros G B. induction 1 as [|x l (i & n & N & ->) H IH]; cbn [resetIndexes]; [split; [reflexivity|apply quiet_nil]|].
  assert (Tn : Forall textChar n) by (apply (proj1 (Forall_forall _ _) (proj1 G)); eapply nth_error_In; eauto).
  destruct (index_good names n G Tn) as (Q & I). cbn [item name]. assert (E : fst (getPropertyIndex names n) = Z.of_nat i) by (apply I; exists n; split; [exact N|apply same_refl]).
  destruct (getPropertyIndex names n) as (k, t). destruct (resetIndexes names l) as (l', t'). cbn [fst snd] in *. destruct IH as (-> & Q').
  split; [|now apply quiet_app]. f_equal. unfold item. cbn. f_equal. rewrite E. apply Z.mod_small.
  assert (i < length names) by (apply nth_error_Some; congruence). lia.
Qed.

Lemma create_sorted names evidence items t qsort properties : goodNames names -> (Z.of_nat (length names) <= 2 ^ 32)%Z -> sorts qsort ->
  initItems names properties = (Some (Some items), t) -> NoDup items -> Forall (fun i => i < length names) items -> quiet t ->
  exists l t', PropertiesCreate qsort names evidence properties = (Created l, t ++ map Got items ++ t') /\ quiet t' /\
    Permutation items (map reference l) /\
    (forall x, In x l -> exists n, nth_error names (reference x) = Some n /\ x = item evidence (reference x) n) /\
    (forall b x m y a, l = b ++ x :: m ++ y :: a -> before (name x) (name y)).
Proof.
  intros G B Q E D L Qt. unfold PropertiesCreate. rewrite E. destruct (setNames_ok names evidence items L) as (l & -> & F).
  assert (Fx : Forall (fun x => exists i n, nth_error names i = Some n /\ x = item evidence i n) l).
  { clear -F. induction F as [|i x items l (n & N & ->) F IH]; constructor; eauto. }
  assert (R : map reference l = items).
  { clear -F. induction F as [|i x items l (n & N & ->) F IH]; cbn; congruence. }
  assert (T : forall x, In x l -> Forall textChar (name x)).
  { intros x Hx. apply (proj1 (Forall_forall _ _) Fx) in Hx. destruct Hx as (i & n & N & ->). cbn. apply (proj1 (Forall_forall _ _) (proj1 G)). eapply nth_error_In; eauto. }
  destruct (Q comparePropertyNamesAscending l) as (P & S).
  { intros x y Hx Hy. unfold comparePropertyNamesAscending. rewrite (case_opp (name x) (name y)). lia. }
  { intros x y z Hx Hy Hz. unfold comparePropertyNamesAscending. apply case_trans; auto. }
  set (l2 := qsort comparePropertyNamesAscending l) in *.
  assert (F2 : Forall (fun x => exists i n, nth_error names i = Some n /\ x = item evidence i n) l2).
  { apply Forall_forall. intros x Hx. apply (proj1 (Forall_forall _ _) Fx). eapply Permutation_in; [apply Permutation_sym; exact P|exact Hx]. }
  destruct (reset_same names evidence l2 G B F2) as (R1 & R2). destruct (resetIndexes names l2) as (l', t'). cbn [fst snd] in *. subst l'.
  exists l2, t'. split; [reflexivity|]. split; [exact R2|]. split; [rewrite <- R; now apply Permutation_map|]. split.
  - intros x Hx. apply (proj1 (Forall_forall _ _) F2) in Hx. destruct Hx as (i & n & N & ->). cbn. eauto.
  - intros b x m y a E2. assert (Hx : In x l2) by (rewrite E2; apply in_or_app; right; left; reflexivity).
    assert (Hy : In y l2) by (rewrite E2; apply in_or_app; right; right; apply in_or_app; right; left; reflexivity).
    assert (D2 : NoDup (map reference l2)) by (apply Permutation_NoDup with (l := map reference l); [now apply Permutation_map|now rewrite R]).
    assert (Nxy : reference x <> reference y).
    { intros H. rewrite E2, map_app in D2. cbn [map] in D2. apply NoDup_remove_2 in D2. apply D2. apply in_or_app. right. rewrite H, map_app. apply in_or_app. right. left. reflexivity. }
    specialize (S _ _ _ _ _ E2). unfold comparePropertyNamesAscending in S.
    destruct (case_before (name x) (name y)) as [C|C]; [apply T; eapply Permutation_in; [apply Permutation_sym; exact P|]; assumption..|exact S| |exact C].
    exfalso. apply Nxy. apply (proj1 (Forall_forall _ _) F2) in Hx, Hy. destruct Hx as (i & n & N & ->), Hy as (j & o & O & ->). cbn in *. eapply (proj2 G); eauto.
Qed.

Lemma created_are names evidence items l (wanted : list Z -> Prop) : goodNames names ->
  (forall i, In i items <-> exists n, nth_error names i = Some n /\ wanted n) -> NoDup items ->
  Permutation items (map reference l) ->
  (forall x, In x l -> exists n, nth_error names (reference x) = Some n /\ x = item evidence (reference x) n) ->
  (forall b x m y a, l = b ++ x :: m ++ y :: a -> before (name x) (name y)) ->
  availableAre names evidence wanted l.
Proof.
  intros G W D P I S. split; [|split; [|split; [|split]]].
  - intros x Hx. destruct (I x Hx) as (m & M & Q). exists (reference x). split; [now rewrite Q at 1|]. split; [reflexivity|].
    assert (Nx : name x = m) by now rewrite Q. rewrite Nx. split; [exact M|].
    assert (X : In (reference x) items) by (eapply Permutation_in; [apply Permutation_sym; exact P|]; now apply in_map). apply W in X.
    destruct X as (o & M' & X). congruence.
  - intros i n N Wn. assert (X : In i items) by (apply W; eauto). apply (Permutation_in _ P) in X. apply in_map_iff in X. destruct X as (x & <- & Hx).
    exists x. split; [exact Hx|]. destruct (I x Hx) as (m & M & Q). now rewrite Q at 1.
  - assert (D2 : NoDup (map reference l)) by (eapply Permutation_NoDup; eauto). clear -I D2.
    assert (E : map propertyIndex l = map Z.of_nat (map reference l)).
    { rewrite map_map. apply map_ext_in. intros x Hx. destruct (I x Hx) as (n & _ & Q). rewrite Q at 1. reflexivity. }
    rewrite E. apply FinFun.Injective_map_NoDup; [|exact D2]. intros a b. apply Nat2Z.inj.
  - exact S.
  - intros x Hx. destruct (I x Hx) as (n & _ & Q). rewrite Q at 1 2. cbn. now rewrite Nat2Z.id.
Qed.

(* what PropertiesCreate does with a request for names *)
Lemma create_names names evidence qsort properties required nullIfNone : goodNames names -> (Z.of_nat (length names) <= 2 ^ 32)%Z -> sorts qsort ->
  Forall (Forall textChar) required -> initItems names properties = initFromNames names required nullIfNone ->
  let wanted := fun n => exists r, In r required /\ sameText n r in
  (exists t, nullIfNone = true /\ (forall n, In n names -> ~ wanted n) /\ PropertiesCreate qsort names evidence properties = (Null, t) /\ quiet t) \/
  (exists l t t' items, ~ (nullIfNone = true /\ forall n, In n names -> ~ wanted n) /\
     PropertiesCreate qsort names evidence properties = (Created l, t ++ map Got items ++ t') /\ quiet t /\ quiet t' /\
     Permutation items (map reference l) /\ availableAre names evidence wanted l).
Proof.
  intros G B Q T E wanted. destruct (iterate_good names required G T) as (Qt & I). unfold initFromNames in E.
  destruct (iterateProperties names required) as (matched, t). cbn [fst snd] in *.
  assert (W : forall i, In i matched <-> exists n, nth_error names i = Some n /\ wanted n).
  { intros i. rewrite I. unfold wanted. split; [intros (r & n & A & C & F); eauto|intros (n & A & r & C & F); eauto]. }
  destruct (nullIfNone && Nat.eqb (length matched) 0)%bool eqn:Z0.
  - left. apply andb_true_iff in Z0. destruct Z0 as (N & Z0). apply Nat.eqb_eq in Z0. destruct matched; [|discriminate Z0].
    exists t. split; [exact N|]. split; [|split; [|exact Qt]].
    + intros n Hn Wn. apply In_nth_error in Hn. destruct Hn as (i & Hi). apply (proj2 (W i)). eauto.
    + unfold PropertiesCreate. now rewrite E.
  - right. destruct (addAll_ok (length matched) matched []) as (items & A & D & H); [constructor|cbn; lia|]. rewrite A in E. cbn [option_map] in E.
    assert (H' : forall i, In i items <-> exists n, nth_error names i = Some n /\ wanted n) by (intros i; rewrite H, <- W; cbn; tauto).
    destruct (create_sorted names evidence items (t ++ t) qsort properties G B Q E D) as (l & t' & C & Q' & P & X & S).
    + apply Forall_forall. intros i Hi. apply H' in Hi. destruct Hi as (n & N & _). apply nth_error_Some. congruence.
    + now apply quiet_app.
    + exists l, (t ++ t), t', items. split; [|split; [exact C|]; split; [now apply quiet_app|]; split; [exact Q'|]; split; [exact P|]; now apply (created_are names evidence items)].
      intros (-> & N). cbn [andb] in Z0. apply Nat.eqb_neq in Z0. destruct matched as [|i matched]; [apply Z0; reflexivity|].
      destruct (proj1 (W i)) as (n & Hn & Wn); [left; reflexivity|]. apply (N n); [eapply nth_error_In; eauto|exact Wn].
Qed.
Lemma create_all names evidence qsort properties : goodNames names -> (Z.of_nat (length names) <= 2 ^ 32)%Z -> sorts qsort ->
  initItems names properties = initAllProperties names ->
  exists l t t' items, PropertiesCreate qsort names evidence properties = (Created l, t ++ map Got items ++ t') /\ quiet t /\ quiet t' /\
     Permutation items (map reference l) /\ availableAre names evidence (fun _ => True) l.
Proof.
  intros G B Q E. unfold initAllProperties in E. destruct (countFrom_ok names 0) as (C & Qt). destruct (countFrom names 0) as (k, t). cbn [fst snd] in *. cbn in C. subst k.
  destruct (create_sorted names evidence _ t qsort properties G B Q E) as (l & t' & C & Q' & P & X & S).
  - apply seq_NoDup.
  - apply Forall_forall. intros i Hi. apply in_seq in Hi. lia.
  - exact Qt.
  - exists l, t, t', (seq 0 (length names)). split; [exact C|]. split; [exact Qt|]. split; [exact Q'|]. split; [exact P|].
    apply (created_are names evidence (seq 0 (length names))); auto using seq_NoDup. intros i. rewrite in_seq. split.
    + intros H. destruct (nth_error names i) as [n|] eqn:N; [eauto|apply nth_error_None in N; lia].
    + intros (n & N & _). assert (i < length names) by (apply nth_error_Some; congruence). lia.
Qed.

(* searching *)
Lemma bsearch_found (compare : PropertyAvailable -> Z) items k x : nth_error items k = Some x -> compare x = 0%Z ->
  (forall j y, j < k -> nth_error items j = Some y -> (0 < compare y)%Z) ->
  (forall j y, k < j -> nth_error items j = Some y -> (compare y < 0)%Z) ->
  forall fuel l u, l <= k < u -> u <= length items -> u - l < fuel -> bsearch fuel compare items l u = Some (Some k).
Proof.
  intros X Z0 Lo Hi. induction fuel as [|fuel IH]; intros l u R U F; [lia|]. cbn [bsearch].
  destruct (Nat.ltb_spec l u); [|lia]. assert (M : l <= (l + u) / 2 < u).
  { pose proof (Nat.div_mod (l + u) 2). pose proof (Nat.mod_upper_bound (l + u) 2). lia. }
  set (m := (l + u) / 2) in *. clearbody m. cbv zeta. destruct (nth_error items m) as [y|] eqn:Y; [|apply nth_error_None in Y; lia].
  destruct (Nat.lt_trichotomy m k) as [L|[->|L]].
  - specialize (Lo _ _ L Y). destruct (Z.ltb_spec (compare y) 0); [lia|]. destruct (Z.ltb_spec 0 (compare y)); [|lia]. apply IH; lia.
  - assert (y = x) by congruence. subst y. rewrite Z0. reflexivity.
  - specialize (Hi _ _ L Y). destruct (Z.ltb_spec (compare y) 0); [|lia]. apply IH; lia.
Qed.
Lemma bsearch_none (compare : PropertyAvailable -> Z) items : (forall x, In x items -> compare x <> 0%Z) ->
  forall fuel l u, u <= length items -> u - l < fuel -> bsearch fuel compare items l u = Some None.
Proof.
  intros N. induction fuel as [|fuel IH]; intros l u U F; [lia|]. cbn [bsearch].
  destruct (Nat.ltb_spec l u); [|reflexivity]. assert (M : l <= (l + u) / 2 < u).
  { pose proof (Nat.div_mod (l + u) 2). pose proof (Nat.mod_upper_bound (l + u) 2). lia. }
  set (m := (l + u) / 2) in *. clearbody m. cbv zeta. destruct (nth_error items m) as [y|] eqn:Y; [|apply nth_error_None in Y; lia].
  assert (Ny : compare y <> 0%Z) by (apply N; eapply nth_error_In; eauto).
  destruct (Z.ltb_spec (compare y) 0); [apply IH; lia|]. destruct (Z.ltb_spec 0 (compare y)); [apply IH; lia|lia].
Qed.
Definition ascii (s : list Z) : Prop := Forall (fun c => (0 < c < 128)%Z) s.
Lemma before_compare a b : before a b -> ascii a -> ascii b -> (StringCompare a b < 0)%Z.
Proof.
  induction 1 as [y b|x a y b L|x a y b S H IH]; intros Aa Ab; cbn [StringCompare].
  - lia.
  - apply Forall_inv in Aa, Ab. assert (tolower x < tolower y)%Z.
    { unfold rank in L. unfold tolower. destruct (Z.ltb_spec x 0), (Z.ltb_spec y 0); try lia; exact L. }
    destruct (Z.eqb_spec (tolower x - tolower y) 0); lia.
  - apply Forall_cons_iff in Aa, Ab. rewrite (proj2 (diff0 x y) S). apply IH; tauto.
Qed.
Lemma compare_same_l t n m : sameText t n -> StringCompare t m = StringCompare n m.
Proof.
  intros H. revert m. induction H as [|x y t n S H IH]; intros [|z m]; cbn [StringCompare]; try reflexivity.
  apply lower_same in S. rewrite S. destruct (Z.eqb (tolower y - tolower z) 0); [apply IH|reflexivity].
Qed.
