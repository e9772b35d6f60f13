(* Helper lemmas for EvidenceBase.cpp *)
From Verif Require Export EvidenceBaseSpec.
From Verif Require Import PropertiesEvidence.

(* ---- texts ---- *)
Lemma cText_is : forall s, isText s (cText s).
Proof.
  induction s as [|c s (N & IH)]; cbn [cText]; [split; [auto|now left]|]. destruct (Z.eqb_spec c 0) as [->|Ne].
  - split; [auto|]. right. now exists s.
  - split; [cbn; intuition|]. destruct IH as [E|(rest & E)]; [left; congruence|right; exists rest; cbn; congruence].
Qed.
Lemma isText_cText : forall s t, isText s t -> t = cText s.
Proof.
  induction s as [|c s IH]; intros t (N & [E|(rest & E)]).
  - now subst t.
  - destruct t; discriminate E.
  - subst t. cbn [cText]. destruct (Z.eqb_spec c 0) as [->|Ne]; [cbn in N; tauto|]. f_equal. apply IH. split; [cbn in N; tauto|now left].
  - destruct t as [|d t]; cbn in E; injection E as -> E; [reflexivity|]. cbn [cText]. destruct (Z.eqb_spec d 0) as [->|Ne]; [cbn in N; tauto|]. f_equal. apply IH. split; [cbn in N; tauto|right; now exists rest].
Qed.

(* ---- the order ---- *)
Lemma before_cons : forall x a b, before a b -> before (x :: a) (x :: b).
Proof. intros x a b H. destruct H; [apply (before_shorter (x :: a))|apply (before_smaller (x :: a)); assumption]. Qed.
Lemma less_before : forall a b, less a b = true <-> before a b.
Proof.
  induction a as [|x a IH]; intros [|y b]; cbn [less].
  - split; [discriminate|]. intros H. inversion H as [p c q E1 E2|p u q v r L E1 E2]; destruct p; discriminate.
  - split; [intros _; exact (before_shorter [] y b)|auto].
  - split; [discriminate|]. intros H. inversion H as [p c q E1 E2|p u q v r L E1 E2]; destruct p; discriminate.
  - rewrite orb_true_iff, andb_true_iff, IH. split.
    + intros [L|(E & B)]; [apply (before_smaller []); lia|]. apply Z.eqb_eq in E. subst y. now apply before_cons.
    + intros H. remember (x :: a) as u eqn:E1. remember (y :: b) as v eqn:E2. destruct H as [p c q|p u q v r L].
      * subst p. cbn in E2. injection E2 as -> <-. right. split; [apply Z.eqb_refl|]. constructor.
      * destruct p as [|z p]; cbn in E1, E2; injection E1 as E1 E1'; injection E2 as E2 E2'; subst; [left; lia|]. right. split; [apply Z.eqb_refl|]. now constructor.
Qed.
Lemma less_irrefl : forall a, less a a = false.
Proof. induction a as [|x a IH]; cbn; [reflexivity|]. now rewrite Z.ltb_irrefl, Z.eqb_refl, IH. Qed.
Lemma less_trans : forall a b c, less a b = true -> less b c = true -> less a c = true.
Proof.
  induction a as [|x a IH]; intros [|y b] [|z c]; cbn [less]; try discriminate; auto. rewrite !orb_true_iff, !andb_true_iff, !Z.ltb_lt, !Z.eqb_eq.
  intros [A|(A & A')] [B|(B & B')]; [left; lia|left; lia|left; lia|right; split; [lia|eauto]].
Qed.
Lemma less_total : forall a b, less a b = false -> less b a = false -> a = b.
Proof.
  induction a as [|x a IH]; intros [|y b]; cbn [less]; try discriminate; auto. rewrite !orb_false_iff, !andb_false_iff, !Z.ltb_ge, !Z.eqb_neq. intros (A & A') (B & B'). assert (x = y) by lia. subst y. f_equal. apply IH; intuition.
Qed.
Lemma before_irrefl : forall a, ~ before a a.
Proof. intros a H. apply less_before in H. rewrite less_irrefl in H. discriminate. Qed.
Lemma before_trans : forall a b c, before a b -> before b c -> before a c.
Proof. intros a b c. rewrite <- !less_before. apply less_trans. Qed.

Lemma inOrder_same : forall m m', inOrder m -> inOrder m' -> (forall x, In x m <-> In x m') -> m = m'.
Proof.
  induction m as [|(k, v) m IH]; intros [|(k', v') m'] O O' E.
  - reflexivity.
  - exfalso. apply (proj2 (E (k', v'))). now left.
  - exfalso. apply (proj1 (E (k, v))). now left.
  - cbn [inOrder] in O, O'. destruct O as (F & O), O' as (F' & O'). rewrite Forall_forall in F, F'.
    assert (Q : (k, v) = (k', v')).
    { destruct (proj1 (E (k, v)) (or_introl eq_refl)) as [Q|I]; [now symmetry|]. destruct (proj2 (E (k', v')) (or_introl eq_refl)) as [Q|I']; [exact Q|]. exfalso. apply F' in I. apply F in I'. cbn in I, I'. exact (before_irrefl _ (before_trans _ _ _ I I')). }
    injection Q as <- <-. f_equal. apply IH; [exact O|exact O'|]. intros x. specialize (E x). cbn in E. split; intros I.
    + destruct (proj1 E (or_intror I)) as [<-|H]; [|exact H]. exfalso. exact (before_irrefl _ (F _ I)).
    + destruct (proj2 E (or_intror I)) as [<-|H]; [|exact H]. exfalso. exact (before_irrefl _ (F' _ I)).
Qed.
Lemma assign_ok : forall k v m, inOrder m -> assigned k v m (assign k v m).
Proof.
  intros k v. induction m as [|(k1, v1) m IH]; intros O; cbn [assign].
  - split; [cbn; auto|]. intros x. cbn. split; [intros [<-|[]]; now left|intros [->|([] & _)]; now left].
  - cbn [inOrder] in O. destruct O as (F & O). pose proof F as F0. rewrite Forall_forall in F. destruct (less k k1) eqn:L.
    + apply less_before in L. split.
      * cbn [inOrder]. split; [|split; [exact F0|exact O]]. constructor; [exact L|]. apply Forall_forall. intros x I. apply F in I. exact (before_trans _ _ _ L I).
      * intros x. cbn [In]. split; [|intros [->|(H & _)]; [now left|tauto]]. intros [<-|[<-|I]]; [now left|right; split; [now left|]|right; split; [now right|]].
        { cbn. intros ->. exact (before_irrefl _ L). } { intros Q. apply F in I. rewrite Q in I. exact (before_irrefl _ (before_trans _ _ _ L I)). }
    + destruct (less k1 k) eqn:L'.
      * apply less_before in L'. destruct (IH O) as (O' & E). split.
        { cbn [inOrder]. split; [|exact O']. apply Forall_forall. intros x I. apply E in I. destruct I as [->|(I & _)]; [exact L'|now apply F]. }
        intros x. cbn [In]. rewrite E. split; [|tauto]. intros [<-|[->|(I & N)]]; [right|now left|right; tauto]. split; [now left|]. cbn. intros ->. exact (before_irrefl _ L').
      * pose proof (less_total _ _ L L') as <-. split; [cbn [inOrder]; split; [exact F0|exact O]|]. intros x. cbn [In]. split.
        { intros [<-|I]; [now left|]. right. split; [now right|]. intros Q. apply F in I. rewrite Q in I. exact (before_irrefl _ I). }
        { intros [->|([<-|I] & N)]; [now left|cbn in N; congruence|now right]. }
Qed.
Lemma assigned_is : forall k v m m', inOrder m -> assigned k v m m' -> m' = assign k v m.
Proof. intros k v m m' O (O' & E). destruct (assign_ok k v m O) as (A & B). apply inOrder_same; auto. intros x. rewrite E, B. tauto. Qed.
Lemma inOrder_app : forall a b, inOrder (a ++ b) -> inOrder a /\ inOrder b /\ forall x y, In x a -> In y b -> before (fst x) (fst y).
Proof.
  induction a as [|(k, v) a IH]; intros b O; cbn [app inOrder] in *; [split; [exact I|]; split; [exact O|]; intros x y []|].
  destruct O as (F & O). apply Forall_app in F. destruct F as (F1 & F2). destruct (IH b O) as (A & B & C). split; [auto|]. split; [exact B|]. intros x y [<-|I] J; [|auto]. rewrite Forall_forall in F2. exact (F2 y J).
Qed.
Lemma inOrder_join : forall a b, inOrder a -> inOrder b -> (forall x y, In x a -> In y b -> before (fst x) (fst y)) -> inOrder (a ++ b).
Proof.
  induction a as [|(k, v) a IH]; intros b A B C; cbn [app inOrder] in *; [exact B|]. destruct A as (F & A). split.
  - apply Forall_app. split; [exact F|]. apply Forall_forall. intros y J. apply (C (k, v)); [now left|exact J].
  - apply IH; [exact A|exact B|]. intros x y Ix J. apply C; [now right|exact J].
Qed.
Lemma inOrder_cut : forall a x b, inOrder (a ++ x ++ b) -> inOrder (a ++ b).
Proof.
  intros a x b O. destruct (inOrder_app _ _ O) as (A & B & C). destruct (inOrder_app _ _ B) as (_ & B' & _). apply inOrder_join; [exact A|exact B'|]. intros u w I J. apply C; [exact I|apply in_or_app; now right].
Qed.

(* ---- the evidence ---- *)
Lemma evidence_some : forall rel k v t p, EvidenceMapPrefix (cText k) = Some (t, p) -> rel p = true -> forall q, evidenceOf rel k v q <-> q = mkPair p (skipn (List.length t) (cText k)) (Some (cText v)) None.
Proof.
  intros rel k v t p E R q. apply evidence_map_prefix in E. destruct E as (K & f & Ne & Ef). split.
  - intros (text & t' & value & T & K' & Et & Nf & Rq & V & O & Pa). apply isText_cText in T. apply isText_cText in V. subst text value. destruct q as [qp qf qo qa]. cbn [prefix field originalValue parsedValue] in *. subst.
    destruct evidence_prefix_round_trip as (_ & _ & U). destruct (U t p f t' qp qf K K') as (<- & <- & <-); [congruence|]. rewrite Ef, skipn_app, skipn_all, Nat.sub_diag. reflexivity.
  - intros ->. exists (cText k), t, (cText v). cbn [prefix field originalValue parsedValue]. split; [apply cText_is|]. split; [exact K|]. rewrite Ef, skipn_app, skipn_all, Nat.sub_diag. cbn [skipn app]. split; [reflexivity|]. split; [exact Ne|]. split; [exact R|]. split; [apply cText_is|]. split; reflexivity.
Qed.
Lemma evidence_none : forall rel k v, (EvidenceMapPrefix (cText k) = None \/ exists t p, EvidenceMapPrefix (cText k) = Some (t, p) /\ rel p = false) -> forall q, ~ evidenceOf rel k v q.
Proof.
  intros rel k v H q (text & t' & value & T & K' & Et & Nf & Rq & V & O & Pa). apply isText_cText in T. subst text.
  assert (M : EvidenceMapPrefix (cText k) = Some (t', prefix q)) by (apply evidence_map_prefix; split; [exact K'|]; exists (field q); auto).
  destruct H as [H|(t & p & H & R)]; [congruence|]. rewrite H in M. injection M as -> ->. congruence.
Qed.
Lemma add_ok : forall rel m l, given rel m l -> forall cap its, List.length its + List.length m <= cap ->
  addEntries rel m (mkEvidence cap its None) = mkEvidence cap (its ++ l) None.
Proof.
  intros rel m l G. induction G as [|k v m p l E G IH|k v m l N G IH]; intros cap its L; cbn [addEntries List.length] in *; [now rewrite app_nil_r| |].
  - destruct (EvidenceMapPrefix (cText k)) as [(t, q)|] eqn:M.
    + destruct (rel q) eqn:R.
      * pose proof (proj1 (evidence_some rel k v t q M R p) E) as ->. unfold EvidenceAddString. cbn [capacity items pseudoEvidence]. replace (Nat.ltb (List.length its) cap) with true by (symmetry; apply Nat.ltb_lt; lia). cbn [fst]. rewrite IH by (rewrite app_length; cbn [List.length]; lia). now rewrite <- app_assoc.
      * exfalso. refine (evidence_none rel k v _ p E). right. exists t, q. auto.
    + exfalso. refine (evidence_none rel k v _ p E). now left.
  - destruct (EvidenceMapPrefix (cText k)) as [(t, q)|] eqn:M; [|apply IH; lia]. destruct (rel q) eqn:R; [|apply IH; lia]. exfalso. eapply N. apply (evidence_some rel k v t q M R). reflexivity.
Qed.
(* every map has its evidence *)
Lemma given_total : forall rel m, exists l, given rel m l.
Proof.
  induction m as [|(k, v) m (l & IH)]; [exists []; constructor|]. destruct (EvidenceMapPrefix (cText k)) as [(t, q)|] eqn:M.
  - destruct (rel q) eqn:R.
    + eexists. apply given_in; [|exact IH]. apply (evidence_some rel k v t q M R). reflexivity.
    + exists l. apply given_out; [|exact IH]. apply evidence_none. right. exists t, q. auto.
  - exists l. apply given_out; [|exact IH]. apply evidence_none. now left.
Qed.

(* ---- memory ---- *)
Definition owned (l : list Object) : list nat := flat_map (fun o => match evidence o with Some b => [b] | None => [] end) l.
Definition fits (so : option (list (list Z * list Z))) (ob : Object) : Prop :=
  match so with Some m => alive ob = true /\ entries ob = m /\ inOrder m | None => alive ob = false /\ evidence ob = None end.
Definition inv (s : state) (w : World) : Prop :=
  Forall2 fits s (objects w) /\ NoDup (owned (objects w)) /\ forall b, In b (owned (objects w)) <-> nth b (blocks w) false = true.

Lemma put_app : forall {A} (a : list A) x y b, put (List.length a) y (a ++ x :: b) = a ++ y :: b.
Proof. induction a; intros; cbn; [reflexivity|]. now rewrite IHa. Qed.
Lemma nth_put : forall b n (l : list bool), nth n (put b false l) false = if Nat.eqb b n then false else nth n l false.
Proof. induction b as [|b IH]; intros [|n] [|x l]; cbn; try reflexivity; [destruct (Nat.eqb b n); reflexivity|apply IH]. Qed.
Lemma owned_app : forall a b, owned (a ++ b) = owned a ++ owned b.
Proof. intros. apply flat_map_app. Qed.
Lemma nodup_drop : forall (a m b : list nat), NoDup (a ++ m ++ b) -> NoDup (a ++ b) /\ forall x, In x m -> ~ In x (a ++ b).
Proof.
  intros a m b N. induction m as [|y m IH]; cbn [app] in N; [split; [exact N|intros x []]|]. pose proof (NoDup_remove_1 _ _ _ N) as N1. pose proof (NoDup_remove_2 _ _ _ N) as N2. destruct (IH N1) as (A & B). split; [exact A|].
  intros x [<-|I]; [|auto]. intros J. apply N2. apply in_app_or in J. apply in_or_app. destruct J; [now left|right; apply in_or_app; now right].
Qed.
(* the array of an object is freed *)
Lemma free_ok : forall a ob b bs, NoDup (owned (a ++ ob :: b)) -> (forall x, In x (owned (a ++ ob :: b)) <-> nth x bs false = true) ->
  exists bs', EvidenceFree (evidence ob) bs = Some bs' /\ NoDup (owned (a ++ b)) /\ (forall x, In x (owned (a ++ b)) <-> nth x bs' false = true) /\ List.length bs' = List.length bs.
Proof.
  intros a ob b bs N O. rewrite owned_app in *. cbn [owned flat_map] in *. fold (owned b) in *. destruct (evidence ob) as [x|]; cbn [app] in *.
  - assert (L : nth x bs false = true) by (apply O; apply in_or_app; right; now left). cbn [EvidenceFree]. rewrite L. exists (put x false bs). split; [reflexivity|].
    change (owned a ++ x :: owned b) with (owned a ++ [x] ++ owned b) in N. destruct (nodup_drop _ _ _ N) as (N1 & N2). split; [exact N1|]. split.
    + intros y. rewrite nth_put. destruct (Nat.eqb_spec x y) as [<-|Ne].
      * split; [intros I; exfalso; exact (N2 x (or_introl eq_refl) I)|discriminate].
      * rewrite <- O. rewrite !in_app_iff. cbn [In]. tauto.
    + clear. revert x. induction bs as [|y bs IH]; intros [|x]; cbn; auto.
  - exists bs. auto.
Qed.
Lemma owned_none : forall a m al b, owned (a ++ mkObject m None al :: b) = owned (a ++ b).
Proof. intros. now rewrite !owned_app. Qed.
Lemma owned_same : forall a ob m al b, owned (a ++ mkObject m (evidence ob) al :: b) = owned (a ++ ob :: b).
Proof. intros. now rewrite !owned_app. Qed.

Lemma split_inv : forall a so b w, Forall2 fits (a ++ so :: b) (objects w) -> exists oa ob obs, objects w = oa ++ ob :: obs /\ List.length oa = List.length a /\ Forall2 fits a oa /\ fits so ob /\ Forall2 fits b obs.
Proof.
  intros a so b w F. apply Forall2_app_inv_l in F. destruct F as (oa & l & Fa & Fl & E). inversion Fl as [|x ob y obs F1 F2]; subst. exists oa, ob, obs. split; [exact E|]. split; [symmetry; clear -Fa; induction Fa; cbn; auto|]. auto.
Qed.
Lemma nth_mid : forall {A} (a : list A) x b, nth_error (a ++ x :: b) (List.length a) = Some x.
Proof. intros. rewrite nth_error_app2 by lia. now rewrite Nat.sub_diag. Qed.

(* a call that only frees the array and sets the entries *)
Lemma step_ok : forall rel s o s' r w, inv s w -> uses rel s o s' r -> exists w', perform rel o w = Some (w', r) /\ inv s' w'.
Proof.
  intros rel s o s' r w (F & N & O) U.
  assert (Freed : forall a m b oa ob obs so', objects w = oa ++ ob :: obs -> List.length oa = List.length a -> Forall2 fits a oa -> Forall2 fits b obs -> forall al, fits so' (mkObject m None al) ->
    exists bs, EvidenceFree (evidence ob) (blocks w) = Some bs /\ inv (a ++ so' :: b) (mkWorld (put (List.length a) (mkObject m None al) (objects w)) bs)).
  { intros a m b oa ob obs so' E L Fa Fb al Fm. rewrite E in N, O. destruct (free_ok _ _ _ _ N O) as (bs & E1 & N1 & O1 & _). exists bs. split; [exact E1|]. rewrite E, <- L, put_app. split; [apply Forall2_app; [exact Fa|constructor; [exact Fm|exact Fb]]|]. cbn [objects blocks]. rewrite owned_none. auto. }
  destruct U as [s|a m b k v m' A|a m b l G Lm|a m b|a m b|a m x m' b|a m x m' b|a m b]; cbn [perform].
  - eexists. split; [reflexivity|]. split; [apply Forall2_app; [exact F|repeat constructor]|]. cbn [objects blocks]. rewrite owned_app. cbn [owned flat_map app evidence]. rewrite app_nil_r. auto.
  - destruct (split_inv _ _ _ _ F) as (oa & ob & obs & E & L & Fa & (Al & En & Or) & Fb). rewrite E, <- L, nth_mid, Al. eexists. split; [reflexivity|]. rewrite put_app. split.
    + cbn [objects]. apply Forall2_app; [exact Fa|constructor; [|exact Fb]]. cbn [fits alive entries]. rewrite En. rewrite (assigned_is _ _ _ _ Or A). split; [reflexivity|]. split; [reflexivity|]. apply assign_ok, Or.
    + cbn [objects blocks]. rewrite owned_same. rewrite <- E. auto.
  - destruct (split_inv _ _ _ _ F) as (oa & ob & obs & E & L & Fa & (Al & En & Or) & Fb). rewrite E, <- L, nth_mid, Al. pose proof N as N'. pose proof O as O'. rewrite E in N', O'. destruct (free_ok _ _ _ _ N' O') as (bs & E1 & N1 & O1 & Lb). rewrite E1, En.
    rewrite Z.mod_small, Nat2Z.id by lia. unfold EvidenceCreate. rewrite (add_ok rel m l G) by (cbn; lia). cbn [app]. eexists. split; [reflexivity|]. rewrite put_app. split.
    + cbn [objects]. apply Forall2_app; [exact Fa|constructor; [|exact Fb]]. cbn [fits alive entries]. auto.
    + cbn [objects blocks]. assert (Nb : ~ In (List.length bs) (owned (oa ++ obs))). { rewrite O1. rewrite nth_overflow by lia. discriminate. }
      rewrite owned_app in *. cbn [owned flat_map evidence app]. fold (owned obs). split.
      * apply NoDup_Add with (a := List.length bs) (l := owned oa ++ owned obs); [apply Add_app|]. auto.
      * intros y. rewrite in_app_iff. cbn [In]. destruct (Nat.lt_trichotomy y (List.length bs)) as [Lt|[->|Gt]].
        { rewrite app_nth1 by exact Lt. rewrite <- O1, in_app_iff. split; [intros [?|[?|?]]; [tauto|lia|tauto]|tauto]. }
        { rewrite app_nth2, Nat.sub_diag by lia. cbn. tauto. }
        { rewrite nth_overflow by (rewrite app_length; cbn; lia). split; [|discriminate]. intros H. exfalso. assert (Q : In y (owned oa ++ owned obs)) by (apply in_or_app; destruct H as [H|[H|H]]; [tauto|lia|tauto]). apply O1 in Q. rewrite nth_overflow in Q by lia. discriminate. }
  - destruct (split_inv _ _ _ _ F) as (oa & ob & obs & E & L & Fa & (Al & En & Or) & Fb). destruct (Freed a m b oa ob obs (Some m) E L Fa Fb true) as (bs & E1 & I1); [cbn; auto|]. assert (Nt : nth_error (objects w) (List.length a) = Some ob) by (rewrite E, <- L; apply nth_mid). rewrite Nt, Al, E1, En. eauto.
  - destruct (split_inv _ _ _ _ F) as (oa & ob & obs & E & L & Fa & (Al & En & Or) & Fb). destruct (Freed a [] b oa ob obs (Some []) E L Fa Fb true) as (bs & E1 & I1); [cbn; auto|]. assert (Nt : nth_error (objects w) (List.length a) = Some ob) by (rewrite E, <- L; apply nth_mid). rewrite Nt, Al, E1. cbn [option_map]. eauto.
  - destruct (split_inv _ _ _ _ F) as (oa & ob & obs & E & L & Fa & (Al & En & Or) & Fb). destruct (Freed a (m ++ m') b oa ob obs (Some (m ++ m')) E L Fa Fb true) as (bs & E1 & I1); [cbn; split; [reflexivity|]; split; [reflexivity|]; exact (inOrder_cut m [x] m' Or)|].
    assert (Nt : nth_error (objects w) (List.length a) = Some ob) by (rewrite E, <- L; apply nth_mid). rewrite Nt, Al, E1, En. rewrite app_length. cbn [List.length]. replace (Nat.ltb _ _) with true by (symmetry; apply Nat.ltb_lt; lia). cbn [option_map].
    rewrite firstn_app, Nat.sub_diag, firstn_all. cbn [firstn]. rewrite app_nil_r. rewrite skipn_app, skipn_all2 by lia. replace (S (List.length m) - List.length m) with 1 by lia. cbn [skipn app]. eauto.
  - destruct (split_inv _ _ _ _ F) as (oa & ob & obs & E & L & Fa & (Al & En & Or) & Fb). destruct (Freed a (m ++ m') b oa ob obs (Some (m ++ m')) E L Fa Fb true) as (bs & E1 & I1); [cbn; split; [reflexivity|]; split; [reflexivity|]; exact (inOrder_cut m x m' Or)|].
    assert (Nt : nth_error (objects w) (List.length a) = Some ob) by (rewrite E, <- L; apply nth_mid). rewrite Nt, Al, E1, En. rewrite !app_length. replace (Nat.leb (List.length m) _ && Nat.leb _ _) with true by (symmetry; apply andb_true_iff; split; apply Nat.leb_le; lia). cbn [option_map].
    rewrite firstn_app, Nat.sub_diag, firstn_all. cbn [firstn]. rewrite app_nil_r. rewrite skipn_app, skipn_all2 by lia. replace (List.length m + List.length x - List.length m) with (List.length x) by lia. rewrite skipn_app, skipn_all, Nat.sub_diag. cbn [skipn app]. eauto.
  - destruct (split_inv _ _ _ _ F) as (oa & ob & obs & E & L & Fa & (Al & En & Or) & Fb). destruct (Freed a [] b oa ob obs None E L Fa Fb false) as (bs & E1 & I1); [cbn; auto|]. assert (Nt : nth_error (objects w) (List.length a) = Some ob) by (rewrite E, <- L; apply nth_mid). rewrite Nt, Al, E1. cbn [option_map]. eauto.
Qed.
Lemma steps_ok : forall rel ops s s' rs w, inv s w -> usesAll rel s ops s' rs -> exists w', performAll rel ops w = Some (w', rs) /\ inv s' w'.
Proof.
  intros rel ops s s' rs w I U. revert w I. induction U as [s|s o s1 r ops s2 rs U1 U IH]; intros w I; [exists w; split; [reflexivity|exact I]|]. destruct (step_ok _ _ _ _ _ _ I U1) as (w1 & E1 & I1). destruct (IH w1 I1) as (w2 & E2 & I2). exists w2. split; [|exact I2]. cbn [performAll]. rewrite E1, E2. reflexivity.
Qed.
