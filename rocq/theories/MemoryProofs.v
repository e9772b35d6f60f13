(* Proofs about memory.c. *)
From Coq Require Import Permutation.
From Verif Require Import TreeRep TreeOps TreeRun.
From Verif Require TreeSpec.
From Verif Require Export MemoryModel MemorySpec.
Import TreeSpec(mkspec, spec, present, clean, step, lookup, bound, hasKey, hasNode).

(* a tree with records ns: as many as are allocated *)
Definition good (h : heap) (c : list (Z * ptr)) : Prop :=
  exists ns s t, inv ns h s t /\ present s = c /\ (forall q, 3 <= q -> h q <> None -> In q ns) /\ (forall q, In q ns -> In q (map snd c)).

Lemma inv_fresh ns h s t p n : inv ns h s t -> ~ In p ns -> 3 <= p -> inv (p :: ns) (upd p n h) s t.
Proof.
  intros [Ht Hp (Hnd & Hns) Hin Hcl] N P3.
  assert (F : forall q, q <> p -> upd p n h q = h q) by (intros q Q; now apply upd_neq).
  assert (Np : ~ In p (ids (present s))) by (intros H; apply N; now apply Hin).
  constructor.
  - eapply tinv_frame; [|exact Ht]. intros q [Q|[Q|Q]]; apply F.
    + intros ->. apply Np. apply (inv_cnt ns h s t p); [now constructor|exact Q].
    + subst. unfold ROOT. lia.
    + subst. unfold EMPTY. lia.
  - exact Hp.
  - split; [now constructor|]. intros q [<-|Hq]; [split; [exact P3|rewrite upd_eq; eauto]|]. destruct (Hns q Hq) as (A & m & B). split; [exact A|].
    exists m. rewrite F; [exact B|]. intros ->. contradiction.
  - intros q Hq. right. now apply Hin.
  - intros q Hq. destruct (Hcl q Hq) as (A & B & m & C & D). split; [now right|]. split; [exact B|]. exists m. split; [|exact D]. rewrite F; [exact C|].
    intros ->. contradiction.
Qed.
Lemma inv_free ns h s t p : inv ns h s t -> ~ In p (ids (present s)) -> 3 <= p ->
  inv (filter (fun q => negb (Nat.eqb p q)) ns) (fun q => if Nat.eqb q p then None else h q) (mkspec (present s) []) t.
Proof.
  intros [Ht Hp (Hnd & Hns) Hin Hcl] Np P3.
  assert (F : forall q, q <> p -> (if Nat.eqb q p then None else h q) = h q) by (intros q Q; apply Nat.eqb_neq in Q; now rewrite Q).
  constructor; cbn [present clean].
  - eapply tinv_frame; [|exact Ht]. intros q [Q|[Q|Q]]; apply F.
    + intros ->. apply Np. apply (inv_cnt ns h s t p); [now constructor|exact Q].
    + subst. unfold ROOT. lia.
    + subst. unfold EMPTY. lia.
  - exact Hp.
  - split; [now apply NoDup_filter|]. intros q Hq. apply filter_In in Hq. destruct Hq as (Hq & Q). apply negb_true_iff, Nat.eqb_neq in Q.
    destruct (Hns q Hq) as (A & m & B). split; [exact A|]. exists m. rewrite F; [exact B|congruence].
  - intros q Hq. apply filter_In. split; [now apply Hin|]. apply negb_true_iff, Nat.eqb_neq. intros <-. contradiction.
  - intros q [].
Qed.
Lemma good_keys h c : good h c -> NoDup (map fst c) /\ NoDup (map snd c).
Proof.
  intros (ns & s & t & I & <- & _). split.
  - eapply Permutation_NoDup; [apply Permutation_keys, I|].
    pose proof (ti_s _ _ (i_t _ _ _ _ I)) as Hs. unfold sorted in Hs.
    clear -Hs. induction Hs as [|a l Hs IH Hf]; constructor; auto.
    intros Hi. rewrite Forall_forall in Hf. apply Hf in Hi. lia.
  - eapply Permutation_NoDup; [apply Permutation_ids, I|]. eapply repz_nodup, ti_z, I.
Qed.
Lemma good_fresh h c p : good h c -> 3 <= p -> ~ In p (map snd c) -> h p = None.
Proof.
  intros (ns & s & t & I & E & A & B) P N. destruct (h p) eqn:X; [|reflexivity]. exfalso. apply N, B, A; [exact P|congruence].
Qed.

Lemma insert_good h c p k g fuel : good h c -> 3 <= p -> ~ In p (map snd c) -> ~ In k (map fst c) -> bound (length c) <= fuel ->
  exists h', (mallocRecord p g ;;; TreeNodeInit p ;;; set_key k p ;;; TreeInsert fuel p) h = Some (tt, h') /\ good h' ((k, p) :: c).
Proof.
  intros G P3 Np Nk Hf. pose proof (good_fresh _ _ _ G P3 Np) as Hp. destruct G as (ns & s & t & I & <- & A & B).
  assert (N : ~ In p ns) by (intros H; apply Np, B, H).
  assert (E1 : mallocRecord p g h = Some (tt, upd p g h)) by (unfold mallocRecord; now rewrite Hp). rewrite (bind_ok _ _ _ _ _ E1).
  assert (exists h1, TreeNodeInit p (upd p g h) = Some (tt, h1) /\ h1 p = Some (mk EMPTY EMPTY EMPTY false 0%Z) /\
     forall q, q <> p -> h1 q = h q) as (h1 & E2 & H1 & F1).
  { unfold TreeNodeInit, set_key. erewrite modn_bind by apply upd_eq.
    edestruct nodeRemove_ok as (h1 & X1 & X2 & X3); [apply upd_eq|].
    exists h1. split; [exact X1|]. split; [exact X2|]. intros q Q. rewrite X3 by exact Q. now rewrite !upd_neq. }
  rewrite (bind_ok _ _ _ _ _ E2).
  assert (I1 : inv (p :: ns) h1 s t).
  { pose proof (inv_fresh ns h s t p (mk EMPTY EMPTY EMPTY false 0%Z) I N P3) as [Ht Hpm (Hnd & Hns) Hin Hcl].
    assert (F : forall q, h1 q = upd p (mk EMPTY EMPTY EMPTY false 0%Z) h q).
    { intros q. destruct (Nat.eq_dec q p) as [->|Q]; [now rewrite upd_eq|]. now rewrite upd_neq, F1. }
    constructor; auto.
    - eapply tinv_frame; [|exact Ht]. intros; apply F.
    - split; [exact Hnd|]. intros q Hq. rewrite F. now apply Hns.
    - intros q Hq. rewrite F. now apply Hcl. }
  assert (S : step (p :: ns) s (TreeSpec.Insert p k) = Some (mkspec ((k, p) :: present s) (filter (fun q => negb (Nat.eqb p q)) (clean s)))).
  { unfold step. assert (X1 : existsb (Nat.eqb p) (p :: ns) = true) by (apply existsb_eqb; now left). rewrite X1.
    destruct (hasKey k s) eqn:X2; [apply hasKey_iff in X2; contradiction|]. destruct (hasNode p s) eqn:X3; [apply hasNode_iff in X3; contradiction|]. reflexivity. }
  destruct (step_ok (p :: ns) h1 s t _ _ fuel I1 S Hf) as (h' & t' & E3 & I' & F').
  exists h'. split; [exact E3|]. exists (p :: ns). do 2 eexists. split; [exact I'|]. split; [reflexivity|]. split.
  - intros q Q3 Hq. destruct (in_dec Nat.eq_dec q (p :: ns)) as [|Nq]; [assumption|]. right. apply A; [exact Q3|].
    rewrite F' in Hq; [|exact Nq|unfold ROOT; lia|unfold EMPTY; lia]. rewrite F1 in Hq; [exact Hq|]. intros ->. apply Nq. now left.
  - intros q [<-|Hq]; [now left|]. right. now apply B.
Qed.

Lemma delete_good h c p k fuel : good h c -> In (k, p) c -> bound (length c) <= fuel ->
  exists h', TreeFind fuel k h = Some (Some p, h) /\ (TreeDelete fuel p ;;; freeRecord p) h = Some (tt, h') /\
    good h' (filter (fun e => negb (Nat.eqb p (snd e))) c).
Proof.
  intros G Hc Hf. destruct (good_keys _ _ G) as (Dk & Dp). destruct G as (ns & s & t & I & <- & A & B).
  assert (E1 : TreeFind fuel k h = Some (lookup k s, h)) by (apply (find_inv ns h s t); [exact I|lia]).
  assert (L : lookup k s = Some p).
  { apply (lookup_spec _ _ _ _ _ _ I). eapply Permutation_in; [apply Permutation_sym, I|exact Hc]. }
  rewrite L in E1. assert (Ip : In p (ids (present s))) by (apply (in_map snd) in Hc; exact Hc).
  assert (Hn : hasNode p s = true) by now apply hasNode_iff.
  assert (S : step ns s (TreeSpec.Delete p) = Some (mkspec (filter (fun e => negb (Nat.eqb p (snd e))) (present s)) (clean s))) by (unfold step; now rewrite Hn).
  destruct (step_ok ns h s t _ _ fuel I S Hf) as (h1 & t1 & E2 & I1 & F1). cbn [TreeSpec.runOp] in E2.
  assert (Np : ~ In p (ids (present (mkspec (filter (fun e => negb (Nat.eqb p (snd e))) (present s)) (clean s))))).
  { cbn. unfold ids. intros H. apply in_map_iff in H. destruct H as (e & Q & H). apply filter_In in H. destruct H as (_ & H). rewrite Q, Nat.eqb_refl in H. discriminate H. }
  destruct (proj2 (i_ns _ _ _ _ I1) p) as (P3 & n & Hp); [apply (i_in _ _ _ _ I); exact Ip|].
  assert (E3 : freeRecord p h1 = Some (tt, fun q => if Nat.eqb q p then None else h1 q)) by (unfold freeRecord; now rewrite Hp).
  eexists. split; [exact E1|]. split; [rewrite (bind_ok _ _ _ _ _ E2); exact E3|].
  pose proof (inv_free _ _ _ _ p I1 Np P3) as I2. do 3 eexists. split; [exact I2|]. split; [reflexivity|]. split.
  - intros q Q3 Hq. apply filter_In. destruct (Nat.eqb_spec q p) as [->|Q]; [congruence|]. split; [|apply negb_true_iff, Nat.eqb_neq; congruence].
    destruct (in_dec Nat.eq_dec q ns) as [|Nq]; [assumption|]. apply A; [exact Q3|]. rewrite F1 in Hq; [exact Hq|exact Nq|unfold ROOT; lia|unfold EMPTY; lia].
  - intros q Hq. apply filter_In in Hq. destruct Hq as (Hq & Q). apply B in Hq. apply in_map_iff in Hq. destruct Hq as (e & <- & He). apply in_map. apply filter_In. auto.
Qed.

Lemma init_good h : h ROOT <> None -> h EMPTY <> None -> (forall p, 3 <= p -> h p = None) ->
  exists h', TreeRootInit h = Some (tt, h') /\ good h' [].
Proof.
  intros Hr He Hf. destruct (init_ok [] h) as (h' & E & I & F).
  { split; [constructor|]. split; [intros p []|]. intros p [[]|[-> | ->]]; assumption. }
  unfold TreeSpec.initTree, TreeSpec.initNodes in E. unfold bind in E. destruct (TreeRootInit h) as [(u, h1)|]; [|discriminate E]. destruct u. cbn in E. injection E as ->.
  exists h'. split; [reflexivity|]. exists []. do 2 eexists. split; [exact I|]. split; [reflexivity|]. split; [|intros q []].
  intros q Q3 Hq. exfalso. rewrite F in Hq; [|intros []|unfold ROOT; lia|unfold EMPTY; lia]. apply Hq, Hf, Q3.
Qed.

(* ---- the machine ---- *)
Lemma NoDup_app_remove_l {A} (a b : list A) : NoDup (a ++ b) -> NoDup b.
Proof. induction a as [|x a IH]; [auto|]. cbn [app]. intros H. apply NoDup_cons_iff in H. apply IH, H. Qed.
Lemma NoDup_app_remove_r {A} (a b : list A) : NoDup (a ++ b) -> NoDup a.
Proof. intros H. apply (NoDup_app_remove_l b a). eapply Permutation_NoDup; [apply Permutation_app_comm|exact H]. Qed.
Definition content (i : nat) (bs : list block) : list (Z * ptr) :=
  map (fun b => (keyOf (fst (fst b)), snd b)) (filter (fun b => Nat.eqb (getShardFromPointer (fst (fst b))) i) bs).
Definition tracked (l : ledger) : list block := live l ++ mallocs l.
Definition totalOf (l : ledger) : Z := (sumOf (map fst (live l)) + sumOf (frees l))%Z.
Definition everything (l : ledger) : list (Z * Z) := map fst (tracked l) ++ frees l.

Record minv (m : machine) (l : ledger) : Prop := {
  mi_init : initialised (tracker m) = true;
  mi_len : length (shards (tracker m)) = SHARDS;
  mi_good : forall i sh, nth_error (shards (tracker m)) i = Some sh ->
    (exists c, good (nodes sh) c /\ Permutation c (content i (tracked l))) /\
    forall p size r, In ((p, size), r) (tracked l) -> getShardFromPointer p = i -> sizes sh r = size;
  mi_nd : NoDup (pointers l);
  mi_ndr : NoDup (records l);
  mi_range : forall p size r, In ((p, size), r) (tracked l) -> (0 <= p < 2 ^ 64)%Z /\ 3 <= r;
  mi_add : Permutation (adding m) (map fst (mallocs l));
  mi_sub : Permutation (subtracting m) (frees l);
  mi_total : allocatedTotal (tracker m) = totalOf l;
  mi_max : (allocatedTotal (tracker m) <= maxTotal (tracker m))%Z;
  mi_pos : Forall (fun x => 0 <= snd x)%Z (everything l);
  mi_small : (sumOf (everything l) < 2 ^ 64)%Z }.

Lemma content_perm i a b : Permutation a b -> Permutation (content i a) (content i b).
Proof. intros H. apply Permutation_map, Permutation_filter, H. Qed.
Lemma keyOf_inj p q : (0 <= p < 2 ^ 64)%Z -> (0 <= q < 2 ^ 64)%Z -> keyOf p = keyOf q -> p = q.
Proof. intros A B. unfold keyOf, word. destruct (Z.ltb_spec p (2 ^ 63)), (Z.ltb_spec q (2 ^ 63)); lia. Qed.
Lemma shard_lt p : getShardFromPointer p < SHARDS.
Proof. unfold getShardFromPointer, SHARDS. pose proof (Z.mod_pos_bound (p / 24) 20). lia. Qed.
Lemma setShard_len l i x : i < length l -> length (setShard l i x) = length l.
Proof. intros H. unfold setShard. rewrite app_length, firstn_length. cbn [length]. rewrite skipn_length. lia. Qed.
Lemma setShard_nth l i x j : i < length l -> nth_error (setShard l i x) j = if Nat.eqb j i then Some x else nth_error l j.
Proof.
  intros H. unfold setShard. assert (L : length (firstn i l) = i) by (rewrite firstn_length; lia).
  destruct (Nat.eqb_spec j i) as [->|N].
  - rewrite nth_error_app2 by lia. rewrite L, Nat.sub_diag. reflexivity.
  - destruct (Nat.lt_ge_cases j i).
    + rewrite nth_error_app1 by lia. clear -H0. revert l j H0. induction i as [|i IH]; intros l j H; [lia|]. destruct l, j; cbn; auto. apply IH. lia.
    + rewrite nth_error_app2 by lia. rewrite L. replace (j - i) with (S (j - S i)) by lia. cbn [nth_error].
      assert (X : forall k (l' : list Shard) n, nth_error (skipn k l') n = nth_error l' (k + n)).
      { induction k as [|k IH]; intros l' n; [reflexivity|]. destruct l'; cbn [skipn plus]; [now destruct n|]. apply IH. }
      rewrite X. f_equal. lia.
Qed.
Lemma in_content i bs k r : In (k, r) (content i bs) <-> exists p size, In ((p, size), r) bs /\ getShardFromPointer p = i /\ keyOf p = k.
Proof.
  unfold content. rewrite in_map_iff. split.
  - intros (((p, size), r') & E & H). cbn in E. injection E as E1 ->. apply filter_In in H. destruct H as (H & X). apply Nat.eqb_eq in X. eauto.
  - intros (p & size & H & <- & <-). exists ((p, size), r). split; [reflexivity|]. apply filter_In. split; [exact H|apply Nat.eqb_refl].
Qed.
Lemma content_len i bs : length (content i bs) <= length bs.
Proof. unfold content. rewrite map_length. induction bs as [|b bs IH]; cbn; [lia|]. destruct Nat.eqb; cbn; lia. Qed.

Lemma take_perm p size a b l : NoDup (map fst (a ++ (p, size) :: b)) -> Permutation l (a ++ (p, size) :: b) ->
  exists rest, take p l = Some (size, rest) /\ Permutation rest (a ++ b).
Proof.
  intros D P. assert (D' : NoDup (map fst l)) by (eapply Permutation_NoDup; [apply Permutation_map, Permutation_sym, P|exact D]).
  assert (I : In (p, size) l) by (eapply Permutation_in; [apply Permutation_sym, P|apply in_elt]).
  assert (exists rest, take p l = Some (size, rest) /\ Permutation l ((p, size) :: rest)) as (rest & E & Q).
  { clear -D' I. induction l as [|(q, s) l IH]; [destruct I|]. cbn in *. apply NoDup_cons_iff in D'. destruct D' as (N & D').
    destruct (Z.eqb_spec q p) as [->|Nq].
    - destruct I as [E|I]; [injection E as ->; eauto|]. exfalso. apply N. apply (in_map fst) in I. exact I.
    - destruct I as [E|I]; [congruence|]. destruct (IH D' I) as (rest & E & Q). rewrite E. eexists. split; [reflexivity|].
      etransitivity; [apply perm_skip, Q|]. apply perm_swap. }
  exists rest. split; [exact E|]. apply (Permutation_cons_inv (a := (p, size))). rewrite <- Q, P. symmetry. apply Permutation_middle.
Qed.
Lemma sumOf_app a b : sumOf (a ++ b) = (sumOf a + sumOf b)%Z.
Proof. induction a as [|x a IH]; [reflexivity|]. cbn [app]. unfold sumOf in *. cbn [fold_right]. rewrite IH. lia. Qed.
Lemma sumOf_pos l : Forall (fun x => 0 <= snd x)%Z l -> (0 <= sumOf l)%Z.
Proof. induction 1 as [|x l H _ IH]; [cbn; lia|]. change (sumOf (x :: l)) with (snd x + sumOf l)%Z. lia. Qed.
Lemma sumOf_perm a b : Permutation a b -> sumOf a = sumOf b.
Proof. unfold sumOf. induction 1; cbn [fold_right]; lia. Qed.
Lemma Forall_perm {A} (P : A -> Prop) a b : Permutation a b -> Forall P a -> Forall P b.
Proof. intros E H. rewrite Forall_forall in *. intros x Hx. apply H. eapply Permutation_in; [apply Permutation_sym, E|exact Hx]. Qed.
Lemma totals l : Forall (fun x => 0 <= snd x)%Z (everything l) ->
  (0 <= totalOf l /\ sumOf (everything l) = totalOf l + sumOf (map fst (mallocs l)) /\ 0 <= sumOf (map fst (mallocs l)))%Z.
Proof.
  unfold everything, tracked, totalOf. rewrite map_app, !sumOf_app. intros H. rewrite !Forall_app in H. destruct H as ((A & B) & C).
  apply sumOf_pos in A, B, C. split; [|split].
  - apply Z.add_nonneg_nonneg; [exact A|exact C].
  - rewrite <- !Z.add_assoc. f_equal. apply Z.add_comm.
  - exact B.
Qed.
Lemma map_fst_fst (l : list block) : map (fun b => fst (fst b)) l = map fst (map fst l).
Proof. now rewrite map_map. Qed.

Lemma step_malloc fuel m l p size r g : minv m l -> bound (length (tracked l)) <= fuel ->
  (0 <= p < 2 ^ 64)%Z -> (0 <= size < 2 ^ 32)%Z -> ~ In p (pointers l) -> 3 <= r -> ~ In r (records l) -> (sumOf (map fst (live l ++ mallocs l) ++ frees l) + size < 2 ^ 64)%Z ->
  exists m', runEvent fuel m (MallocBegin p size r g) = Some m' /\ minv m' (mkLedger (live l) (((p, size), r) :: mallocs l) (frees l)).
Proof.
  intros [Hin Hl Hg Hnd Hndr Hr Ha Hs Ht Hx Hpos Hsm] Hf Hp Hz Np P3 Nr Hsz. cbn [runEvent]. unfold tryInit. rewrite Hin. unfold trackInsert.
  set (i := getShardFromPointer p). assert (Hi : i < length (shards (tracker m))) by (rewrite Hl; apply shard_lt).
  destruct (nth_error (shards (tracker m)) i) as [sh|] eqn:En; [|apply nth_error_None in En; lia].
  destruct (Hg i sh En) as ((c & G & P) & ZZ).
  assert (Hc : length c <= length (tracked l)) by (rewrite (Permutation_length P); apply content_len).
  assert (N1 : ~ In r (map snd c)).
  { intros H. apply in_map_iff in H. destruct H as ((k, r') & E & H). cbn in E. subst r'. eapply Permutation_in in H; [|exact P].
    apply in_content in H. destruct H as (q & s & H & _). apply Nr. unfold records. change r with (snd ((q, s), r)). now apply in_map. }
  assert (N2 : ~ In (keyOf p) (map fst c)).
  { intros H. apply in_map_iff in H. destruct H as ((k, r') & E & H). cbn in E. subst k. eapply Permutation_in in H; [|exact P].
    apply in_content in H. destruct H as (q & s & H & _ & E). destruct (Hr _ _ _ H) as (Hq & _). apply keyOf_inj in E; auto. subst q.
    apply Np. unfold pointers. apply in_or_app. left. apply (in_map (fun b : block => fst (fst b))) in H. exact H. }
  assert (Hb : bound (length c) <= fuel) by (pose proof (bound_mono _ _ Hc); lia).
  destruct (insert_good (nodes sh) c r (keyOf p) g fuel G P3 N1 N2 Hb) as (h' & E & G'). rewrite E. cbn [option_map].
  eexists. split; [reflexivity|].
  assert (Pm : Permutation (live l ++ (p, size, r) :: mallocs l) ((p, size, r) :: tracked l)) by (symmetry; apply Permutation_middle).
  assert (PE : Permutation (everything (mkLedger (live l) ((p, size, r) :: mallocs l) (frees l))) ((p, size) :: everything l)).
  { unfold everything. change (tracked (mkLedger _ _ _)) with (live l ++ (p, size, r) :: mallocs l). cbn [frees]. now rewrite Pm. }
  constructor; cbn [tracker shards adding subtracting live mallocs frees allocatedTotal initialised].
  - exact Hin.
  - rewrite setShard_len by exact Hi. exact Hl.
  - intros j sh' Ej. rewrite setShard_nth in Ej by exact Hi. unfold tracked at 1. cbn [live mallocs frees]. destruct (Nat.eqb_spec j i) as [->|Nj].
    + injection Ej as <-. cbn [nodes sizes]. split.
      * exists ((keyOf p, r) :: c). split; [exact G'|]. rewrite (content_perm i _ _ Pm). unfold content at 1. cbn [filter fst]. fold i. rewrite Nat.eqb_refl.
        cbn [map fst snd]. apply perm_skip. exact P.
      * intros q s r' H Hq. eapply Permutation_in in H; [|exact Pm]. destruct H as [H|H].
        -- injection H as <- <- <-. rewrite Nat.eqb_refl. apply Z.mod_small. exact Hz.
        -- destruct (Nat.eqb_spec r' r) as [->|N]; [|exact (ZZ _ _ _ H Hq)]. exfalso. apply Nr. apply (in_map snd) in H. exact H.
    + destruct (Hg j sh' Ej) as ((c' & G1 & P1) & Z1). split.
      * exists c'. split; [exact G1|]. rewrite P1. rewrite (content_perm j _ _ Pm). unfold content at 2. cbn [filter fst]. fold i.
        destruct (Nat.eqb_spec i j) as [->|_]; [contradiction|]. reflexivity.
      * intros q s r' H Hq. eapply Permutation_in in H; [|exact Pm]. destruct H as [H|H]; [|exact (Z1 _ _ _ H Hq)]. injection H as <- <- <-. subst j. now destruct Nj.
  - unfold pointers in *. cbn [live mallocs frees]. eapply Permutation_NoDup; [apply Permutation_app_tail, Permutation_map, Permutation_sym, Pm|].
    cbn [map fst app]. constructor; [exact Np|exact Hnd].
  - unfold records in *. cbn [live mallocs]. eapply Permutation_NoDup; [apply Permutation_map, Permutation_sym, Pm|]. cbn [map snd]. constructor; [exact Nr|exact Hndr].
  - intros q s r' H. unfold tracked in H. cbn [live mallocs] in H. eapply Permutation_in in H; [|exact Pm]. destruct H as [H|H]; [|eauto]. injection H as <- <- <-. auto.
  - cbn [map fst]. apply perm_skip, Ha.
  - exact Hs.
  - exact Ht.
  - exact Hx.
  - eapply Forall_perm; [symmetry; exact PE|]. constructor; [cbn; lia|exact Hpos].
  - rewrite (sumOf_perm _ _ PE). change (sumOf ((p, size) :: everything l)) with (size + sumOf (everything l))%Z. unfold everything, tracked. lia.
Qed.

Lemma step_malloced fuel m l p size r a b : minv m l -> mallocs l = a ++ ((p, size), r) :: b ->
  exists m', runEvent fuel m (MallocEnd p) = Some m' /\ minv m' (mkLedger (((p, size), r) :: live l) (a ++ b) (frees l)).
Proof.
  intros [Hin Hl Hg Hnd Hndr Hr Ha Hs Ht Hx Hpos Hsm] E. cbn [runEvent]. rewrite E in Ha. rewrite map_app in Ha. cbn [map fst] in Ha.
  assert (Pm : Permutation (tracked l) (((p, size), r) :: live l ++ a ++ b)).
  { unfold tracked. rewrite E. rewrite app_assoc. rewrite <- Permutation_middle. now rewrite app_assoc. }
  set (l' := mkLedger ((p, size, r) :: live l) (a ++ b) (frees l)).
  assert (PE : Permutation (everything l') (everything l)).
  { unfold everything. change (tracked l') with ((p, size, r) :: live l ++ a ++ b). cbn [frees l']. now rewrite Pm. }
  assert (Hpos' : Forall (fun x => 0 <= snd x)%Z (everything l')) by (eapply Forall_perm; [symmetry; exact PE|exact Hpos]).
  assert (HT : totalOf l' = (totalOf l + size)%Z).
  { unfold totalOf, l'. cbn [live frees map fst]. change (sumOf ((p, size) :: map fst (live l))) with (size + sumOf (map fst (live l)))%Z. lia. }
  assert (Hz : (0 <= size)%Z).
  { rewrite Forall_forall in Hpos'. apply (Hpos' (p, size)). unfold everything, tracked, l'. cbn. now left. }
  assert (HS : (totalOf l + size < word)%Z).
  { pose proof (totals _ Hpos') as (_ & Q & ?). rewrite (sumOf_perm _ _ PE) in Q. unfold word. lia. }
  assert (Hn : NoDup (map fst (map fst a ++ (p, size) :: map fst b))).
  { unfold pointers in Hnd. rewrite E, map_fst_fst, !map_app in Hnd. apply NoDup_app_remove_r in Hnd. apply NoDup_app_remove_l in Hnd.
    cbn [map fst] in *. rewrite map_app. exact Hnd. }
  destruct (take_perm p size _ _ _ Hn Ha) as (rest & -> & P).
  eexists. split; [reflexivity|]. constructor; cbn [tracker shards adding subtracting live mallocs frees allocatedTotal trackTotal]; auto.
  - intros i sh En. destruct (Hg i sh En) as ((c & G & P1) & ZZ). split.
    + exists c. split; [exact G|]. rewrite P1. apply content_perm. exact Pm.
    + intros q s r' H Hq. eapply ZZ; [|exact Hq]. eapply Permutation_in; [apply Permutation_sym, Pm|exact H].
  - unfold pointers in *. cbn [live mallocs frees]. eapply Permutation_NoDup; [apply Permutation_app_tail, Permutation_map, Pm|]. exact Hnd.
  - unfold records in *. cbn [live mallocs]. eapply Permutation_NoDup; [apply Permutation_map, Pm|]. exact Hndr.
  - intros q s r' H. eapply Hr. eapply Permutation_in; [apply Permutation_sym, Pm|exact H].
  - unfold l'. cbn [mallocs]. rewrite P, map_app. reflexivity.
  - rewrite Ht, HT. apply Z.mod_small. pose proof (totals _ Hpos). lia.
  - unfold trackTotal; cbn [maxTotal]. destruct (Z.ltb_spec (maxTotal (tracker m)) ((allocatedTotal (tracker m) + size) mod word)); [apply Z.le_refl|assumption].
  - now rewrite (sumOf_perm _ _ PE).
Qed.

Lemma step_free fuel m l p size r a b : minv m l -> bound (length (tracked l)) <= fuel -> live l = a ++ ((p, size), r) :: b ->
  exists m', runEvent fuel m (FreeBegin p) = Some m' /\ minv m' (mkLedger (a ++ b) (mallocs l) ((p, size) :: frees l)).
Proof.
  intros [Hin Hl Hg Hnd Hndr Hr Ha Hs Ht Hx Hpos Hsm] Hf E. cbn [runEvent]. unfold untrackDelete.
  set (i := getShardFromPointer p). assert (Hi : i < length (shards (tracker m))) by (rewrite Hl; apply shard_lt).
  destruct (nth_error (shards (tracker m)) i) as [sh|] eqn:En; [|apply nth_error_None in En; lia].
  destruct (Hg i sh En) as ((c & G & P) & ZZ).
  assert (Hc : length c <= length (tracked l)) by (rewrite (Permutation_length P); apply content_len).
  assert (Pm : Permutation (tracked l) (((p, size), r) :: (a ++ b) ++ mallocs l)).
  { unfold tracked. rewrite E. rewrite <- !app_assoc. cbn [app]. now rewrite <- Permutation_middle. }
  assert (Hb : bound (length c) <= fuel) by (pose proof (bound_mono _ _ Hc); lia).
  assert (It : In ((p, size), r) (tracked l)) by (eapply Permutation_in; [apply Permutation_sym, Pm|now left]).
  assert (Ic : In (keyOf p, r) c).
  { eapply Permutation_in; [apply Permutation_sym, P|]. apply in_content. eauto. }
  destruct (delete_good (nodes sh) c r (keyOf p) fuel G Ic Hb) as (h' & E1 & E2 & G'). rewrite E1, E2.
  rewrite (ZZ p size r It eq_refl). eexists. split; [reflexivity|].
  assert (PE : Permutation (everything (mkLedger (a ++ b) (mallocs l) ((p, size) :: frees l))) (everything l)).
  { unfold everything. change (tracked (mkLedger _ _ _)) with ((a ++ b) ++ mallocs l). cbn [frees]. rewrite Pm. cbn [map fst app]. symmetry. apply Permutation_middle. }
  assert (Nr : ~ In r (map snd ((a ++ b) ++ mallocs l)) /\ NoDup (map snd ((a ++ b) ++ mallocs l))).
  { unfold records in Hndr. eapply Permutation_NoDup in Hndr; [|apply Permutation_map, Pm]. cbn [map snd] in Hndr. apply NoDup_cons_iff in Hndr. exact Hndr. }
  constructor; cbn [tracker shards adding subtracting live mallocs frees allocatedTotal]; auto.
  - rewrite setShard_len by exact Hi. exact Hl.
  - intros j sh' Ej. rewrite setShard_nth in Ej by exact Hi. unfold tracked at 1. cbn [live mallocs frees].
    assert (X : forall q s r', In ((q, s), r') ((a ++ b) ++ mallocs l) -> In ((q, s), r') (tracked l)) by (intros; eapply Permutation_in; [apply Permutation_sym, Pm|now right]).
    destruct (Nat.eqb_spec j i) as [->|Nj].
    + injection Ej as <-. cbn [nodes sizes]. split; [|intros q s r' H Hq; exact (ZZ q s r' (X _ _ _ H) Hq)].
      eexists. split; [exact G'|]. etransitivity; [apply Permutation_filter; etransitivity; [exact P|apply content_perm, Pm]|].
      unfold content at 1. cbn [filter fst]. fold i. rewrite Nat.eqb_refl. cbn [map fst snd filter]. rewrite Nat.eqb_refl. cbn [negb].
      change (map _ (filter _ ((a ++ b) ++ mallocs l))) with (content i ((a ++ b) ++ mallocs l)).
      assert (Y : forall c', (forall k q, In (k, q) c' -> q <> r) -> filter (fun e : Z * ptr => negb (Nat.eqb r (snd e))) c' = c').
      { clear. induction c' as [|(k, q) c' IH]; intros H; [reflexivity|]. cbn. destruct (Nat.eqb_spec r q) as [->|_]; [exfalso; eapply H; [now left|reflexivity]|].
        cbn. f_equal. apply IH. intros k' q' Q. apply (H k'). now right. }
      rewrite Y; [reflexivity|]. intros k q H. apply in_content in H. destruct H as (p' & s & H & _). intros ->. apply (proj1 Nr). apply (in_map snd) in H. exact H.
    + destruct (Hg j sh' Ej) as ((c' & G1 & P1) & Z1). split; [|intros q s r' H Hq; exact (Z1 q s r' (X _ _ _ H) Hq)].
      exists c'. split; [exact G1|]. rewrite P1. rewrite (content_perm j _ _ Pm). unfold content at 1. cbn [filter fst]. fold i.
      destruct (Nat.eqb_spec i j) as [->|_]; [contradiction|]. reflexivity.
  - unfold pointers in *. cbn [live mallocs frees map fst]. change (live l ++ mallocs l) with (tracked l) in Hnd.
    eapply Permutation_NoDup; [|exact Hnd]. etransitivity; [apply Permutation_app_tail, Permutation_map, Pm|]. cbn [map fst app]. apply Permutation_middle.
  - exact (proj2 Nr).
  - intros q s r' H. eapply Hr. eapply Permutation_in; [apply Permutation_sym, Pm|right; exact H].
  - rewrite Ht. unfold totalOf. cbn [live frees]. rewrite E. rewrite !map_app, !sumOf_app. cbn [map fst].
    change (sumOf ((p, size) :: map fst b)) with (size + sumOf (map fst b))%Z. change (sumOf ((p, size) :: frees l)) with (size + sumOf (frees l))%Z. lia.
  - eapply Forall_perm; [symmetry; exact PE|exact Hpos].
  - now rewrite (sumOf_perm _ _ PE).
Qed.

Lemma step_freed fuel m l p size a b : minv m l -> frees l = a ++ (p, size) :: b ->
  exists m', runEvent fuel m (FreeEnd p) = Some m' /\ minv m' (mkLedger (live l) (mallocs l) (a ++ b)).
Proof.
  intros [Hin Hl Hg Hnd Hndr Hr Ha Hs Ht Hx Hpos Hsm] E. cbn [runEvent]. rewrite E in Hs.
  assert (Hn : NoDup (map fst (a ++ (p, size) :: b))) by (unfold pointers in Hnd; rewrite E in Hnd; apply NoDup_app_remove_l in Hnd; exact Hnd).
  set (l' := mkLedger (live l) (mallocs l) (a ++ b)).
  assert (PE : Permutation (everything l) ((p, size) :: everything l')).
  { unfold everything. change (tracked l') with (tracked l). rewrite E. cbn [frees l']. rewrite !app_assoc. symmetry. apply Permutation_middle. }
  pose proof (Forall_perm _ _ _ PE Hpos) as Hpos'. apply Forall_cons_iff in Hpos'. destruct Hpos' as (Hz & Hpos'). cbn [snd] in Hz.
  assert (HT : totalOf l = (totalOf l' + size)%Z).
  { unfold totalOf, l'. cbn [live frees]. rewrite E, !sumOf_app. change (sumOf ((p, size) :: b)) with (size + sumOf b)%Z. lia. }
  destruct (take_perm p size _ _ _ Hn Hs) as (rest & -> & P).
  eexists. split; [reflexivity|]. constructor; cbn [tracker shards adding subtracting live mallocs frees allocatedTotal untrackTotal]; auto.
  - unfold pointers, l' in *. cbn [live mallocs frees]. rewrite E in Hnd. rewrite (map_app fst a) in Hnd. rewrite (map_app fst a b). cbn [map fst] in Hnd. rewrite app_assoc in Hnd. rewrite app_assoc.
    now apply NoDup_remove_1 in Hnd.
  - rewrite Ht, HT. rewrite Z.add_simpl_r. apply Z.mod_small. pose proof (totals _ Hpos') as (? & ? & ?). pose proof (totals _ Hpos) as (? & ? & ?). unfold word. lia.
  - unfold untrackTotal. cbn [maxTotal]. rewrite Ht, HT in *. rewrite Z.add_simpl_r. rewrite Z.mod_small; [lia|]. pose proof (totals _ Hpos') as (? & ? & ?). pose proof (totals _ Hpos) as (? & ? & ?). unfold word. lia.
  - rewrite (sumOf_perm _ _ PE) in Hsm. change (sumOf ((p, size) :: everything l')) with (size + sumOf (everything l'))%Z in Hsm. fold l'. lia.
Qed.

Lemma allowed_grows l e l' : allowed l e l' -> length (tracked l') <= S (length (tracked l)).
Proof.
  intros H. destruct H; unfold tracked; cbn [live mallocs]; rewrite ?H, ?app_length; cbn; rewrite ?app_length; cbn; lia.
Qed.
Lemma runs_ok fuel events : forall m l l', minv m l -> allowedRun l events l' -> bound (length (tracked l) + length events) <= fuel ->
  exists m', runEvents fuel m events = Some m' /\ minv m' l'.
Proof.
  induction events as [|e events IH]; intros m l l' I R Hf.
  - inversion R; subst. exists m. now split.
  - inversion R as [|l0 e0 l1 ev l2 A R' E1 E2 E3]; subst. cbn [runEvents].
    assert (B : bound (length (tracked l)) <= fuel) by (pose proof (bound_mono (length (tracked l)) (length (tracked l) + length (e :: events)) ltac:(lia)); lia).
    assert (exists m1, runEvent fuel m e = Some m1 /\ minv m1 l1) as (m1 & -> & I1).
    { destruct A; [eapply step_malloc|eapply step_malloced|eapply step_free|eapply step_freed]; eauto. }
    apply (IH m1 l1 l' I1 R'). pose proof (allowed_grows _ _ _ A) as W.
    pose proof (bound_mono (length (tracked l1) + length events) (length (tracked l) + length (e :: events)) ltac:(cbn; lia)). lia.
Qed.
Lemma runEvents_app fuel a : forall m b, runEvents fuel m (a ++ b) = match runEvents fuel m a with Some m' => runEvents fuel m' b | None => None end.
Proof. induction a as [|e a IH]; intros m b; cbn; [reflexivity|]. destruct (runEvent fuel m e); [apply IH|reflexivity]. Qed.


(* the maximum *)
Lemma event_init fuel m e m' : initialised (tracker m) = true -> runEvent fuel m e = Some m' -> initialised (tracker m') = true.
Proof.
  intros Hin E. destruct e as [p size r g|p|p|p]; cbn [runEvent] in E.
  - unfold tryInit in E. rewrite Hin in E. destruct (trackInsert fuel (tracker m) p size r g) as [st|] eqn:X; [|discriminate E]. injection E as <-. unfold trackInsert in X.
    destruct (nth_error _ _); [|discriminate X]. destruct ((_ ;;; _) _) as [(?, ?)|]; [|discriminate X]. injection X as <-. exact Hin.
  - destruct (take p (adding m)) as [(s, rest)|]; [|discriminate E]. injection E as <-. exact Hin.
  - destruct (untrackDelete fuel (tracker m) p) as [(st, s)|] eqn:X; [|discriminate E]. injection E as <-. unfold untrackDelete in X.
    destruct (nth_error _ _); [|discriminate X]. destruct (TreeFind _ _ _) as [([q|], ?)|]; try discriminate X. destruct ((_ ;;; _) _) as [(?, ?)|]; [|discriminate X].
    injection X as <- <-. exact Hin.
  - destruct (take p (subtracting m)) as [(s, rest)|]; [|discriminate E]. injection E as <-. exact Hin.
Qed.
Lemma event_max fuel m e m' : initialised (tracker m) = true -> runEvent fuel m e = Some m' ->
  maxTotal (tracker m') = match e with MallocEnd _ => Z.max (maxTotal (tracker m)) (allocatedTotal (tracker m')) | _ => maxTotal (tracker m) end.
Proof.
  intros Hin E. destruct e as [p size r g|p|p|p]; cbn [runEvent] in E.
  - unfold tryInit in E. rewrite Hin in E. destruct (trackInsert fuel (tracker m) p size r g) as [st|] eqn:X; [|discriminate E]. injection E as <-. unfold trackInsert in X.
    destruct (nth_error _ _); [|discriminate X]. destruct ((_ ;;; _) _) as [(?, ?)|]; [|discriminate X]. injection X as <-. reflexivity.
  - destruct (take p (adding m)) as [(s, rest)|]; [|discriminate E]. injection E as <-. cbn [tracker trackTotal maxTotal allocatedTotal].
    destruct (Z.ltb_spec (maxTotal (tracker m)) ((allocatedTotal (tracker m) + s) mod word)); lia.
  - destruct (untrackDelete fuel (tracker m) p) as [(st, s)|] eqn:X; [|discriminate E]. injection E as <-. unfold untrackDelete in X.
    destruct (nth_error _ _); [|discriminate X]. destruct (TreeFind _ _ _) as [([q|], ?)|]; try discriminate X. destruct ((_ ;;; _) _) as [(?, ?)|]; [|discriminate X].
    injection X as <- <-. reflexivity.
  - destruct (take p (subtracting m)) as [(s, rest)|]; [|discriminate E]. injection E as <-. reflexivity.
Qed.
Lemma max_mono fuel events : forall m m', initialised (tracker m) = true -> runEvents fuel m events = Some m' -> (maxTotal (tracker m) <= maxTotal (tracker m'))%Z.
Proof.
  induction events as [|e events IH]; intros m m' Hin E; cbn [runEvents] in E; [injection E as <-; lia|]. destruct (runEvent fuel m e) as [m1|] eqn:X; [|discriminate E].
  pose proof (event_init _ _ _ _ Hin X) as Hin1. apply (IH _ _ Hin1) in E. apply (event_max _ _ _ _ Hin) in X. destruct e; lia.
Qed.
Lemma max_reached fuel events : forall m m', initialised (tracker m) = true -> runEvents fuel m events = Some m' ->
  maxTotal (tracker m') = maxTotal (tracker m) \/
  exists a b m1, events = a ++ b /\ runEvents fuel m a = Some m1 /\ maxTotal (tracker m') = allocatedTotal (tracker m1).
Proof.
  induction events as [|e events IH]; intros m m' Hin E; cbn [runEvents] in E; [injection E as <-; now left|]. destruct (runEvent fuel m e) as [m1|] eqn:X; [|discriminate E].
  pose proof (event_init _ _ _ _ Hin X) as Hin1.
  destruct (IH _ _ Hin1 E) as [Q|(a & b & m2 & -> & A & B)].
  - pose proof (event_max _ _ _ _ Hin X) as W. rewrite Q, W. destruct e; auto. destruct (Z.max_spec (maxTotal (tracker m)) (allocatedTotal (tracker m1))) as [(_ & ->)|(_ & ->)]; [|now left].
    right. exists [MallocEnd p], events, m1. split; [reflexivity|]. split; [cbn [runEvents]; now rewrite X|reflexivity].
  - right. exists (e :: a), b, m2. split; [reflexivity|]. cbn [runEvents]. rewrite X. now split.
Qed.

(* the start *)
Lemma initShards_good l : Forall (fun sh => nodes sh ROOT <> None /\ nodes sh EMPTY <> None /\ forall p, 3 <= p -> nodes sh p = None) l ->
  exists l', initShards l = Some l' /\ length l' = length l /\ Forall (fun sh => good (nodes sh) []) l'.
Proof.
  induction 1 as [|sh l (A & B & C) _ (l' & E & L & F)]; [exists []; auto|]. cbn. destruct (init_good _ A B C) as (h & -> & G). rewrite E.
  eexists. split; [reflexivity|]. split; [cbn; now rewrite L|]. constructor; assumption.
Qed.
Lemma start_ok st : unused st -> exists st', tryInit st = Some st' /\ minv (mkMachine st' [] []) (mkLedger [] [] []).
Proof.
  intros (L & I & F). unfold tryInit, MemoryTrackingReset. rewrite I. destruct (initShards_good _ F) as (l' & -> & L' & G).
  eexists. split; [reflexivity|]. constructor; cbn; try constructor; try congruence; try tauto; try lia.
  - rewrite Forall_forall in G. exists []. split; [apply G; eapply nth_error_In; eassumption|constructor].
Qed.
