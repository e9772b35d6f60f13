(* Representation of a heap as a zipper (context + focus tree), and the
   effect of the primitive steps of tree.c on it. *)
From Verif Require Import TreeModel.

Inductive tree :=
| E
| T (c : bool) (l : tree) (x : ptr) (k : Z) (r : tree).

(* [F true c x k s]: the hole is the left child of x and s is its right
   subtree; [F false ...]: the hole is the right child *)
Inductive frame := F (d : bool) (c : bool) (x : ptr) (k : Z) (s : tree).
Definition ctx := list frame.

Definition up (f : frame) (t : tree) : tree :=
  match f with
  | F true c x k s => T c t x k s
  | F false c x k s => T c s x k t
  end.
Fixpoint plug (c : ctx) (t : tree) : tree :=
  match c with [] => t | f :: c' => plug c' (up f t) end.

Definition rid (t : tree) : ptr := match t with E => EMPTY | T _ _ x _ _ => x end.
Definition isred (t : tree) : bool := match t with T true _ _ _ _ => true | _ => false end.
Definition cpar (c : ctx) : ptr := match c with [] => ROOT | F _ _ x _ _ :: _ => x end.

Definition one (q x : ptr) : nat := if Nat.eqb q x then 1 else 0.
Fixpoint cnt (q : ptr) (t : tree) : nat :=
  match t with E => 0 | T _ l x _ r => one q x + cnt q l + cnt q r end.
Fixpoint cntc (q : ptr) (c : ctx) : nat :=
  match c with [] => 0 | F _ _ x _ s :: c' => one q x + cnt q s + cntc q c' end.
Definition res (q : ptr) : nat := if Nat.ltb q 3 then 1 else 0.

Fixpoint rep (h : heap) (par : ptr) (t : tree) : Prop :=
  match t with
  | E => True
  | T c l x k r =>
    h x = Some (mk par (rid l) (rid r) c k) /\ rep h x l /\ rep h x r
  end.
Fixpoint repc (h : heap) (c : ctx) (hole : ptr) : Prop :=
  match c with
  | [] => h ROOT = Some (mk NULLP hole EMPTY false 0%Z)
  | F d c x k s :: c' =>
    h x = Some (mk (cpar c') (if d then hole else rid s)
                   (if d then rid s else hole) c k)
    /\ rep h x s /\ repc h c' x
  end.
(* ep is the current value of the sentinel's parent link *)
Definition emp (h : heap) (ep : ptr) : Prop :=
  h EMPTY = Some (mk ep EMPTY EMPTY false 0%Z).

Record repz (h : heap) (c : ctx) (t : tree) : Prop := {
  rz_t : rep h (cpar c) t;
  rz_c : repc h c (rid t);
  rz_u : forall q, res q + cntc q c + cnt q t <= 1 }.

Arguments upd : simpl never.
Arguments one : simpl never.
Arguments res : simpl never.

Lemma upd_eq p n h : upd p n h p = Some n.
Proof. unfold upd. rewrite Nat.eqb_refl. reflexivity. Qed.
Lemma upd_neq p n h q : q <> p -> upd p n h q = h q.
Proof. intros. unfold upd. destruct (Nat.eqb_spec q p); congruence. Qed.

Lemma one_refl q : one q q = 1. Proof. unfold one. now rewrite Nat.eqb_refl. Qed.

Lemma res_lt q : q < 3 -> res q = 1.
Proof. intros H. unfold res. destruct (Nat.ltb_spec q 3); lia. Qed.

Lemma rep_frame h h' par t :
  (forall q, 1 <= cnt q t -> h' q = h q) -> rep h par t -> rep h' par t.
Proof.
  revert par; induction t as [|c l IHl x k r IHr]; intros par Hq Hr; cbn in *; auto.
  destruct Hr as (Hx & Hl & Hr). repeat split.
  - rewrite Hq; auto. rewrite one_refl; lia.
  - apply IHl; auto. intros q H1; apply Hq; lia.
  - apply IHr; auto. intros q H1; apply Hq; lia.
Qed.

Lemma repc_frame h h' c hole :
  (forall q, 1 <= cntc q c -> h' q = h q) -> h' ROOT = h ROOT ->
  repc h c hole -> repc h' c hole.
Proof.
  revert hole; induction c as [|[d cc x k s] c IH]; intros hole Hq HR Hr; cbn in *.
  - congruence.
  - destruct Hr as (Hx & Hs & Hr). repeat split.
    + rewrite Hq; auto. rewrite one_refl; lia.
    + eapply rep_frame; [|eassumption]. intros q H1; apply Hq; lia.
    + apply IH; auto. intros q H1; apply Hq; lia.
Qed.

(* change of hole pointer: only the innermost frame (or ROOT) is affected *)
Definition hole_node (c : ctx) (hole : ptr) : node :=
  match c with
  | [] => mk NULLP hole EMPTY false 0%Z
  | F d c x k s :: c' => mk (cpar c') (if d then hole else rid s)
                   (if d then rid s else hole) c k
  end.
Lemma repc_hole h c hole : repc h c hole -> h (cpar c) = Some (hole_node c hole).
Proof. destruct c as [|[d cc x k s] c]; cbn; tauto. Qed.

Ltac uq HU q := let H := fresh "HQ" in pose proof (HU q) as H; cbn in H;
  rewrite ?one_refl in H; change (res ROOT) with 1 in H; change (res EMPTY) with 1 in H.

Lemma repc_rehole h c hole hole' :
  (forall q, res q + cntc q c <= 1) ->
  repc h c hole -> repc (upd (cpar c) (hole_node c hole') h) c hole'.
Proof.
  intros HU Hc. destruct c as [|[d cc x k s] c]; cbn in *.
  - apply upd_eq.
  - destruct Hc as (Hx & Hs & Hc). repeat split.
    + apply upd_eq.
    + eapply rep_frame; [|eassumption]. intros q Hq. apply upd_neq.
      intros ->. uq HU x. lia.
    + eapply repc_frame; [| |eassumption].
      * intros q Hq. apply upd_neq. intros ->. uq HU x. lia.
      * apply upd_neq. intros <-. uq HU ROOT. lia.
Qed.

Lemma rep_reparent h par par' t n :
  (forall q, cnt q t <= 1) ->
  rep h par t -> h (rid t) = Some n -> t <> E ->
  rep (upd (rid t) (mk par' (left n) (right n) (colour n) (key n)) h) par' t.
Proof.
  destruct t as [|c l x k r]; [congruence|]. cbn.
  intros HU (Hx & Hl & Hr) Hn _. rewrite Hx in Hn. injection Hn as <-. cbn.
  repeat split.
  - apply upd_eq.
  - eapply rep_frame; [|eassumption]. intros q Hq. apply upd_neq.
    intros ->. pose proof (HU x). rewrite one_refl in H. lia.
  - eapply rep_frame; [|eassumption]. intros q Hq. apply upd_neq.
    intros ->. pose proof (HU x). rewrite one_refl in H. lia.
Qed.

(* ------- refocusing *)
Lemma repz_up h f c t : repz h (f :: c) t <-> repz h c (up f t).
Proof.
  destruct f as [d cc x k s]. split.
  - intros [Ht Hc HU]. cbn in Ht, Hc. destruct Hc as (Hx & Hs & Hc).
    constructor.
    + destruct d; cbn; auto.
    + destruct d; cbn; auto.
    + intros q; specialize (HU q); cbn in HU; destruct d; cbn; lia.
  - intros [Ht Hc HU]. destruct d; cbn in Ht, Hc; destruct Ht as (Hx & Hl & Hr);
    (constructor; [assumption | cbn; auto | intros q; specialize (HU q); cbn in *; lia]).
Qed.

Lemma repz_plug h c c' t : repz h (c ++ c') t <-> repz h c' (plug c t).
Proof.
  revert t; induction c as [|f c IH]; intros t; cbn; [reflexivity|].
  rewrite repz_up. apply IH.
Qed.

(* ------- framing condition of an operation on a zipper *)
Definition same_out (h h' : heap) (c : ctx) (t : tree) : Prop :=
  forall q, cntc q c + cnt q t = 0 -> q <> ROOT -> h' q = h q.

Lemma same_out_trans h h' h'' c t c' t' :
  (forall q, cntc q c' + cnt q t' = cntc q c + cnt q t) ->
  same_out h h' c t -> same_out h' h'' c' t' -> same_out h h'' c t.
Proof.
  intros He H1 H2 q Hq Hr. rewrite H2, H1; auto. rewrite He; auto.
Qed.

Lemma bind_ok {A B} (m : M A) (f : A -> M B) h a h' :
  m h = Some (a, h') -> bind m f h = f a h'.
Proof. intros H. unfold bind. now rewrite H. Qed.
Lemma ld_ok {A} (f : node -> A) p h n : h p = Some n -> ld f p h = Some (f n, h).
Proof. intros H. unfold ld. now rewrite H. Qed.
Lemma modn_ok g p h n : h p = Some n -> modn g p h = Some (tt, upd p (g n) h).
Proof. intros H. unfold modn. now rewrite H. Qed.
Lemma ld_bind {A B} (f : node -> A) p (k : A -> M B) h n :
  h p = Some n -> bind (ld f p) k h = k (f n) h.
Proof. intros. erewrite bind_ok; [reflexivity|]. now apply ld_ok. Qed.
Lemma modn_bind {B} g p (k : unit -> M B) h n :
  h p = Some n -> bind (modn g p) k h = k tt (upd p (g n) h).
Proof. intros. erewrite bind_ok; [reflexivity|]. now apply modn_ok. Qed.

Lemma eqb_neq_f a b : a <> b -> Nat.eqb a b = false.
Proof. apply Nat.eqb_neq. Qed.

(* a hole pointer of the sibling never equals the focus pointer *)
Lemma rid_neq t s : t <> E ->
  (forall q, res q + cnt q t + cnt q s <= 1) -> rid t <> rid s.
Proof.
  destruct t as [|c l x k r]; [congruence|]. cbn. intros _ HU He.
  pose proof (HU x). rewrite one_refl in H.
  destruct s as [|c' l' x' k' r']; cbn in *.
  - rewrite (res_lt x) in H by (rewrite He; unfold EMPTY; lia). lia.
  - subst. rewrite one_refl in H. lia.
Qed.

(* relink: the parent of x points to y afterwards *)
Lemma relink_ok h c x n y :
  h x = Some n -> parent n = cpar c -> repc h c x -> x <> EMPTY ->
  (forall q, res q + one q x + cntc q c <= 1) ->
  exists h', relink x y h = Some (tt, h') /\
    h' = upd (cpar c) (hole_node c y) h.
Proof.
  intros Hx Hp Hc Hne HU. unfold relink.
  rewrite (ld_bind _ _ _ _ _ Hx), Hp.
  pose proof (repc_hole _ _ _ Hc) as Hh.
  rewrite (ld_bind _ _ _ _ _ Hh).
  destruct c as [|[d cc px pk s] c]; cbn [hole_node left] in *.
  - rewrite Nat.eqb_refl. unfold set_left. rewrite (modn_ok _ _ _ _ Hh). eauto.
  - destruct d; cbn [left].
    + rewrite Nat.eqb_refl. unfold set_left. rewrite (modn_ok _ _ _ _ Hh). eauto.
    + assert (x <> rid s) as Hn.
      { destruct s as [|cs ls xs ks rs]; cbn; auto.
        intros ->. uq HU xs. lia. }
      rewrite (eqb_neq_f _ _ Hn).
      unfold set_right. rewrite (modn_ok _ _ _ _ Hh). eauto.
Qed.

Lemma upd_lookup p n h q m : (q = p /\ m = n) \/ (q <> p /\ h q = Some m) ->
  upd p n h q = Some m.
Proof. intros [[-> ->]|[H H']]; [apply upd_eq | now rewrite upd_neq]. Qed.

Lemma rotateLeft_ok h c cx a x kx cy b y ky d :
  repz h c (T cx a x kx (T cy b y ky d)) ->
  exists h', rotateLeft x h = Some (tt, h') /\
    repz h' c (T cy (T cx a x kx b) y ky d) /\
    same_out h h' c (T cx a x kx (T cy b y ky d)).
Proof.
  intros [Ht Hc HU]. cbn in Ht, Hc. destruct Ht as (Hx & Ha & Hy & Hb & Hd).
  assert (x <> y) as Nxy.
  { intros ->. uq HU y. lia. }
  assert (forall q, q < 3 -> q <> x /\ q <> y) as Nres.
  { intros q Hq. split; intros ->; [uq HU x|uq HU y];
    rewrite (res_lt _ Hq) in HQ; lia. }
  assert (b <> E -> rid b <> x /\ rid b <> y /\ rid b <> EMPTY) as Nb.
  { destruct b as [|cb lb xb kb rb]; [congruence|]. intros _. cbn.
    repeat split; intros ->.
    - uq HU x; lia.
    - uq HU y; lia.
    - uq HU EMPTY; lia. }
  assert (cpar c <> x /\ cpar c <> y) as (Npx & Npy).
  { destruct c as [|[dd cc px pk s] c]; cbn.
    - apply Nres. unfold ROOT; lia.
    - split; intros ->; [uq HU x|uq HU y]; lia. }
  unfold rotateLeft.
  rewrite (ld_bind _ _ _ _ _ Hx). cbn [right rid].
  rewrite (ld_bind _ _ _ _ _ Hy). cbn [left].
  unfold set_right at 1. rewrite (modn_bind _ _ _ _ _ Hx). cbn [parent left right colour key].
  set (h1 := upd x (mk (cpar c) (rid a) (rid b) cx kx) h).
  set (h2 := match b with
             | E => h1
             | T cb lb xb kb rb => upd xb (mk x (rid lb) (rid rb) cb kb) h1
             end).
  assert ((if negb (Nat.eqb (rid b) EMPTY) then set_parent x (rid b) else ret tt) h1
          = Some (tt, h2)) as Hstep.
  { destruct b as [|cb lb xb kb rb]; cbn; [reflexivity|].
    destruct Nb as (N1 & N2 & N3); [congruence|]. cbn in N1, N2, N3.
    rewrite (eqb_neq_f _ _ N3). cbn. destruct Hb as (Hb & _).
    assert (h1 xb = Some (mk y (rid lb) (rid rb) cb kb)) as Hb1
      by (unfold h1; now rewrite upd_neq).
    unfold set_parent. now rewrite (modn_ok _ _ _ _ Hb1). }
  rewrite (bind_ok _ _ _ _ _ Hstep). clear Hstep.
  assert (h2 x = Some (mk (cpar c) (rid a) (rid b) cx kx)) as H2x.
  { unfold h2. destruct b; unfold h1.
    - apply upd_eq.
    - rewrite upd_neq; [apply upd_eq|]. cbn in Nb. apply not_eq_sym, Nb. congruence. }
  assert (h2 y = h y) as H2y.
  { unfold h2. destruct b; unfold h1.
    - now rewrite upd_neq by auto.
    - rewrite !upd_neq; auto. cbn in Nb. apply not_eq_sym, Nb; congruence. }
  rewrite (ld_bind _ _ _ _ _ H2x). cbn [parent].
  rewrite Hy in H2y. unfold set_parent at 1. rewrite (modn_bind _ _ _ _ _ H2y).
  cbn [parent left right colour key].
  set (h3 := upd y (mk (cpar c) (rid b) (rid d) cy ky) h2).
  assert (forall q, q <> x -> q <> y -> cnt q b = 0 -> h3 q = h q) as Hfr3.
  { intros q Q1 Q2 Q3. unfold h3. rewrite upd_neq by auto. unfold h2.
    destruct b as [|cb lb xb kb rb]; unfold h1; rewrite !upd_neq; auto.
    cbn in Q3. unfold one in Q3. destruct (Nat.eqb_spec q xb); [lia|auto]. }
  assert (repc h3 c x) as Hc3.
  { eapply repc_frame; [| |exact Hc].
    - intros q Hq. apply Hfr3.
      + intros ->. uq HU x; lia.
      + intros ->. uq HU y; lia.
      + pose proof (HU q) as HQ. cbn in HQ. lia.
    - apply Hfr3; try apply not_eq_sym.
      + intros e. destruct (Nres ROOT); unfold ROOT in *; auto.
      + intros e. destruct (Nres ROOT); unfold ROOT in *; auto.
      + uq HU ROOT. lia. }
  assert (h3 x = Some (mk (cpar c) (rid a) (rid b) cx kx)) as H3x.
  { unfold h3. now rewrite upd_neq. }
  edestruct (relink_ok h3 c x _ y H3x) as (h4 & E4 & ->); auto.
  { intros ->. destruct (Nres EMPTY); unfold EMPTY; auto. }
  { intros q. pose proof (HU q) as HQ; cbn in HQ. lia. }
  rewrite (bind_ok _ _ _ _ _ E4). clear E4.
  set (h4 := upd (cpar c) (hole_node c y) h3).
  assert (h4 y = Some (mk (cpar c) (rid b) (rid d) cy ky)) as H4y.
  { unfold h4. rewrite upd_neq by auto. unfold h3. apply upd_eq. }
  assert (h4 x = Some (mk (cpar c) (rid a) (rid b) cx kx)) as H4x.
  { unfold h4. rewrite upd_neq by auto. exact H3x. }
  unfold set_left at 1. rewrite (modn_bind _ _ _ _ _ H4y). cbn [parent left right colour key].
  set (h5 := upd y (mk (cpar c) x (rid d) cy ky) h4).
  assert (h5 x = Some (mk (cpar c) (rid a) (rid b) cx kx)) as H5x.
  { unfold h5. now rewrite upd_neq. }
  unfold set_parent at 1. rewrite (modn_ok _ _ _ _ H5x). cbn [parent left right colour key].
  set (h6 := upd x (mk y (rid a) (rid b) cx kx) h5).
  exists h6. split; [reflexivity|].
  assert (forall q, q <> x -> q <> y -> q <> cpar c -> cnt q b = 0 -> h6 q = h q) as Hfr6.
  { intros q Q1 Q2 Q3 Q4. unfold h6, h5, h4. rewrite !upd_neq by auto. now apply Hfr3. }
  assert (forall q, 1 <= cnt q a + cnt q b + cnt q d -> q <> cpar c) as Ncp.
  { intros q Hq ->. destruct c as [|[dd cc px pk s] c]; cbn [cpar] in *.
    - uq HU ROOT. lia.
    - uq HU px. lia. }
  split.
  - constructor.
    + cbn. repeat split.
      * unfold h6. rewrite upd_neq by auto. unfold h5. apply upd_eq.
      * unfold h6. apply upd_eq.
      * eapply rep_frame; [|exact Ha]. intros q Hq. apply Hfr6.
        -- intros ->. uq HU x; lia.
        -- intros ->. uq HU y; lia.
        -- apply Ncp; lia.
        -- pose proof (HU q) as HQ; cbn in HQ; lia.
      * destruct b as [|cb lb xb kb rb]; [exact I|].
        cbn in Hb. destruct Hb as (Hbx & Hbl & Hbr). cbn in Nb.
        destruct Nb as (N1 & N2 & N3); [congruence|].
        assert (cnt xb (T cb lb xb kb rb) = 1) as Cxb.
        { uq HU xb. cbn. rewrite one_refl. lia. }
        assert (xb <> cpar c) as Ncb by (apply Ncp; lia).
        assert (forall q, cnt q lb + cnt q rb >= 1 -> h6 q = h q) as Hsub.
        { intros q Hq.
          unfold h6, h5, h4, h3, h2, h1. rewrite !upd_neq; auto.
          - intros ->. uq HU x; lia.
          - intros ->. uq HU xb; lia.
          - intros ->. uq HU y; lia.
          - apply Ncp; cbn; lia.
          - intros ->. uq HU y; lia.
          - intros ->. uq HU x; lia. }
        cbn. repeat split.
        -- unfold h6, h5, h4, h3, h2. rewrite !(upd_neq _ _ _ xb) by auto. apply upd_eq.
        -- eapply rep_frame; [|exact Hbl]. intros q Hq. apply Hsub; lia.
        -- eapply rep_frame; [|exact Hbr]. intros q Hq. apply Hsub; lia.
      * eapply rep_frame; [|exact Hd]. intros q Hq. apply Hfr6.
        -- intros ->. uq HU x; lia.
        -- intros ->. uq HU y; lia.
        -- apply Ncp; lia.
        -- pose proof (HU q) as HQ; cbn in HQ; lia.
    + cbn. eapply repc_frame; [| |eapply repc_rehole; [|exact Hc3]].
      * intros q Hq. unfold h6, h5. rewrite upd_neq; [rewrite upd_neq; [reflexivity|]|].
        -- intros ->. uq HU y; lia.
        -- intros ->. uq HU x; lia.
      * unfold h6, h5. rewrite upd_neq; [rewrite upd_neq; [reflexivity|]|].
        -- apply Nres; unfold ROOT; lia.
        -- apply Nres; unfold ROOT; lia.
      * intros q. pose proof (HU q) as HQ; cbn in HQ. lia.
    + intros q. pose proof (HU q) as HQ. cbn in *. lia.
  - intros q Hq Hr. apply Hfr6.
    + intros ->. cbn in Hq. rewrite one_refl in Hq. lia.
    + intros ->. cbn in Hq. rewrite one_refl in Hq. lia.
    + intros ->. destruct c as [|[dd cc px pk s] c]; cbn in *; [congruence|].
      rewrite one_refl in Hq. lia.
    + cbn in Hq. lia.
Qed.

Lemma rotateRight_ok h c cx d x kx cy a y ky b :
  repz h c (T cx (T cy a y ky b) x kx d) ->
  exists h', rotateRight x h = Some (tt, h') /\
    repz h' c (T cy a y ky (T cx b x kx d)) /\
    same_out h h' c (T cx (T cy a y ky b) x kx d).
Proof.
  intros [Ht Hc HU]. cbn in Ht, Hc. destruct Ht as (Hx & (Hy & Ha & Hb) & Hd).
  assert (x <> y) as Nxy.
  { intros ->. uq HU y. lia. }
  assert (forall q, q < 3 -> q <> x /\ q <> y) as Nres.
  { intros q Hq. split; intros ->; [uq HU x|uq HU y];
    rewrite (res_lt _ Hq) in HQ; lia. }
  assert (b <> E -> rid b <> x /\ rid b <> y /\ rid b <> EMPTY) as Nb.
  { destruct b as [|cb lb xb kb rb]; [congruence|]. intros _. cbn.
    repeat split; intros ->.
    - uq HU x; lia.
    - uq HU y; lia.
    - uq HU EMPTY; lia. }
  assert (cpar c <> x /\ cpar c <> y) as (Npx & Npy).
  { destruct c as [|[dd cc px pk s] c]; cbn.
    - apply Nres. unfold ROOT; lia.
    - split; intros ->; [uq HU x|uq HU y]; lia. }
  unfold rotateRight.
  rewrite (ld_bind _ _ _ _ _ Hx). cbn [left rid].
  rewrite (ld_bind _ _ _ _ _ Hy). cbn [right].
  unfold set_left at 1. rewrite (modn_bind _ _ _ _ _ Hx). cbn [parent left right colour key].
  set (h1 := upd x (mk (cpar c) (rid b) (rid d) cx kx) h).
  set (h2 := match b with
             | E => h1
             | T cb lb xb kb rb => upd xb (mk x (rid lb) (rid rb) cb kb) h1
             end).
  assert ((if negb (Nat.eqb (rid b) EMPTY) then set_parent x (rid b) else ret tt) h1
          = Some (tt, h2)) as Hstep.
  { destruct b as [|cb lb xb kb rb]; cbn; [reflexivity|].
    destruct Nb as (N1 & N2 & N3); [congruence|]. cbn in N1, N2, N3.
    rewrite (eqb_neq_f _ _ N3). cbn. destruct Hb as (Hb & _).
    assert (h1 xb = Some (mk y (rid lb) (rid rb) cb kb)) as Hb1
      by (unfold h1; now rewrite upd_neq).
    unfold set_parent. now rewrite (modn_ok _ _ _ _ Hb1). }
  rewrite (bind_ok _ _ _ _ _ Hstep). clear Hstep.
  assert (h2 x = Some (mk (cpar c) (rid b) (rid d) cx kx)) as H2x.
  { unfold h2. destruct b; unfold h1.
    - apply upd_eq.
    - rewrite upd_neq; [apply upd_eq|]. cbn in Nb. apply not_eq_sym, Nb. congruence. }
  assert (h2 y = h y) as H2y.
  { unfold h2. destruct b; unfold h1.
    - now rewrite upd_neq by auto.
    - rewrite !upd_neq; auto. cbn in Nb. apply not_eq_sym, Nb; congruence. }
  rewrite (ld_bind _ _ _ _ _ H2x). cbn [parent].
  rewrite Hy in H2y. unfold set_parent at 1. rewrite (modn_bind _ _ _ _ _ H2y).
  cbn [parent left right colour key].
  set (h3 := upd y (mk (cpar c) (rid a) (rid b) cy ky) h2).
  assert (forall q, q <> x -> q <> y -> cnt q b = 0 -> h3 q = h q) as Hfr3.
  { intros q Q1 Q2 Q3. unfold h3. rewrite upd_neq by auto. unfold h2.
    destruct b as [|cb lb xb kb rb]; unfold h1; rewrite !upd_neq; auto.
    cbn in Q3. unfold one in Q3. destruct (Nat.eqb_spec q xb); [lia|auto]. }
  assert (repc h3 c x) as Hc3.
  { eapply repc_frame; [| |exact Hc].
    - intros q Hq. apply Hfr3.
      + intros ->. uq HU x; lia.
      + intros ->. uq HU y; lia.
      + pose proof (HU q) as HQ. cbn in HQ. lia.
    - apply Hfr3; try apply not_eq_sym.
      + intros e. destruct (Nres ROOT); unfold ROOT in *; auto.
      + intros e. destruct (Nres ROOT); unfold ROOT in *; auto.
      + uq HU ROOT. lia. }
  assert (h3 x = Some (mk (cpar c) (rid b) (rid d) cx kx)) as H3x.
  { unfold h3. now rewrite upd_neq. }
  edestruct (relink_ok h3 c x _ y H3x) as (h4 & E4 & ->); auto.
  { intros ->. destruct (Nres EMPTY); unfold EMPTY; auto. }
  { intros q. pose proof (HU q) as HQ; cbn in HQ. lia. }
  rewrite (bind_ok _ _ _ _ _ E4). clear E4.
  set (h4 := upd (cpar c) (hole_node c y) h3).
  assert (h4 y = Some (mk (cpar c) (rid a) (rid b) cy ky)) as H4y.
  { unfold h4. rewrite upd_neq by auto. unfold h3. apply upd_eq. }
  assert (h4 x = Some (mk (cpar c) (rid b) (rid d) cx kx)) as H4x.
  { unfold h4. rewrite upd_neq by auto. exact H3x. }
  unfold set_right at 1. rewrite (modn_bind _ _ _ _ _ H4y). cbn [parent left right colour key].
  set (h5 := upd y (mk (cpar c) (rid a) x cy ky) h4).
  assert (h5 x = Some (mk (cpar c) (rid b) (rid d) cx kx)) as H5x.
  { unfold h5. now rewrite upd_neq. }
  unfold set_parent at 1. rewrite (modn_ok _ _ _ _ H5x). cbn [parent left right colour key].
  set (h6 := upd x (mk y (rid b) (rid d) cx kx) h5).
  exists h6. split; [reflexivity|].
  assert (forall q, q <> x -> q <> y -> q <> cpar c -> cnt q b = 0 -> h6 q = h q) as Hfr6.
  { intros q Q1 Q2 Q3 Q4. unfold h6, h5, h4. rewrite !upd_neq by auto. now apply Hfr3. }
  assert (forall q, 1 <= cnt q a + cnt q b + cnt q d -> q <> cpar c) as Ncp.
  { intros q Hq ->. destruct c as [|[dd cc px pk s] c]; cbn [cpar] in *.
    - uq HU ROOT. lia.
    - uq HU px. lia. }
  split.
  - constructor.
    + cbn. repeat split.
      * unfold h6. rewrite upd_neq by auto. unfold h5. apply upd_eq.
      * eapply rep_frame; [|exact Ha]. intros q Hq. apply Hfr6.
        -- intros ->. uq HU x; lia.
        -- intros ->. uq HU y; lia.
        -- apply Ncp; lia.
        -- pose proof (HU q) as HQ; cbn in HQ; lia.
      * unfold h6. apply upd_eq.
      * destruct b as [|cb lb xb kb rb]; [exact I|].
        cbn in Hb. destruct Hb as (Hbx & Hbl & Hbr). cbn in Nb.
        destruct Nb as (N1 & N2 & N3); [congruence|].
        assert (cnt xb (T cb lb xb kb rb) = 1) as Cxb.
        { uq HU xb. cbn. rewrite one_refl. lia. }
        assert (xb <> cpar c) as Ncb by (apply Ncp; lia).
        assert (forall q, cnt q lb + cnt q rb >= 1 -> h6 q = h q) as Hsub.
        { intros q Hq.
          unfold h6, h5, h4, h3, h2, h1. rewrite !upd_neq; auto.
          - intros ->. uq HU x; lia.
          - intros ->. uq HU xb; lia.
          - intros ->. uq HU y; lia.
          - apply Ncp; cbn; lia.
          - intros ->. uq HU y; lia.
          - intros ->. uq HU x; lia. }
        cbn. repeat split.
        -- unfold h6, h5, h4, h3, h2. rewrite !(upd_neq _ _ _ xb) by auto. apply upd_eq.
        -- eapply rep_frame; [|exact Hbl]. intros q Hq. apply Hsub; lia.
        -- eapply rep_frame; [|exact Hbr]. intros q Hq. apply Hsub; lia.
      * eapply rep_frame; [|exact Hd]. intros q Hq. apply Hfr6.
        -- intros ->. uq HU x; lia.
        -- intros ->. uq HU y; lia.
        -- apply Ncp; lia.
        -- pose proof (HU q) as HQ; cbn in HQ; lia.
    + cbn. eapply repc_frame; [| |eapply repc_rehole; [|exact Hc3]].
      * intros q Hq. unfold h6, h5. rewrite upd_neq; [rewrite upd_neq; [reflexivity|]|].
        -- intros ->. uq HU y; lia.
        -- intros ->. uq HU x; lia.
      * unfold h6, h5. rewrite upd_neq; [rewrite upd_neq; [reflexivity|]|].
        -- apply Nres; unfold ROOT; lia.
        -- apply Nres; unfold ROOT; lia.
      * intros q. pose proof (HU q) as HQ; cbn in HQ. lia.
    + intros q. pose proof (HU q) as HQ. cbn in *. lia.
  - intros q Hq Hr. apply Hfr6.
    + intros ->. cbn in Hq. rewrite one_refl in Hq. lia.
    + intros ->. cbn in Hq. rewrite one_refl in Hq. lia.
    + intros ->. destruct c as [|[dd cc px pk s] c]; cbn in *; [congruence|].
      rewrite one_refl in Hq. lia.
    + cbn in Hq. lia.
Qed.

(* ------- recolouring the focus *)
Lemma set_colour_ok h c cx a x kx b c' :
  repz h c (T cx a x kx b) ->
  exists h', set_colour c' x h = Some (tt, h') /\
    repz h' c (T c' a x kx b) /\ same_out h h' c (T cx a x kx b).
Proof.
  intros [(Hx & Ha & Hb) Hc HU]. cbn in Hc.
  unfold set_colour. rewrite (modn_ok _ _ _ _ Hx). cbn [parent left right colour key].
  eexists; split; [reflexivity|]. split.
  - constructor.
    + cbn. repeat split.
      * apply upd_eq.
      * eapply rep_frame; [|exact Ha]. intros q Hq. apply upd_neq. intros ->. uq HU x; lia.
      * eapply rep_frame; [|exact Hb]. intros q Hq. apply upd_neq. intros ->. uq HU x; lia.
    + cbn. eapply repc_frame; [| |exact Hc].
      * intros q Hq. apply upd_neq. intros ->. uq HU x; lia.
      * apply upd_neq. intros <-. uq HU ROOT; lia.
    + intros q. pose proof (HU q) as HQ; cbn in *; lia.
  - intros q Hq Hr. apply upd_neq. intros ->. cbn in Hq. rewrite one_refl in Hq. lia.
Qed.

Lemma emp_same h h' c t ep :
  (forall q, res q + cntc q c + cnt q t <= 1) ->
  same_out h h' c t -> emp h ep -> emp h' ep.
Proof.
  intros HU Hs He. unfold emp. rewrite Hs; auto.
  - uq HU EMPTY. lia.
  - discriminate.
Qed.
