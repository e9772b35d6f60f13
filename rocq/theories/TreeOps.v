(* Correctness of the public operations of tree.c on represented trees. *)
From Coq Require Import Sorting.Sorted Permutation.
From Verif Require Import TreeModel TreeRep TreeInsert TreeDelete.

Fixpoint height (t : tree) : nat :=
  match t with E => 0 | T _ l _ _ r => S (Nat.max (height l) (height r)) end.
Fixpoint size (t : tree) : nat :=
  match t with E => 0 | T _ l _ _ r => S (size l + size r) end.

Definition keys (l : list (Z * ptr)) : list Z := map fst l.
Definition ids (l : list (Z * ptr)) : list ptr := map snd l.
Definition sorted (l : list (Z * ptr)) : Prop := StronglySorted Z.lt (keys l).

Record tinv (h : heap) (t : tree) : Prop := {
  ti_z : repz h [] t;
  ti_e : exists ep, emp h ep;
  ti_r : rr t;
  ti_b : isred t = false;
  ti_h : exists m, bh t m;
  ti_s : sorted (inorder t) }.

(* ---------- lists *)
Lemma SS_app l1 l2 : StronglySorted Z.lt (l1 ++ l2) <->
  StronglySorted Z.lt l1 /\ StronglySorted Z.lt l2 /\
  (forall a b, In a l1 -> In b l2 -> (a < b)%Z).
Proof.
  induction l1 as [|x l1 IH]; cbn.
  - split; [intros H; repeat split; auto; [constructor|tauto] | tauto].
  - split.
    + intros H. inversion H as [|? ? H1 H2]; subst. apply IH in H1.
      destruct H1 as (H1 & H3 & H4). rewrite Forall_app in H2. destruct H2 as (H2 & H5).
      repeat split; auto.
      * constructor; auto.
      * intros a b [->|Ha] Hb; auto. rewrite Forall_forall in H5. auto.
    + intros (H1 & H2 & H3). inversion H1 as [|? ? H4 H5]; subst. constructor.
      * apply IH. repeat split; auto.
      * apply Forall_app. split; auto. apply Forall_forall. auto.
Qed.
Lemma keys_app a b : keys (a ++ b) = keys a ++ keys b.
Proof. apply map_app. Qed.
Lemma ids_app a b : ids (a ++ b) = ids a ++ ids b.
Proof. apply map_app. Qed.

Lemma cnt_ids q t : cnt q t = count_occ Nat.eq_dec (ids (inorder t)) q.
Proof.
  induction t as [|c l IHl x k r IHr]; [reflexivity|]. cbn [cnt inorder].
  rewrite ids_app, count_occ_app, IHl, IHr. unfold one. cbn [ids map snd count_occ].
  fold (ids (inorder r)).
  destruct (Nat.eq_dec x q), (Nat.eqb_spec q x). all: try congruence; lia.
Qed.
Lemma cnt_inorder_eq t t' : inorder t = inorder t' -> forall q, cnt q t = cnt q t'.
Proof. intros H q. rewrite !cnt_ids. now rewrite H. Qed.
Lemma repz_nodup h t : repz h [] t -> NoDup (ids (inorder t)).
Proof.
  intros [_ _ HU]. rewrite (NoDup_count_occ Nat.eq_dec). intros q.
  rewrite <- cnt_ids. pose proof (HU q) as HQ; cbn in HQ; lia.
Qed.
Lemma nodup_split (a a' b b' : list (Z * ptr)) e e' :
  NoDup (ids (a ++ e :: b)) -> a ++ e :: b = a' ++ e' :: b' -> snd e = snd e' ->
  a = a' /\ e = e' /\ b = b'.
Proof.
  revert a'. induction a as [|x a IH]; intros a' Hn He Hs.
  - destruct a' as [|y a']; cbn in He; injection He as He1 He2; subst.
    + auto.
    + exfalso. cbn in Hn. rewrite ids_app in Hn. cbn in Hn. apply NoDup_cons_iff in Hn. destruct Hn as (Hn & _).
      apply Hn. rewrite in_app_iff. right. left. auto.
  - destruct a' as [|y a']; cbn in He; injection He as He1 He2; subst.
    + exfalso. cbn in Hn. apply NoDup_cons_iff in Hn. destruct Hn as (Hn & _). apply Hn.
      rewrite ids_app, in_app_iff. right. left. auto.
    + cbn in Hn. apply NoDup_cons_iff in Hn. destruct (IH a' (proj2 Hn) He2 Hs) as (-> & -> & ->). auto.
Qed.

Lemma bh_unplug c t m : bh (plug c t) m -> exists n, bh t n /\ bhc c n.
Proof.
  revert t; induction c as [|[d cc x k s] c IH]; intros t H; cbn in *; eauto.
  destruct (IH _ H) as (n & Hn & Hc).
  destruct d, cc; cbn in Hn.
  - exists n. tauto.
  - destruct n as [|n]; [tauto|]. exists n. tauto.
  - exists n. tauto.
  - destruct n as [|n]; [tauto|]. exists n. tauto.
Qed.
Lemma rr_unplug c t : rr (plug c t) -> isred (plug c t) = false -> rr t /\ rrc c (isred t).
Proof.
  revert t; induction c as [|[d cc x k s] c IH]; intros t H Hi; cbn in *; auto.
  destruct (IH _ H Hi) as (Hr & Hc).
  destruct d; cbn in Hr, Hc; (destruct cc; cbn in Hc |- *; intuition).
Qed.
Lemma rrc_false c b : rrc c b -> rrc c false.
Proof. destruct c as [|[d cc x k s] c]; cbn; intuition. Qed.

Lemma find_node q t : 1 <= cnt q t -> exists c cx l k r, t = plug c (T cx l q k r).
Proof.
  assert (forall t c0, 1 <= cnt q t -> exists c cx l k r, plug c0 t = plug c (T cx l q k r)) as H.
  { clear t. induction t as [|ct l IHl x k r IHr]; intros c0 Hq; cbn in Hq; [lia|].
    unfold one in Hq. destruct (Nat.eqb_spec q x) as [->|Hne].
    - eauto 10.
    - destruct (Nat.eq_dec (cnt q l) 0) as [Hz|Hz].
      + destruct (IHr (F false ct x k l :: c0)) as (c & cx & l' & k' & r' & He); [lia|].
        cbn in He. rewrite He. eauto 10.
      + destruct (IHl (F true ct x k r :: c0)) as (c & cx & l' & k' & r' & He); [lia|].
        cbn in He. rewrite He. eauto 10. }
  intros Hq. apply (H t []). exact Hq.
Qed.

Lemma height_plug c t : height t + length c <= height (plug c t) + 0.
Proof.
  revert t; induction c as [|[d cc x k s] c IH]; intros t; cbn; [lia|].
  specialize (IH (up (F d cc x k s) t)). destruct d; cbn in *; lia.
Qed.

(* ---------- height of a red-black tree *)
Lemma bh_size t n : bh t n -> 2 ^ n <= S (size t).
Proof.
  revert n; induction t as [|c l IHl x k r IHr]; intros n H; cbn in *.
  - subst; cbn; lia.
  - destruct c.
    + destruct H as (H1 & H2). specialize (IHl _ H1). lia.
    + destruct n as [|n]; [tauto|]. destruct H as (H1 & H2).
      specialize (IHl _ H1). specialize (IHr _ H2). cbn; lia.
Qed.
Lemma bh_height t n : rr t -> bh t n -> height t <= 2 * n + (if isred t then 1 else 0).
Proof.
  revert n; induction t as [|c l IHl x k r IHr]; intros n Hr H; cbn in *; [lia|].
  destruct Hr as (Hl & Hrr & Hc). destruct c.
  - destruct H as (H1 & H2). destruct (Hc eq_refl) as (H3 & H4).
    specialize (IHl _ Hl H1). specialize (IHr _ Hrr H2). rewrite H3 in IHl. rewrite H4 in IHr. lia.
  - destruct n as [|n]; [tauto|]. destruct H as (H1 & H2).
    specialize (IHl _ Hl H1). specialize (IHr _ Hrr H2).
    destruct (isred l), (isred r); lia.
Qed.
Lemma tinv_height h t : tinv h t -> height t <= 2 * Nat.log2 (S (size t)).
Proof.
  intros [_ _ Hr Hb (m & Hm) _].
  pose proof (bh_height _ _ Hr Hm) as H1. rewrite Hb in H1.
  pose proof (bh_size _ _ Hm) as H2.
  apply Nat.log2_le_mono in H2. rewrite Nat.log2_pow2 in H2; lia.
Qed.
Lemma size_inorder t : size t = length (inorder t).
Proof. induction t; cbn; auto. rewrite app_length; cbn; lia. Qed.

(* ---------- find *)
Lemma findFrom_ok h t : forall fuel par k, rep h par t ->
  (forall q, res q + cnt q t <= 1) -> sorted (inorder t) -> height t < fuel ->
  exists o, findFrom fuel k (rid t) h = Some (o, h) /\
    forall p, o = Some p <-> In (k, p) (inorder t).
Proof.
  induction t as [|ct l IHl x kx r IHr]; intros fuel par k Hr HU Hs Hf;
    (destruct fuel as [|fuel]; [lia|]); cbn [findFrom rid].
  - exists None. split; [reflexivity|]. cbn. intuition discriminate.
  - assert (x <> EMPTY) as Hx.
    { intros ->. uq HU EMPTY. lia. }
    rewrite (eqb_neq_f _ _ Hx).
    destruct Hr as (Hh & Hl & Hr). rewrite (ld_bind _ _ _ _ _ Hh). cbn [key].
    unfold sorted in Hs. cbn [inorder] in Hs. rewrite keys_app in Hs. cbn [keys map fst] in Hs.
    change (map fst (inorder r)) with (keys (inorder r)) in Hs.
    apply SS_app in Hs. destruct Hs as (Hsl & Hsr & Hlt).
    inversion Hsr as [|? ? Hsr' Hgt]; subst. rewrite Forall_forall in Hgt.
    cbn in Hf.
    assert (forall p, In (k, p) (inorder l) -> (k < kx)%Z) as HLl.
    { intros p Hp. apply Hlt; [|now left]. apply (in_map fst) in Hp. exact Hp. }
    assert (forall p, In (k, p) (inorder r) -> (kx < k)%Z) as HLr.
    { intros p Hp. apply Hgt. apply (in_map fst) in Hp. exact Hp. }
    destruct (Z.eqb_spec k kx) as [->|Hne].
    + exists (Some x). split; [reflexivity|]. intros p. cbn [inorder]. rewrite in_app_iff. cbn.
      split.
      * intros H; injection H as ->. auto.
      * intros [H|[H|H]].
        -- apply HLl in H; lia.
        -- congruence.
        -- apply HLr in H; lia.
    + destruct (Z.ltb_spec k kx) as [Hlt'|Hge].
      * rewrite (ld_bind _ _ _ _ _ Hh). cbn [left].
        destruct (IHl fuel x k) as (o & Ho & Hsp); auto.
        { intros q; specialize (HU q); cbn in HU; lia. }
        { lia. }
        exists o. split; [exact Ho|]. intros p. rewrite Hsp. cbn [inorder]. rewrite in_app_iff. cbn.
        split; [auto|]. intros [H|[H|H]]; auto.
        -- injection H; intros; congruence.
        -- apply HLr in H; lia.
      * rewrite (ld_bind _ _ _ _ _ Hh). cbn [right].
        destruct (IHr fuel x k) as (o & Ho & Hsp); auto.
        { intros q; specialize (HU q); cbn in HU; lia. }
        { lia. }
        exists o. split; [exact Ho|]. intros p. rewrite Hsp. cbn [inorder]. rewrite in_app_iff. cbn.
        split; [auto|]. intros [H|[H|H]]; auto.
        -- apply HLl in H; lia.
        -- injection H; intros; congruence.
Qed.

Lemma TreeFind_ok h t fuel k : tinv h t -> height t < fuel ->
  exists o, TreeFind fuel k h = Some (o, h) /\
    forall p, o = Some p <-> In (k, p) (inorder t).
Proof.
  intros HI Hf. unfold TreeFind.
  rewrite (ld_bind _ _ _ _ _ (first_ok _ _ (ti_z _ _ HI))). cbn [left].
  destruct HI as [Hz _ _ _ _ Hs]. destruct Hz as [Ht Hc HU].
  eapply findFrom_ok; eauto. intros q; pose proof (HU q) as HQ; cbn in HQ; lia.
Qed.

(* ---------- iterate *)
Fixpoint postorder (t : tree) : list ptr :=
  match t with E => [] | T _ l x _ r => postorder l ++ postorder r ++ [x] end.
Lemma postorder_perm t : Permutation (postorder t) (ids (inorder t)).
Proof.
  induction t as [|c l IHl x k r IHr]; cbn; [constructor|].
  rewrite ids_app. cbn. apply Permutation_app; auto.
  etransitivity; [|apply Permutation_sym, Permutation_cons_append].
  apply Permutation_app; auto.
Qed.

Lemma iterate_ok h t : forall fuel par, rep h par t ->
  (forall q, res q + cnt q t <= 1) -> sorted (inorder t) -> height t < fuel ->
  iterate fuel (rid t) h = Some (postorder t, h).
Proof.
  induction t as [|ct l IHl x kx r IHr]; intros fuel par Hr HU Hs Hf;
    (destruct fuel as [|fuel]; [lia|]); cbn [iterate rid postorder].
  - reflexivity.
  - assert (x <> EMPTY) as Hx.
    { intros ->. uq HU EMPTY. lia. }
    rewrite (eqb_neq_f _ _ Hx).
    destruct Hr as (Hh & Hl & Hr).
    unfold sorted in Hs. cbn [inorder] in Hs. rewrite keys_app in Hs. cbn [keys map fst] in Hs.
    change (map fst (inorder r)) with (keys (inorder r)) in Hs.
    apply SS_app in Hs. destruct Hs as (Hsl & Hsr & Hlt).
    inversion Hsr as [|? ? Hsr' Hgt]; subst. rewrite Forall_forall in Hgt.
    cbn in Hf.
    rewrite (ld_bind _ _ _ _ _ Hh). cbn [key].
    rewrite (ld_bind _ _ _ _ _ Hh). cbn [left].
    assert ((if negb (Nat.eqb (rid l) EMPTY) then
               lk <- ld key (rid l) ;;
               guard (Z.ltb lk kx) ;;;
               iterate fuel (rid l)
             else ret []) h = Some (postorder l, h)) as EL.
    { destruct l as [|cl ll xl kl rl]; cbn [rid].
      - reflexivity.
      - assert (xl <> EMPTY) as Hxl.
        { intros ->. uq HU EMPTY. lia. }
        rewrite (eqb_neq_f _ _ Hxl). cbn [negb].
        pose proof Hl as (Hhl & _). rewrite (ld_bind _ _ _ _ _ Hhl). cbn [key].
        assert ((kl < kx)%Z) as Hk.
        { apply Hlt; [|now left]. cbn [inorder]. rewrite keys_app. apply in_app_iff. right. now left. }
        apply Z.ltb_lt in Hk. rewrite Hk. unfold guard.
        erewrite bind_ok by reflexivity. eapply (IHl fuel x); eauto.
        + intros q; specialize (HU q); cbn in *; lia.
        + lia. }
    rewrite (bind_ok _ _ _ _ _ EL).
    rewrite (ld_bind _ _ _ _ _ Hh). cbn [right].
    assert ((if negb (Nat.eqb (rid r) EMPTY) then
               rk <- ld key (rid r) ;;
               guard (Z.ltb kx rk) ;;;
               iterate fuel (rid r)
             else ret []) h = Some (postorder r, h)) as ER.
    { destruct r as [|cl ll xl kl rl]; cbn [rid].
      - reflexivity.
      - assert (xl <> EMPTY) as Hxl.
        { intros ->. uq HU EMPTY. lia. }
        rewrite (eqb_neq_f _ _ Hxl). cbn [negb].
        pose proof Hr as (Hhl & _). rewrite (ld_bind _ _ _ _ _ Hhl). cbn [key].
        assert ((kx < kl)%Z) as Hk.
        { apply Hgt. cbn [inorder]. rewrite keys_app. apply in_app_iff. right. now left. }
        apply Z.ltb_lt in Hk. rewrite Hk. unfold guard.
        erewrite bind_ok by reflexivity. eapply (IHr fuel x); eauto.
        + intros q; specialize (HU q); cbn in *; lia.
        + lia. }
    rewrite (bind_ok _ _ _ _ _ ER). reflexivity.
Qed.

Lemma TreeIterate_ok h t fuel : tinv h t -> height t < fuel ->
  TreeIterateNodes fuel h = Some (postorder t, h).
Proof.
  intros HI Hf. unfold TreeIterateNodes.
  rewrite (ld_bind _ _ _ _ _ (first_ok _ _ (ti_z _ _ HI))). cbn [left].
  destruct HI as [Hz _ _ _ _ Hs]. destruct Hz as [Ht Hc HU].
  eapply iterate_ok; eauto. intros q; pose proof (HU q) as HQ; cbn in HQ; lia.
Qed.

Lemma count_fold {A} (l : list A) : forall c, (0 <= c < 2 ^ 32)%Z ->
  fold_left (fun c (_ : A) => ((c + 1) mod 2 ^ 32)%Z) l c = ((c + Z.of_nat (length l)) mod 2 ^ 32)%Z.
Proof.
  induction l as [|a l IH]; intros c Hc; cbn [fold_left length].
  - rewrite Z.mod_small; lia.
  - rewrite IH by (apply Z.mod_pos_bound; lia).
    rewrite Zplus_mod_idemp_l. f_equal. lia.
Qed.

Lemma TreeCount_ok h t fuel : tinv h t -> height t < fuel ->
  TreeCount fuel h = Some ((Z.of_nat (size t) mod 2 ^ 32)%Z, h).
Proof.
  intros HI Hf. unfold TreeCount. rewrite (bind_ok _ _ _ _ _ (TreeIterate_ok _ _ _ HI Hf)).
  unfold ret. rewrite count_fold by lia. do 3 f_equal. rewrite Z.add_0_l.
  rewrite (Permutation_length (postorder_perm t)). unfold ids. rewrite map_length.
  now rewrite size_inorder.
Qed.

(* ---------- insert *)
Lemma insertPoint_ok h k : forall t c fuel, repz h c t ->
  (forall a, In a (keys (pre c)) -> (a < k)%Z) -> (forall a, In a (keys (post c)) -> (k < a)%Z) ->
  sorted (inorder t) -> ~ In k (keys (inorder t)) -> height t < fuel ->
  exists c', insertPoint fuel k (cpar c) (rid t) h = Some (cpar c', h) /\
    plug c' E = plug c t /\ length c' <= length c + height t /\
    (forall a, In a (keys (pre c')) -> (a < k)%Z) /\ (forall a, In a (keys (post c')) -> (k < a)%Z).
Proof.
  induction t as [|ct l IHl x kx r IHr]; intros c fuel Hz Hpre Hpost Hs Hk Hf;
    (destruct fuel as [|fuel]; [lia|]); cbn [insertPoint rid].
  - exists c. repeat split; auto. cbn; lia.
  - assert (x <> EMPTY) as Hx.
    { intros ->. pose proof (rz_u _ _ _ Hz) as HU. uq HU EMPTY. lia. }
    rewrite (eqb_neq_f _ _ Hx).
    pose proof (rz_t _ _ _ Hz) as (Hh & _).
    rewrite (ld_bind _ _ _ _ _ Hh). cbn [key].
    unfold sorted in Hs. cbn [inorder] in Hs, Hk. rewrite keys_app in Hs, Hk. cbn [keys map fst] in Hs, Hk.
    change (map fst (inorder r)) with (keys (inorder r)) in Hs, Hk.
    change (map fst (inorder l)) with (keys (inorder l)) in Hs, Hk.
    rewrite in_app_iff in Hk. cbn in Hk.
    apply SS_app in Hs. destruct Hs as (Hsl & Hsr & Hlt).
    inversion Hsr as [|? ? Hsr' Hgt]; subst. rewrite Forall_forall in Hgt.
    cbn in Hf.
    destruct (Z.eqb_spec k kx) as [->|Hne]; [exfalso; auto|]. cbn [negb guard].
    erewrite bind_ok by reflexivity.
    destruct (Z.ltb_spec k kx) as [Hlt'|Hge].
    + rewrite (ld_bind _ _ _ _ _ Hh). cbn [left].
      destruct (IHl (F true ct x kx r :: c) fuel) as (c' & E1 & P1 & L1 & A1 & B1).
      * now apply down_l.
      * exact Hpre.
      * intros a. cbn [post]. unfold keys. cbn [map fst]. rewrite map_app. cbn. rewrite in_app_iff.
        intros [<-|[Ha|Ha]]; auto. apply Hgt in Ha. lia.
      * exact Hsl.
      * auto.
      * lia.
      * exists c'. repeat split; auto. cbn in L1 |- *. lia.
    + rewrite (ld_bind _ _ _ _ _ Hh). cbn [right].
      destruct (IHr (F false ct x kx l :: c) fuel) as (c' & E1 & P1 & L1 & A1 & B1).
      * now apply down_r.
      * intros a. cbn [pre]. rewrite !keys_app, !in_app_iff. cbn.
        intros [Ha|[Ha|[<-|[]]]]; auto; [|lia]. specialize (Hlt a kx Ha (or_introl eq_refl)). lia.
      * exact Hpost.
      * exact Hsr'.
      * auto.
      * lia.
      * exists c'. repeat split; auto. cbn in L1 |- *. lia.
Qed.

(* changing only [h] outside the represented nodes *)
Lemma repz_frame h h' c t : (forall q, 1 <= cntc q c + cnt q t -> h' q = h q) ->
  h' ROOT = h ROOT -> repz h c t -> repz h' c t.
Proof.
  intros Hq HR [Ht Hc HU]. constructor; auto.
  - eapply rep_frame; [|exact Ht]. intros; apply Hq; lia.
  - eapply repc_frame; [| |exact Hc]; auto. intros; apply Hq; lia.
Qed.

Lemma cpar_cnt c : c <> [] -> 1 <= cntc (cpar c) c.
Proof. destruct c as [|[d cc x k s] c]; cbn; [congruence|]. rewrite one_refl; lia. Qed.

Theorem TreeInsert_ok h t fuel nd n0 :
  tinv h t -> h nd = Some n0 -> res nd + cnt nd t = 0 ->
  ~ In (key n0) (keys (inorder t)) -> height t + 2 <= fuel ->
  exists h' t' a b, TreeInsert fuel nd h = Some (tt, h') /\ tinv h' t' /\
    inorder t = a ++ b /\ inorder t' = a ++ (key n0, nd) :: b /\
    (forall q, cnt q t = 0 -> q <> nd -> q <> ROOT -> h' q = h q).
Proof.
  intros HI Hnd Hfresh Hk Hf. pose proof HI as [Hz (ep & He) Hr Hb (m & Hm) Hs].
  set (k := key n0) in *. unfold TreeInsert.
  rewrite (ld_bind _ _ _ _ _ (first_ok _ _ Hz)). cbn [left].
  rewrite (ld_bind _ _ _ _ _ Hnd). fold k.
  destruct (insertPoint_ok h k t [] fuel) as (c & E1 & P1 & L1 & A1 & B1); auto; try lia.
  { cbn; tauto. } { cbn; tauto. }
  cbn [cpar] in E1. rewrite (bind_ok _ _ _ _ _ E1). cbn [plug] in P1. cbn in L1.
  assert (repz h c E) as Hzc.
  { rewrite <- (app_nil_r c). apply repz_plug. rewrite P1. exact Hz. }
  assert (forall q, cntc q c = cnt q t) as Hct.
  { intros q. rewrite <- P1, cnt_plug. cbn. lia. }
  assert (nd <> ROOT /\ nd <> EMPTY /\ nd <> cpar c) as (N1 & N2 & N3).
  { assert (forall q, q < 3 -> nd <> q) as N.
    { intros q Hq ->. rewrite (res_lt _ Hq) in Hfresh. lia. }
    split; [apply N; unfold ROOT; lia|]. split; [apply N; unfold EMPTY; lia|].
    destruct c as [|f c']; [apply N; cbn; unfold ROOT; lia|].
    intros ->. pose proof (cpar_cnt (f :: c') ltac:(congruence)). rewrite Hct in H. lia. }
  unfold set_left at 1. rewrite (modn_bind _ _ _ _ _ Hnd). cbn [parent left right colour key].
  unfold set_right at 1. erewrite modn_bind by apply upd_eq. cbn [parent left right colour key].
  unfold set_parent at 1. erewrite modn_bind by apply upd_eq. cbn [parent left right colour key].
  match goal with |- context [bind _ _ ?hh] => set (h1 := hh) end.
  assert (forall q, q <> nd -> h1 q = h q) as F1.
  { intros q Hq. unfold h1. now rewrite !upd_neq. }
  assert (h1 nd = Some (mk (cpar c) EMPTY EMPTY (colour n0) k)) as H1nd by apply upd_eq.
  assert (repz h1 c E) as Hz1.
  { eapply repz_frame; [| |exact Hzc].
    - intros q Hq. apply F1. intros ->. cbn in Hq. rewrite Hct in Hq. lia.
    - apply F1. auto. }
  pose proof (repc_hole _ _ _ (rz_c _ _ _ Hz1)) as Hh. cbn [rid] in Hh.
  assert ((if Nat.eqb (cpar c) ROOT then set_left nd (cpar c)
   else pk <- ld key (cpar c) ;;
     if Z.ltb k pk then set_left nd (cpar c) else set_right nd (cpar c)) h1
     = Some (tt, upd (cpar c) (hole_node c nd) h1)) as E2.
  { destruct c as [|[d cc x kx s] c'].
    - cbn. unfold set_left. cbn in Hh. rewrite (modn_ok _ _ _ _ Hh). reflexivity.
    - cbn [cpar] in *.
      assert (x <> ROOT) as Hx.
      { intros ->. pose proof (rz_u _ _ _ Hzc) as HU. uq HU ROOT. lia. }
      rewrite (eqb_neq_f _ _ Hx). rewrite (ld_bind _ _ _ _ _ Hh). cbn [key hole_node].
      destruct d.
      + assert (k < kx)%Z as Hlt by (apply B1; now left).
        apply Z.ltb_lt in Hlt. rewrite Hlt. unfold set_left. rewrite (modn_ok _ _ _ _ Hh). reflexivity.
      + assert (kx < k)%Z as Hlt.
        { apply A1. cbn [pre]. rewrite !keys_app, !in_app_iff. cbn. auto. }
        assert (Z.ltb k kx = false) as -> by (apply Z.ltb_ge; lia).
        unfold set_right. rewrite (modn_ok _ _ _ _ Hh). reflexivity. }
  rewrite (bind_ok _ _ _ _ _ E2). clear E2.
  set (h2 := upd (cpar c) (hole_node c nd) h1).
  assert (h2 nd = Some (mk (cpar c) EMPTY EMPTY (colour n0) k)) as H2nd.
  { unfold h2. now rewrite upd_neq. }
  unfold set_colour at 1. rewrite (modn_bind _ _ _ _ _ H2nd). cbn [parent left right colour key].
  set (h3 := upd nd (mk (cpar c) EMPTY EMPTY true k) h2).
  assert (repz h3 c (T true E nd k E)) as Hz3.
  { constructor.
    - cbn. unfold h3. rewrite upd_eq. auto.
    - cbn [rid]. eapply repc_frame; [| |eapply repc_rehole; [|exact (rz_c _ _ _ Hz1)]].
      + intros q Hq. unfold h3. rewrite upd_neq; [reflexivity|].
        intros ->. rewrite Hct in Hq. lia.
      + unfold h3. rewrite upd_neq; [reflexivity|auto].
      + intros q. pose proof (rz_u _ _ _ Hzc q) as HQ. cbn in HQ. lia.
    - intros q. cbn. pose proof (rz_u _ _ _ Hzc q) as HQ. cbn in HQ.
      unfold one. destruct (Nat.eqb_spec q nd); [subst; rewrite Hct; lia|lia]. }
  assert (forall q, cnt q t = 0 -> q <> nd -> q <> ROOT -> h3 q = h q) as F3.
  { intros q Q1 Q2 Q3. unfold h3, h2. rewrite !upd_neq; auto.
    intros ->. destruct c as [|f c']; [now apply Q3|].
    pose proof (cpar_cnt (f :: c') ltac:(congruence)). rewrite Hct in H. lia. }
  assert (emp h3 ep) as He3.
  { unfold emp. rewrite F3; auto.
    - pose proof (rz_u _ _ _ Hz) as HU. uq HU EMPTY. lia.
    - discriminate. }
  rewrite <- P1 in Hr, Hb, Hm.
  destruct (bh_unplug _ _ _ Hm) as (n & Hn & Hbc). cbn in Hn. subst n.
  destruct (rr_unplug _ _ Hr Hb) as (_ & Hrc). cbn in Hrc.
  destruct (insertRepair_ok fuel c (T true E nd k E) h3 ep 0) as (h4 & t4 & E4 & R4 & S4 & I4 & Hr4 & (m4 & Hm4) & Ht4); auto.
  { lia. } { cbn; auto. } { cbn; auto. } { now apply rrc_octx. }
  cbn [rid] in E4. rewrite (bind_ok _ _ _ _ _ E4).
  rewrite (ld_bind _ _ _ _ _ (first_ok _ _ R4)). cbn [left].
  assert (emp h4 ep) as He4.
  { eapply emp_same; [|exact S4|exact He3]. intros q. apply Hz3. }
  destruct (set_black_ok _ _ _ _ R4 He4) as (h5 & E5 & R5 & S5).
  assert (inorder (blk t4) = pre c ++ (k, nd) :: post c) as I5.
  { rewrite blk_inorder, I4, inorder_plug. reflexivity. }
  exists h5, (blk t4), (pre c), (post c). split; [exact E5|].
  assert (inorder t = pre c ++ post c) as It.
  { rewrite <- P1, inorder_plug. reflexivity. }
  split; [constructor|split; [exact It|split; [exact I5|]]].
  - exact R5.
  - exists ep. eapply emp_same; [|exact S5|exact He4]. intros q. apply R4.
  - now apply rr_blk.
  - apply blk_isred.
  - destruct (isred t4) eqn:Hi4.
    + eexists. eapply blk_bh_red; eauto.
    + rewrite blk_black by auto. eauto.
  - unfold sorted in *. rewrite I5, It in *. rewrite !keys_app in *. cbn [keys map fst].
    apply SS_app in Hs. destruct Hs as (Hs1 & Hs2 & Hs3). apply SS_app. repeat split; auto.
    + constructor; auto. apply Forall_forall. exact B1.
    + intros a b Ha [<-|Hb']; auto.
  - intros q Q1 Q2 Q3. rewrite S5, S4, F3; auto.
    + cbn. rewrite Hct. unfold one. destruct (Nat.eqb_spec q nd); [congruence|lia].
    + cbn [cntc]. rewrite (cnt_inorder_eq _ _ I4), cnt_plug, Hct. cbn. unfold one.
      destruct (Nat.eqb_spec q nd); [congruence|lia].
Qed.
