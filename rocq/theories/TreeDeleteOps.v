(* Correctness of TreeDelete and TreeNodeRemove. *)
From Coq Require Import Sorting.Sorted.
From Verif Require Import TreeModel TreeRep TreeInsert TreeDelete TreeOps.

Lemma res_neq q x : res x = 0 -> q < 3 -> x <> q.
Proof. intros H Hq ->. rewrite (res_lt _ Hq) in H. lia. Qed.

Lemma cpar_neq_out c x : res x = 0 -> cntc x c = 0 -> cpar c <> x.
Proof.
  intros Hr Hc. destruct c as [|[d cc y k s] c]; cbn in *.
  - intros <-. discriminate Hr.
  - intros ->. rewrite one_refl in Hc. lia.
Qed.

(* tree.c 317-329: unlink y, which has at most the child u *)
Lemma detach_ok {B} h ep c cy y ky u yl yr (k : unit -> M B) :
  repz h c (T cy yl y ky yr) -> emp h ep ->
  (yl = E /\ u = yr \/ yr = E /\ u = yl) ->
  exists h' ep',
    (yp <- ld parent y ;;
     set_parent yp (rid u) ;;;
     xp <- ld parent (rid u) ;;
     (if Nat.eqb xp ROOT then set_left (rid u) ROOT
      else
        yp1 <- ld parent y ;;
        ypl <- ld left yp1 ;;
        if Nat.eqb y ypl then set_left (rid u) yp1 else set_right (rid u) yp1) ;;;
     k tt) h = k tt h' /\
    repz h' c u /\ emp h' ep' /\ (u = E -> ep' = cpar c) /\ h' y = h y /\
    (forall q, cntc q c + cnt q u = 0 -> q <> ROOT -> q <> EMPTY -> h' q = h q).
Proof.
  intros Hz He Hu. pose proof Hz as [Ht Hc HU]. cbn [rid] in Hc.
  destruct Ht as (Hy & Hl & Hr).
  assert (rep h y u) as Hru by (destruct Hu as [[-> ->]|[-> ->]]; auto).
  assert (forall q, cnt q u + one q y = cnt q (T cy yl y ky yr)) as Hcu
    by (intros q; destruct Hu as [[-> ->]|[-> ->]]; cbn; lia).
  assert (res y = 0 /\ cntc y c = 0 /\ cnt y u = 0) as (Y1 & Y2 & Y3).
  { pose proof (HU y) as HQ. rewrite <- Hcu, one_refl in HQ. lia. }
  rewrite (ld_bind _ _ _ _ _ Hy). cbn [parent].
  assert (exists nu, h (rid u) = Some nu /\ rid u <> y /\ rid u <> ROOT /\ rid u <> cpar c /\
     (u = E -> nu = mk ep EMPTY EMPTY false 0%Z)) as (nu & Hnu & Nu1 & Nu2 & Nu3 & HnuE).
  { destruct u as [|cu ul ux uk ur]; cbn [rid].
    - exists (mk ep EMPTY EMPTY false 0%Z). split; [exact He|].
      split; [apply not_eq_sym, res_neq; [auto|unfold EMPTY; lia]|].
      split; [discriminate|]. split; [|auto]. apply not_eq_sym.
      destruct c as [|[d cc z kz s] c]; cbn; [discriminate|].
      intros ->. uq HU EMPTY. lia.
    - exists (mk y (rid ul) (rid ur) cu uk). split; [apply Hru|].
      split. { intros ->. cbn in Y3. rewrite one_refl in Y3. lia. }
      assert (res ux = 0 /\ cntc ux c = 0) as (X1 & X2).
      { pose proof (HU ux) as HQ. rewrite <- Hcu in HQ. cbn in HQ. rewrite one_refl in HQ. lia. }
      split. { apply res_neq; [auto|unfold ROOT; lia]. }
      split. { apply not_eq_sym, cpar_neq_out; auto. } discriminate. }
  unfold set_parent at 1. rewrite (modn_bind _ _ _ _ _ Hnu).
  set (h1 := upd (rid u) (mk (cpar c) (left nu) (right nu) (colour nu) (key nu)) h).
  assert (h1 (rid u) = Some (mk (cpar c) (left nu) (right nu) (colour nu) (key nu))) as H1u
    by apply upd_eq.
  rewrite (ld_bind _ _ _ _ _ H1u). cbn [parent].
  assert (repc h1 c y) as Hc1.
  { eapply repc_frame; [| |exact Hc].
    - intros q Hq. unfold h1. apply upd_neq. intros ->.
      destruct u as [|cu ul ux uk ur]; cbn [rid] in *.
      + uq HU EMPTY; lia.
      + pose proof (HU ux) as HQ. rewrite <- Hcu in HQ. cbn in HQ. rewrite one_refl in HQ. lia.
    - unfold h1. apply upd_neq. auto. }
  assert (h1 y = h y) as H1y by (unfold h1; apply upd_neq; auto).
  assert ((if Nat.eqb (cpar c) ROOT then set_left (rid u) ROOT
      else
        yp1 <- ld parent y ;;
        ypl <- ld left yp1 ;;
        if Nat.eqb y ypl then set_left (rid u) yp1 else set_right (rid u) yp1) h1
     = Some (tt, upd (cpar c) (hole_node c (rid u)) h1)) as E2.
  { destruct c as [|f c'].
    - cbn. unfold set_left. cbn in Hc1. rewrite (modn_ok _ _ _ _ Hc1). reflexivity.
    - assert (cpar (f :: c') <> ROOT) as Hne.
      { intros He'. pose proof (cpar_cnt (f :: c') ltac:(congruence)) as H1. rewrite He' in H1.
        uq HU ROOT. cbn in H1. lia. }
      rewrite (eqb_neq_f _ _ Hne).
      rewrite Hy in H1y.
      destruct (relink_ok h1 (f :: c') y _ (rid u) H1y eq_refl Hc1) as (h2 & E2 & ->).
      + apply res_neq; [auto|unfold EMPTY; lia].
      + intros q. pose proof (HU q) as HQ. rewrite <- Hcu in HQ. lia.
      + exact E2. }
  rewrite (bind_ok _ _ _ _ _ E2). clear E2.
  set (h2 := upd (cpar c) (hole_node c (rid u)) h1).
  assert (forall q, q <> cpar c -> q <> rid u -> h2 q = h q) as F2.
  { intros q Q1 Q2. unfold h2, h1. now rewrite !upd_neq. }
  assert (h2 (rid u) = Some (mk (cpar c) (left nu) (right nu) (colour nu) (key nu))) as H2u.
  { unfold h2. now rewrite upd_neq. }
  exists h2, (match u with E => cpar c | _ => ep end).
  split; [reflexivity|]. split; [constructor|split; [|split; [|split]]].
  - destruct u as [|cu ul ux uk ur]; [exact I|]. cbn [rep rid] in *.
    destruct Hru as (Hux & Hul & Hur). rewrite Hnu in Hux. injection Hux as ->. cbn in H2u.
    assert (forall q, 1 <= cnt q ul + cnt q ur -> h2 q = h q) as Fq.
    { intros q Hq. pose proof (HU q) as HQ. rewrite <- Hcu in HQ. cbn in HQ. apply F2.
      - apply not_eq_sym, cpar_neq_out; lia.
      - intros ->. rewrite one_refl in HQ. lia. }
    repeat split; auto; (eapply rep_frame; [|eassumption]); intros; apply Fq; lia.
  - apply repc_rehole with (hole := y); [|exact Hc1].
    intros q. pose proof (HU q) as HQ. lia.
  - intros q. pose proof (HU q) as HQ. rewrite <- Hcu in HQ. lia.
  - unfold emp. destruct u as [|cu ul ux uk ur].
    + cbn [rid] in H2u. rewrite H2u, (HnuE eq_refl). reflexivity.
    + rewrite F2; auto.
      * destruct c as [|[d cc z kz s] c]; cbn; [discriminate|].
        intros <-. uq HU EMPTY. lia.
      * cbn. intros <-. uq HU EMPTY. pose proof (Hcu EMPTY) as HQ'. cbn in HQ'. rewrite one_refl in HQ'. lia.
  - intros ->. reflexivity.
  - rewrite <- H1y. unfold h2. apply upd_neq. apply not_eq_sym, cpar_neq_out; auto.
  - intros q Q1 Q2 Q3. apply F2.
    + destruct c as [|[d cc z kz s] c]; cbn in *; auto.
      intros ->. rewrite one_refl in Q1. lia.
    + destruct u as [|cu ul ux uk ur]; cbn in *; auto.
      intros ->. rewrite one_refl in Q1. lia.
Qed.

Lemma leftmost_ok h : forall t c fuel cx l x k r,
  t = T cx l x k r -> repz h c t -> height t <= fuel ->
  exists c' cy y ky yr, leftmost fuel x h = Some (y, h) /\
    t = plug c' (T cy E y ky yr) /\ pre c' = [].
Proof.
  induction t as [|ct l0 IHl x0 k0 r0 _]; intros c fuel cx l x k r He Hz Hf; [discriminate|].
  injection He as -> -> -> -> ->. destruct fuel as [|fuel]; [cbn in Hf; lia|].
  cbn [leftmost]. pose proof (rz_t _ _ _ Hz) as (Hx & _). rewrite (ld_bind _ _ _ _ _ Hx). cbn [left].
  destruct l as [|cl ll xl kl rl]; cbn [rid].
  - exists [], cx, x, k, r. repeat split; auto.
  - assert (xl <> EMPTY) as Hne.
    { intros ->. pose proof (rz_u _ _ _ Hz) as HU. uq HU EMPTY. lia. }
    rewrite (eqb_neq_f _ _ Hne).
    edestruct (IHl (F true cx x k r :: c) fuel) as (c' & cy & y & ky & yr & E1 & P1 & Q1); eauto.
    + now apply down_l.
    + cbn [height] in *. lia.
    + exists (c' ++ [F true cx x k r]), cy, y, ky, yr. split; [exact E1|]. split.
      * assert (forall c1 c2 t, plug (c1 ++ c2) t = plug c2 (plug c1 t)) as Hpa.
        { intros c1; induction c1 as [|f c1 IH]; intros c2 t; cbn; auto. }
        rewrite Hpa, <- P1. reflexivity.
      * clear -Q1. induction c' as [|[d cc z kz s] c' IH]; cbn in *; auto.
        destruct d; auto. exfalso. destruct (pre c'); cbn in Q1; [destruct (inorder s)|]; discriminate.
Qed.

Lemma plug_app c1 c2 t : plug (c1 ++ c2) t = plug c2 (plug c1 t).
Proof. revert t; induction c1 as [|f c1 IH]; intros t; cbn; auto. Qed.
Lemma cpar_app c f c2 : cpar (c ++ f :: c2) = match c with [] => cpar [f] | _ => cpar c end.
Proof. destruct c as [|[]]; [destruct f|]; reflexivity. Qed.

(* after unlinking y from the zipper c with remaining child u, and the repair *)
Lemma unlink_repair h ep fuel c cy yl y ky yr u :
  repz h c u -> emp h ep -> (u = E -> ep = cpar c) ->
  (yl = E /\ u = yr \/ yr = E /\ u = yl) ->
  rr (plug c (T cy yl y ky yr)) -> isred (plug c (T cy yl y ky yr)) = false ->
  (exists m, bh (plug c (T cy yl y ky yr)) m) ->
  length c + 2 <= fuel ->
  exists h' t', (if negb cy then deleteRepair fuel (rid u) else ret tt) h = Some (tt, h') /\
    repz h' [] t' /\ same_out h h' c u /\ inorder t' = inorder (plug c u) /\
    rr t' /\ isred t' = false /\ (exists m, bh t' m).
Proof.
  intros Hz He Hep Hu Hr Hb (m & Hm) Hf.
  destruct (rr_unplug _ _ Hr Hb) as (Hry & Hrc).
  destruct (bh_unplug _ _ _ Hm) as (n & Hn & Hbc).
  assert (rr u) as Hru by (cbn in Hry; destruct Hu as [[-> ->]|[-> ->]]; tauto).
  destruct cy; cbn [negb].
  - exists h, (plug c u). split; [reflexivity|].
    assert (bh u n) as Hbu by (cbn in Hn; destruct Hu as [[-> ->]|[-> ->]]; tauto).
    assert (isred u = false) as Hiu.
    { cbn in Hry. destruct Hry as (_ & _ & Hc). destruct (Hc eq_refl). destruct Hu as [[-> ->]|[-> ->]]; auto. }
    split. { rewrite <- repz_plug, app_nil_r. exact Hz. }
    split. { intros q _ _. reflexivity. } split; [reflexivity|].
    apply rrc_false in Hrc. rewrite <- Hiu in Hrc.
    destruct (rr_plug _ _ Hru Hrc) as (H1 & H2). repeat split; auto.
    eapply bh_plug; eauto.
  - destruct n as [|n]; [cbn in Hn; tauto|].
    assert (bh u n) as Hbu by (cbn in Hn; destruct Hu as [[-> ->]|[-> ->]]; tauto).
    apply (deleteRepair_ok fuel c u h ep n); auto.
    + destruct (isred u); lia.
    + now apply rr_blk.
Qed.

(* tree.c 334-346: y takes the place of nd in the tree *)
Lemma transplant_ok h ep c cx l x k r y ny :
  repz h c (T cx l x k r) -> emp h ep -> h y = Some ny -> res y = 0 ->
  cntc y c + cnt y (T cx l x k r) = 0 ->
  exists h' ep',
    (nl <- ld left x ;; set_left nl y ;;;
     nr <- ld right x ;; set_right nr y ;;;
     np <- ld parent x ;; set_parent np y ;;;
     nc <- ld colour x ;; set_colour nc y ;;;
     nl' <- ld left x ;; set_parent y nl' ;;;
     nr' <- ld right x ;; set_parent y nr' ;;;
     relink x y) h = Some (tt, h') /\
    repz h' c (T cx l y (key ny) r) /\ emp h' ep' /\ h' x = h x /\
    (forall q, cntc q c + cnt q (T cx l x k r) = 0 -> q <> y -> q <> ROOT -> q <> EMPTY -> h' q = h q).
Proof.
  intros Hz He Hy Hres Hout. pose proof Hz as [(Hx & Hl & Hr) Hc HU]. cbn [rid] in Hc.
  assert (y <> x) as Nyx.
  { intros ->. cbn in Hout. rewrite one_refl in Hout. lia. }
  assert (res x = 0 /\ cntc x c = 0 /\ cnt x l = 0 /\ cnt x r = 0) as (X1 & X2 & X3 & X4).
  { uq HU x. lia. }
  assert (cntc y c = 0 /\ cnt y l = 0 /\ cnt y r = 0) as (Y1 & Y2 & Y3).
  { cbn in Hout. lia. }
  rewrite (ld_bind _ _ _ _ _ Hx). cbn [left].
  unfold set_left at 1. rewrite (modn_bind _ _ _ _ _ Hy). cbn [parent left right colour key].
  match goal with |- context [bind _ _ ?hh] => set (h1 := hh) end.
  assert (h1 x = h x) as H1x by (unfold h1; now rewrite upd_neq by auto). rewrite Hx in H1x.
  rewrite (ld_bind _ _ _ _ _ H1x). cbn [right].
  unfold set_right at 1. erewrite modn_bind by apply upd_eq. cbn [parent left right colour key].
  match goal with |- context [bind _ _ ?hh] => set (h2 := hh) end.
  assert (h2 x = h1 x) as H2x by (unfold h2; now rewrite upd_neq by auto). rewrite H1x in H2x.
  rewrite (ld_bind _ _ _ _ _ H2x). cbn [parent].
  unfold set_parent at 1. erewrite modn_bind by apply upd_eq. cbn [parent left right colour key].
  match goal with |- context [bind _ _ ?hh] => set (h3 := hh) end.
  assert (h3 x = h2 x) as H3x by (unfold h3; now rewrite upd_neq by auto). rewrite H2x in H3x.
  rewrite (ld_bind _ _ _ _ _ H3x). cbn [colour].
  unfold set_colour at 1. erewrite modn_bind by apply upd_eq. cbn [parent left right colour key].
  match goal with |- context [bind _ _ ?hh] => set (h4 := hh) end.
  assert (h4 x = h3 x) as H4x by (unfold h4; now rewrite upd_neq by auto). rewrite H3x in H4x.
  assert (forall q, q <> y -> h4 q = h q) as F4.
  { intros q Q. unfold h4, h3, h2, h1. now rewrite !upd_neq. }
  assert (h4 y = Some (mk (cpar c) (rid l) (rid r) cx (key ny))) as H4y by apply upd_eq.
  clearbody h4. clear h1 h2 h3 H1x H2x H3x.
  (* children *)
  assert (forall t hh, (forall q, 1 <= cnt q t -> hh q = h q) -> (forall q, res q + cnt q t <= 1) ->
     cnt x t = 0 -> cnt y t = 0 -> (exists e, emp hh e) -> rep h x t ->
     exists hh', set_parent y (rid t) hh = Some (tt, hh') /\ rep hh' y t /\
       (exists e, emp hh' e) /\ (forall q, cnt q t = 0 -> q <> EMPTY -> hh' q = hh q)) as Hkid.
  { intros t hh Hq HUt Xt Yt (e & Het) Ht. destruct t as [|ct tl tx tk tr]; cbn [rid].
    - unfold set_parent. rewrite (modn_ok _ _ _ _ Het). eexists; split; [reflexivity|]. repeat split.
      + eexists. apply upd_eq.
      + intros q _ Q. now apply upd_neq.
    - destruct Ht as (Htx & Htl & Htr).
      assert (hh tx = Some (mk x (rid tl) (rid tr) ct tk)) as Hhx.
      { rewrite Hq; auto. cbn. rewrite one_refl; lia. }
      unfold set_parent. rewrite (modn_ok _ _ _ _ Hhx). cbn [parent left right colour key].
      eexists; split; [reflexivity|]. split; [|split].
      + cbn. split; [apply upd_eq|].
        split; (eapply rep_frame; [|eassumption]); intros q Q;
          (rewrite upd_neq; [apply Hq; cbn; lia|]); intros ->; uq HUt tx; lia.
      + exists e. unfold emp. rewrite upd_neq; auto. intros <-. uq HUt EMPTY; lia.
      + intros q Q1 Q2. apply upd_neq. intros ->. cbn in Q1. rewrite one_refl in Q1. lia. }
  rewrite (ld_bind _ _ _ _ _ H4x). cbn [left].
  destruct (Hkid l h4) as (h5 & E5 & R5 & He5 & F5); auto.
  { intros q Q. apply F4. intros ->. lia. }
  { intros q. pose proof (HU q) as HQ. cbn in HQ. lia. }
  { exists ep. unfold emp. rewrite F4; auto. intros <-. discriminate Hres. }
  rewrite (bind_ok _ _ _ _ _ E5).
  assert (x <> EMPTY) as NxE by (apply res_neq; [auto|unfold EMPTY; lia]).
  assert (h5 x = h4 x) as H5x by (apply F5; auto). rewrite H4x in H5x.
  rewrite (ld_bind _ _ _ _ _ H5x). cbn [right].
  destruct (Hkid r h5) as (h6 & E6 & R6 & He6 & F6); auto.
  { intros q Q. pose proof (HU q) as HQ. cbn in HQ.
    rewrite F5, F4; auto; try lia.
    - intros ->; lia.
    - intros ->. change (res EMPTY) with 1 in HQ. lia. }
  { intros q. pose proof (HU q) as HQ. cbn in HQ. lia. }
  rewrite (bind_ok _ _ _ _ _ E6).
  assert (h6 x = h5 x) as H6x by (apply F6; auto). rewrite H5x in H6x.
  assert (forall q, cnt q l = 0 -> cnt q r = 0 -> q <> EMPTY -> q <> y -> h6 q = h q) as F6'.
  { intros q Q1 Q2 Q3 Q4. rewrite F6, F5, F4; auto. }
  assert (repc h6 c x) as Hc6.
  { eapply repc_frame; [| |exact Hc].
    - intros q Q. pose proof (HU q) as HQ. cbn in HQ. apply F6'; try lia.
      + intros ->. change (res EMPTY) with 1 in HQ. lia.
      + intros ->. lia.
    - uq HU ROOT. apply F6'; try lia; try discriminate. intros <-. discriminate Hres. }
  destruct (relink_ok h6 c x _ y H6x eq_refl Hc6 NxE) as (h7 & E7 & ->).
  { intros q. pose proof (HU q) as HQ. cbn in HQ. lia. }
  set (h7 := upd (cpar c) (hole_node c y) h6) in *.
  assert (forall q, q <> cpar c -> h7 q = h6 q) as F7.
  { intros q Q. unfold h7. now apply upd_neq. }
  destruct He6 as (ep' & He6).
  exists h7, ep'. split; [exact E7|]. split; [constructor|split; [|split]].
  - cbn. split; [|split].
    + rewrite F7, F6, F5; auto.
      * intros ->. discriminate Hres.
      * intros ->. discriminate Hres.
      * apply not_eq_sym, cpar_neq_out; auto.
    + eapply rep_frame; [|exact R5]. intros q Q. pose proof (HU q) as HQ. cbn in HQ.
      rewrite F7, F6; auto; try lia.
      * intros ->. change (res EMPTY) with 1 in HQ. lia.
      * apply not_eq_sym, cpar_neq_out; lia.
    + eapply rep_frame; [|exact R6]. intros q Q. pose proof (HU q) as HQ. cbn in HQ.
      apply F7. apply not_eq_sym, cpar_neq_out; lia.
  - cbn [rid]. apply repc_rehole with (hole := x); [|exact Hc6].
    intros q. pose proof (HU q) as HQ. cbn in HQ. lia.
  - intros q. pose proof (HU q) as HQ. cbn in HQ |- *.
    destruct (Nat.eq_dec q y) as [->|Nq].
    + rewrite one_refl. lia.
    + unfold one at 1. destruct (Nat.eqb_spec q y); [congruence|]. lia.
  - unfold emp. rewrite F7; auto. destruct c as [|[d cc z kz s] c]; cbn; [discriminate|].
    intros <-. uq HU EMPTY; lia.
  - rewrite F7; [apply F6'; auto|]. apply not_eq_sym, cpar_neq_out; auto.
  - intros q Q1 Q2 Q3 Q4. cbn in Q1. rewrite F7.
    + apply F6'; auto; lia.
    + destruct c as [|[d cc z kz s] c]; cbn in *; auto. intros ->. rewrite one_refl in Q1. lia.
Qed.

Lemma tinv_intro h t ep : repz h [] t -> emp h ep -> rr t -> isred t = false ->
  (exists m, bh t m) -> sorted (inorder t) -> tinv h t.
Proof. intros. constructor; eauto. Qed.

Lemma sorted_del a b e : sorted (a ++ e :: b) -> sorted (a ++ b).
Proof.
  unfold sorted. rewrite !keys_app. cbn [keys map]. rewrite !SS_app.
  intros (H1 & H2 & H3). inversion H2; subst. repeat split; auto.
  intros x y Hx Hy. apply H3; auto. now right.
Qed.

Theorem TreeDelete_ok h t fuel nd :
  tinv h t -> 1 <= cnt nd t -> height t + 2 <= fuel ->
  exists h' t' a b k, TreeDelete fuel nd h = Some (tt, h') /\ tinv h' t' /\
    inorder t = a ++ (k, nd) :: b /\ inorder t' = a ++ b /\
    (exists n, h' nd = Some n) /\
    (forall q, cnt q t = 0 -> q <> ROOT -> q <> EMPTY -> h' q = h q).
Proof.
  intros HI Hin Hf. pose proof HI as [Hz (ep & He) Hr Hb Hm Hs].
  destruct (find_node _ _ Hin) as (c & cx & l & k & r & ->).
  assert (repz h c (T cx l nd k r)) as Hzc.
  { rewrite <- (app_nil_r c). apply repz_plug. exact Hz. }
  pose proof (rz_t _ _ _ Hzc) as (Hnd & Hl & Hrr).
  pose proof (height_plug c (T cx l nd k r)) as Hh. cbn [height] in Hh.
  pose proof (rz_u _ _ _ Hzc) as HU.
  pose proof (repz_nodup _ _ Hz) as Hnodup.
  assert (inorder (plug c (T cx l nd k r)) = (pre c ++ inorder l) ++ (k, nd) :: (inorder r ++ post c)) as HI0.
  { rewrite inorder_plug. cbn [inorder]. rewrite <- !app_assoc. reflexivity. }
  unfold TreeDelete.
  rewrite (ld_bind _ _ _ _ _ Hnd). cbn [left].
  rewrite (ld_bind _ _ _ _ _ Hnd). cbn [right].
  assert (forall t0, (forall q, res q + cnt q t0 <= 1) -> Nat.eqb (rid t0) EMPTY = match t0 with E => true | _ => false end) as HrE.
  { intros t0 HU0. destruct t0 as [|c0 l0 x0 k0 r0]; [reflexivity|]. apply eqb_neq_f. cbn. intros ->.
    uq HU0 EMPTY. lia. }
  assert (forall q, res q + cnt q l <= 1) as HUl by (intros q; pose proof (HU q) as HQ; cbn in HQ; lia).
  assert (forall q, res q + cnt q r <= 1) as HUr by (intros q; pose proof (HU q) as HQ; cbn in HQ; lia).
  rewrite (HrE l HUl), (HrE r HUr).
  assert ((l = E \/ r = E) \/ (l <> E /\ r <> E)) as [Hcase|(Hl0 & Hr0)].
  { destruct l; [auto|]. destruct r; [auto|]. right; split; congruence. }
  - (* at most one child: y = nd *)
    assert ((match l with E => true | _ => false end) || (match r with E => true | _ => false end) = true) as ->.
    { destruct Hcase as [-> | ->]; [reflexivity|destruct l; reflexivity]. }
    erewrite bind_ok by reflexivity.
    rewrite (ld_bind _ _ _ _ _ Hnd). cbn [left]. rewrite (HrE l HUl).
    set (u := match l with E => r | _ => l end).
    assert ((if match l with E => true | _ => false end then ld right nd else ret (rid l)) h = Some (rid u, h)) as Ex.
    { destruct l; [|reflexivity]. rewrite (ld_ok _ _ _ _ Hnd). reflexivity. }
    rewrite (bind_ok _ _ _ _ _ Ex). clear Ex.
    assert (l = E /\ u = r \/ r = E /\ u = l) as Hu.
    { unfold u. destruct l; [auto|]. right. split; auto. destruct Hcase; [discriminate|auto]. }
    match goal with |- context [bind (ld colour nd) ?kk] =>
      destruct (detach_ok h ep c cx nd k u l r (fun _ => bind (ld colour nd) kk) Hzc He Hu)
        as (h1 & ep1 & E1 & R1 & He1 & Hep1 & Hy1 & F1); rewrite E1; clear E1 end.
    rewrite Hnd in Hy1. rewrite (ld_bind _ _ _ _ _ Hy1). cbn [colour].
    destruct (unlink_repair h1 ep1 fuel c cx l nd k r u R1 He1 Hep1 Hu Hr Hb Hm) as (h2 & t2 & E2 & R2 & S2 & I2 & Hr2 & Hb2 & Hm2).
    { lia. }
    rewrite (bind_ok _ _ _ _ _ E2). rewrite Nat.eqb_refl. cbn [negb].
    exists h2, t2, (pre c ++ inorder l), (inorder r ++ post c), k.
    split; [reflexivity|].
    assert (inorder t2 = (pre c ++ inorder l) ++ inorder r ++ post c) as I2'.
    { rewrite I2, inorder_plug. destruct Hu as [[-> ->]|[-> ->]]; cbn; rewrite <- ?app_assoc; reflexivity. }
    split.
    { eapply tinv_intro; eauto.
      - eapply emp_same; [|exact S2|exact He1]. intros q; apply R1.
      - rewrite I2'. eapply sorted_del. rewrite <- HI0. exact Hs. }
    split; [exact HI0|]. split; [exact I2'|]. split.
    + exists (mk (cpar c) (rid l) (rid r) cx k). rewrite S2; auto.
      * pose proof (HU nd) as HQ. destruct Hu as [[-> ->]|[-> ->]]; cbn in HQ; rewrite one_refl in HQ; lia.
      * pose proof (HU nd) as HQ. cbn in HQ. rewrite one_refl in HQ. apply res_neq; [lia|unfold ROOT; lia].
    + intros q Q1 Q2 Q3. rewrite cnt_plug in Q1. cbn in Q1. rewrite S2, F1; auto; destruct Hu as [[-> ->]|[-> ->]]; lia.
  - (* two children: y is the leftmost node of the right subtree *)
    assert ((match l with E => true | _ => false end) || (match r with E => true | _ => false end) = false) as ->.
    { destruct l; [congruence|]. destruct r; [congruence|reflexivity]. }
    destruct r as [|cr rl rx rk rrt] eqn:Er; [congruence|]. rewrite <- Er in *.
    assert (repz h (F false cx nd k l :: c) r) as Hzr by (now apply down_r).
    destruct (leftmost_ok h r (F false cx nd k l :: c) fuel _ _ _ _ _ Er Hzr) as (c2 & cy & y & ky & yr & EL & PL & QL).
    { lia. }
    assert (successor fuel nd h = Some (y, h)) as Esucc.
    { unfold successor. rewrite (ld_bind _ _ _ _ _ Hnd). cbn [right]. assert (Nat.eqb (rid r) EMPTY = false) as -> by (rewrite (HrE r HUr), Er; reflexivity). cbn [negb].
      replace (rid r) with rx by (now rewrite Er). exact EL. }
    rewrite (bind_ok _ _ _ _ _ Esucc).
    set (cc := c2 ++ F false cx nd k l :: c).
    assert (plug cc (T cy E y ky yr) = plug c (T cx l nd k r)) as Hpp.
    { unfold cc. rewrite plug_app, <- PL. reflexivity. }
    assert (repz h cc (T cy E y ky yr)) as Hzy.
    { unfold cc. apply repz_plug. rewrite <- PL. exact Hzr. }
    pose proof (rz_t _ _ _ Hzy) as (Hy & _ & Hyr).
    rewrite (ld_bind _ _ _ _ _ Hy). cbn [left rid]. rewrite Nat.eqb_refl.
    rewrite (ld_bind _ _ _ _ _ Hy). cbn [right].
    match goal with |- context [bind (ld colour y) ?kk] =>
      destruct (detach_ok h ep cc cy y ky yr E yr (fun _ => bind (ld colour y) kk) Hzy He (or_introl (conj eq_refl eq_refl)))
        as (h1 & ep1 & E1 & R1 & He1 & Hep1 & Hy1 & F1); rewrite E1; clear E1 end.
    rewrite Hy in Hy1. rewrite (ld_bind _ _ _ _ _ Hy1). cbn [colour].
    destruct (unlink_repair h1 ep1 fuel cc cy E y ky yr yr R1 He1 Hep1 (or_introl (conj eq_refl eq_refl)))
      as (h2 & t2 & E2 & R2 & S2 & I2 & Hr2 & Hb2 & Hm2).
    { now rewrite Hpp. } { now rewrite Hpp. } { now rewrite Hpp. }
    { pose proof (height_plug cc (T cy E y ky yr)) as H1. rewrite Hpp in H1. cbn [height] in H1. lia. }
    rewrite (bind_ok _ _ _ _ _ E2).
    assert (forall q, cntc q cc + cnt q (T cy E y ky yr) = cntc q c + cnt q (T cx l nd k r)) as Hcc.
    { intros q. rewrite <- !cnt_plug. now rewrite Hpp. }
    assert (y <> nd) as Nyn.
    { intros ->. pose proof (rz_u _ _ _ Hzy nd) as HQ. rewrite <- Nat.add_assoc, Hcc in HQ.
      assert (1 <= cnt nd r) as H1.
      { rewrite PL, cnt_plug. cbn. rewrite one_refl. lia. }
      cbn in HQ. rewrite one_refl in HQ. lia. }
    rewrite (eqb_neq_f _ _ Nyn). cbn [negb].
    assert (res y = 0 /\ cntc y cc + cnt y yr = 0) as (Hy0 & Hyc).
    { pose proof (rz_u _ _ _ Hzy y) as HQ. cbn in HQ. rewrite one_refl in HQ. lia. }
    assert (h2 y = h1 y) as H2y.
    { apply S2; auto. apply res_neq; [auto|unfold ROOT; lia]. }
    rewrite Hy1 in H2y.
    (* find nd again *)
    assert (inorder r = (ky, y) :: inorder yr ++ post c2) as Ir.
    { rewrite PL, inorder_plug, QL. reflexivity. }
    assert (inorder t2 = (pre c ++ inorder l) ++ (k, nd) :: (inorder yr ++ post c2) ++ post c) as I2'.
    { rewrite I2. unfold cc. rewrite plug_app. cbn [plug up]. rewrite inorder_plug. cbn [inorder].
      rewrite (inorder_plug c2 yr), QL. cbn [app]. repeat (rewrite <- ?app_assoc; cbn [app]); reflexivity. }
    assert (1 <= cnt nd t2) as Hin2.
    { rewrite cnt_ids, I2', ids_app, count_occ_app. cbn [ids map snd count_occ].
      destruct (Nat.eq_dec nd nd); [lia|congruence]. }
    destruct (find_node _ _ Hin2) as (c3 & cx3 & l3 & k3 & r3 & ->).
    assert (repz h2 c3 (T cx3 l3 nd k3 r3)) as Hz3.
    { rewrite <- (app_nil_r c3). apply repz_plug. exact R2. }
    assert (forall q, cntc q c3 + cnt q (T cx3 l3 nd k3 r3) = cntc q cc + cnt q yr) as Hc3.
    { intros q. rewrite <- !cnt_plug. apply cnt_inorder_eq. exact I2. }
    assert (emp h2 ep1) as He2.
    { eapply emp_same; [|exact S2|exact He1]. intros q; apply R1. }
    destruct (transplant_ok h2 ep1 c3 cx3 l3 nd k3 r3 y _ Hz3 He2 H2y Hy0) as (h3 & ep3 & E3 & R3 & He3 & H3nd & F3).
    { rewrite Hc3. exact Hyc. }
    cbn [key] in R3.
    pose proof (inorder_plug c3 (T cx3 l3 nd k3 r3)) as I3. cbn [inorder] in I3.
    rewrite <- app_assoc in I3. cbn [app] in I3.
    rewrite app_assoc in I3.
    rewrite I3 in I2'. 
    destruct (nodup_split (pre c3 ++ inorder l3) (pre c ++ inorder l) (inorder r3 ++ post c3) ((inorder yr ++ post c2) ++ post c) (k3, nd) (k, nd)) as (A1 & A2 & A3).
    { rewrite <- I3. apply repz_nodup with (h := h2). exact R2. }
    { exact I2'. }
    { reflexivity. }
    exists h3, (plug c3 (T cx3 l3 y ky r3)), (pre c ++ inorder l), (inorder r ++ post c), k.
    split; [exact E3|].
    assert (inorder (plug c3 (T cx3 l3 y ky r3)) = (pre c ++ inorder l) ++ inorder r ++ post c) as I4.
    { rewrite inorder_plug. cbn [inorder]. rewrite <- app_assoc. cbn [app]. rewrite app_assoc, A1, A3, Ir. reflexivity. }
    split.
    { destruct Hm2 as (m2 & Hm2). destruct (bh_unplug _ _ _ Hm2) as (n2 & Hn2 & Hbc2).
      destruct (rr_unplug _ _ Hr2 Hb2) as (Hr3 & Hrc3).
      destruct (rr_plug c3 (T cx3 l3 y ky r3)) as (Hr4 & Hb4).
      { exact Hr3. } { destruct cx3; exact Hrc3. }
      eapply tinv_intro; eauto.
      - rewrite <- repz_plug, app_nil_r. exact R3.
      - eapply bh_plug; [|exact Hbc2]. destruct cx3; exact Hn2.
      - rewrite I4. eapply sorted_del. rewrite <- HI0. exact Hs. }
    split; [exact HI0|]. split; [exact I4|]. split.
    + exists (mk (cpar c3) (rid l3) (rid r3) cx3 k3).
      rewrite H3nd. apply (rz_t _ _ _ Hz3).
    + intros q Q1 Q2 Q3. rewrite cnt_plug, <- Hcc in Q1. cbn in Q1.
      assert (q <> y) as Q4.
      { intros ->. rewrite one_refl in Q1. lia. }
      rewrite F3; auto.
      * rewrite S2, F1; auto; lia.
      * rewrite Hc3. lia.
Qed.
