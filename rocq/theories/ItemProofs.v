(* Proofs about ItemModel *)
From Verif Require Import ItemModel.

Lemma drop_self p n l : ~ In p (map fst l) -> drop ((p, n) :: l) p = l.
Proof.
  intros H. unfold drop. cbn [filter fst]. rewrite Nat.eqb_refl. cbn [negb].
  induction l as [|(q, s) l IH]; [reflexivity|]. cbn [filter fst]. cbn [map fst In] in H.
  destruct (Nat.eqb_spec p q) as [->|N]; [exfalso; apply H; auto|]. cbn [negb]. f_equal. apply IH. tauto.
Qed.

(* memory of others, disjoint from the item's, all older than [fresh] *)
Definition apart (m0 : list (nat * Z)) (f : nat) : Prop := forall q, In q (map fst m0) -> q < f.
(* the item's invariant: it owns at most one block, the one its data points to *)
Inductive owned (m0 : list (nat * Z)) : mem -> item -> Prop :=
| owns_none f pt : apart m0 f -> owned m0 (mkMem f m0) (mkItem (mkData pt 0) None)
| owns_one f p n h : apart m0 f -> ~ In p (map fst m0) -> p < f -> (0 < n < 2 ^ 32)%Z -> (h = None \/ h = Some p) ->
    owned m0 (mkMem f ((p, n) :: m0)) (mkItem (mkData (Some p) n) h).

Definition fine (o : iop) : Prop :=
  match o with
  | IGet (Try bytes memOk readOk) => (0 < bytes < 2 ^ 32)%Z /\ readOk = true
  | _ => True
  end.

Lemma istep_fine m0 o m it : owned m0 m it -> fine o -> exists m' it', istep o (m, it) = Some (m', it') /\ owned m0 m' it'.
Proof.
  intros Ho Hf. destruct o as [[|bytes memOk readOk]|].
  - cbn. inversion Ho; subst; do 2 eexists; (split; [reflexivity|]); [now constructor|]. constructor; auto.
  - destruct Hf as (Hb & ->). cbn [istep getFile fst snd].
    inversion Ho as [f pt Ha|f p n h Ha Hp Hpf Hn Hh]; subst; unfold DataMalloc; cbn [idata allocated ptr].
    + cbn [Z.ltb Z.compare andb allocated Z.eqb]. destruct memOk.
      * cbn [fresh live]. unfold write. cbn [live sizeOf]. rewrite Nat.eqb_refl.
        destruct (Z.leb_spec bytes bytes); [|lia]. do 2 eexists. split; [reflexivity|].
        rewrite Z.mod_small by lia. constructor; auto; try lia.
        -- intros q Hq. apply Ha in Hq. lia.
        -- intros Hq. apply Ha in Hq. lia.
      * do 2 eexists. split; [reflexivity|]. now constructor.
    + destruct (Z.ltb_spec 0 n); [|lia]. cbn [andb]. destruct (Z.ltb_spec n bytes).
      * unfold free. cbn [live sizeOf fresh]. rewrite Nat.eqb_refl, drop_self by auto. cbn [allocated Z.eqb].
        destruct memOk.
        -- cbn [fresh live]. unfold write. cbn [live sizeOf]. rewrite Nat.eqb_refl. destruct (Z.leb_spec bytes bytes); [|lia].
           do 2 eexists. split; [reflexivity|]. rewrite Z.mod_small by lia. constructor; auto; try lia.
           ++ intros q Hq. apply Ha in Hq. lia.
           ++ intros Hq. apply Ha in Hq. lia.
        -- do 2 eexists. split; [reflexivity|]. now constructor.
      * cbn [allocated]. destruct (Z.eqb_spec n 0); [lia|]. unfold write. cbn [live sizeOf]. rewrite Nat.eqb_refl.
        destruct (Z.leb_spec bytes n); [|lia]. do 2 eexists. split; [reflexivity|]. constructor; auto.
  - cbn. unfold releaseFile. inversion Ho as [f pt Ha|f p n h Ha Hp Hpf Hn Hh]; subst; cbn [ihandle].
    + do 2 eexists. split; [reflexivity|]. now constructor.
    + destruct Hh as [-> | ->].
      * do 2 eexists. split; [reflexivity|]. constructor; auto.
      * unfold free. cbn [live sizeOf fresh]. rewrite Nat.eqb_refl, drop_self by auto.
        do 2 eexists. split; [reflexivity|]. now constructor.
Qed.

Lemma irun_fine m0 os : forall m it, owned m0 m it -> (forall o, In o os -> fine o) ->
  exists m' it', irun os (m, it) = Some (m', it') /\ owned m0 m' it'.
Proof.
  induction os as [|o os IH]; intros m it Ho Hf; cbn [irun]; [eauto|].
  destruct (istep_fine m0 o m it Ho (Hf o (or_introl eq_refl))) as (m1 & it1 & -> & H1).
  apply IH; auto. intros o' Hi. apply Hf. now right.
Qed.
Lemma irun_app os1 os2 : forall s, irun (os1 ++ os2) s = match irun os1 s with Some s' => irun os2 s' | None => None end.
Proof. induction os1 as [|o os1 IH]; intros s; cbn [irun app]; auto. destruct (istep o s); auto. Qed.
