From Verif Require Export OverridesModel OverridesSpec PseudoProofs EvidenceProofs.

Definition itemIs (x : OverrideValue) (e : Z * list Z) : Prop :=
  ovIndex x = fst e /\ exists m, ovString x = Some m /\ stringIs m (snd e).
(* the values in use are those of c *)
Definition holds (vs : OverrideValues) (c : list (Z * list Z)) : Prop :=
  vCount vs <= length (vItems vs) /\ Forall2 itemIs (firstn (vCount vs) (vItems vs)) c.
Fixpoint upd (c : list (Z * list Z)) (i : Z) (v : list Z) : list (Z * list Z) :=
  match c with
  | [] => [(i, v)]
  | (j, w) :: r => if Z.eqb j i then (j, v) :: r else (j, w) :: upd r i v
  end.

Lemma forall2_length {A B} (P : A -> B -> Prop) l m : Forall2 P l m -> length l = length m.
Proof. induction 1; cbn; lia. Qed.
Lemma setOverride_length l i x : i < length l -> length (setOverride l i x) = length l.
Proof. intros H. unfold setOverride. rewrite app_length, firstn_length. cbn [length]. rewrite skipn_length. lia. Qed.

Lemma stored (data : option (list Z)) v : exists m,
  (match write (DataMalloc data (sizeofString + length v)) 2 (v ++ [0%Z]) with
   | None => None | Some c => write c 0 (int16Bytes (length v + 1)) end) = Some m /\ stringIs m v.
Proof.
  assert (L : sizeofString + length v <= length (DataMalloc data (sizeofString + length v))).
  { unfold DataMalloc. destruct data as [m|]; [|rewrite repeat_length; lia].
    destruct (Nat.ltb_spec (length m) (sizeofString + length v)); [rewrite repeat_length|]; lia. }
  set (d := DataMalloc data (sizeofString + length v)) in *. unfold sizeofString in L.
  destruct d as [|x [|y rest]]; cbn [length] in L; [lia|lia|].
  change (x :: y :: rest) with ([x; y] ++ rest). pose proof (write_app [x; y] (v ++ [0%Z]) rest) as W. cbn [length] in W. rewrite W.
  2:{ rewrite app_length. cbn. lia. }
  set (r := skipn (length (v ++ [0%Z])) rest).
  pose proof (write_app [] (int16Bytes (length v + 1)) ([x; y] ++ (v ++ [0%Z]) ++ r)) as W2. cbn [app length] in W2. cbn [app]. rewrite W2 by (cbn; lia).
  eexists. split; [reflexivity|]. exists r. cbn. do 2 f_equal. now rewrite <- app_assoc.
Qed.

Lemma find_upd (l : list OverrideValue) c i v x' : Forall2 itemIs l c -> itemIs x' (i, v) ->
  (findOverride l i = length l /\ (forall e, In e c -> fst e <> i) /\ upd c i v = c ++ [(i, v)]) \/
  (findOverride l i < length l /\ (exists e, In e c /\ fst e = i) /\
   exists x, nth_error l (findOverride l i) = Some x /\ ovIndex x = i /\
   Forall2 itemIs (setOverride l (findOverride l i) x') (upd c i v)).
Proof.
  intros H Hx. induction H as [|x (j, w) l c (E1 & E2) H IH].
  - left. cbn. repeat split. intros e [].
  - cbn [findOverride upd fst] in *. rewrite E1. destruct (Z.eqb_spec j i) as [->|N].
    + right. cbn [length]. split; [lia|]. split; [exists (i, w); split; [left; reflexivity|reflexivity]|]. exists x. split; [reflexivity|].
      split; [exact E1|]. cbn. constructor; [exact Hx|exact H].
    + destruct IH as [(I1 & I2 & I3)|(I1 & (e & I2 & I2') & y & I3 & I3' & I4)].
      * left. cbn [length]. split; [lia|]. split; [intros e [<-|He]; [exact N|now apply I2]|]. cbn. now rewrite I3.
      * right. cbn [length]. split; [lia|]. split; [exists e; split; [right; exact I2|exact I2']|]. exists y. split; [exact I3|].
        split; [exact I3'|]. unfold setOverride in *. cbn. constructor; [split; assumption|exact I4].
Qed.

Lemma upd_length c i v : length (upd c i v) <= S (length c).
Proof. induction c as [|(j, w) c IH]; cbn; [lia|]. destruct (Z.eqb j i); cbn; lia. Qed.
Lemma add_effect vs c i v : holds vs c ->
  exists vs', OverridesAdd vs i v = Some (vs', Nat.ltb (vCount vs') (length (vItems vs'))) /\ length (vItems vs') = length (vItems vs) /\
    if (Z.leb 0 i && Nat.ltb (vCount vs) (length (vItems vs)))%bool then holds vs' (upd c i v) else vs' = vs.
Proof.
  intros (Hc & Hf). unfold OverridesAdd. destruct (Z.leb 0 i && Nat.ltb (vCount vs) (length (vItems vs)))%bool eqn:B.
  2:{ exists vs. repeat split. }
  apply andb_true_iff in B. destruct B as (_ & B). apply Nat.ltb_lt in B.
  set (used := firstn (vCount vs) (vItems vs)) in *. assert (Lu : length used = vCount vs) by (subst used; rewrite firstn_length; lia).
  set (cur := findOverride used i).
  assert (Split : vItems vs = used ++ skipn (vCount vs) (vItems vs)) by (subst used; symmetry; apply firstn_skipn).
  destruct (find_upd used c i v (mkOverride i (Some (match (match write (DataMalloc (match nth_error (vItems vs) cur with Some o => ovString o | None => None end) (sizeofString + length v)) 2 (v ++ [0%Z]) with
     | None => None | Some c => write c 0 (int16Bytes (length v + 1)) end) with Some m => m | None => [] end)))) as [(F1 & F2 & F3)|(F1 & F2 & x & F3 & F4 & F5)]; [exact Hf| | |].
  - split; [reflexivity|]. destruct (stored (match nth_error (vItems vs) cur with Some o => ovString o | None => None end) v) as (m & M1 & M2).
    rewrite M1. exists m. split; [reflexivity|exact M2].
  - (* a new item *)
    fold cur in F1. rewrite Lu in F1. cbn zeta. rewrite F1.
    destruct (nth_error (vItems vs) (vCount vs)) as [o|] eqn:N; [|apply nth_error_None in N; lia].
    rewrite Nat.eqb_refl. destruct (stored (ovString o) v) as (m & M1 & M2).
    destruct (write (DataMalloc (ovString o) (sizeofString + length v)) 2 (v ++ [0%Z])) as [c1|]; [|discriminate M1].
    rewrite M1. match goal with |- exists _, Some (?a, _) = _ /\ _ => exists a end. cbn [vCount vItems]. rewrite setOverride_length by lia. split; [reflexivity|]. split; [reflexivity|].
    split; cbn [vCount vItems]; [rewrite setOverride_length; lia|].
    unfold setOverride. rewrite firstn_app, firstn_firstn, firstn_length, Nat.min_r by lia.
    replace (S (vCount vs) - Nat.min (vCount vs) (length (vItems vs))) with 1 by lia. cbn [firstn]. rewrite F3.
    apply Forall2_app; [exact Hf|]. constructor; [|constructor]. split; [reflexivity|]. exists m. split; [reflexivity|exact M2].
  - (* an update *)
    fold cur in F1, F3, F5. rewrite Lu in F1. cbn zeta.
    assert (N : nth_error (vItems vs) cur = Some x).
    { rewrite Split, nth_error_app1 by lia. exact F3. }
    rewrite N in F5 |- *. destruct (Nat.eqb_spec cur (vCount vs)) as [Q|_]; [lia|].
    destruct (stored (ovString x) v) as (m & M1 & M2). rewrite M1 in F5.
    destruct (write (DataMalloc (ovString x) (sizeofString + length v)) 2 (v ++ [0%Z])) as [c1|]; [|discriminate M1].
    rewrite M1. match goal with |- exists _, Some (?a, _) = _ /\ _ => exists a end. cbn [vCount vItems]. rewrite setOverride_length by lia. split; [reflexivity|]. split; [reflexivity|].
    split; cbn [vCount vItems]; [rewrite setOverride_length; lia|]. rewrite F4.
    assert (E : firstn (vCount vs) (setOverride (vItems vs) cur (mkOverride i (Some m))) = setOverride used cur (mkOverride i (Some m))).
    { rewrite Split. unfold setOverride. rewrite firstn_app. rewrite (firstn_app cur). replace (cur - length used) with 0 by lia. cbn [firstn]. rewrite app_nil_r.
      rewrite firstn_firstn, Nat.min_r by lia. f_equal. rewrite firstn_length, Nat.min_l by lia.
      replace (vCount vs - cur) with (S (vCount vs - S cur)) by lia. cbn [firstn]. f_equal.
      rewrite skipn_app. rewrite firstn_app. rewrite skipn_length. replace (vCount vs - S cur - (length used - S cur)) with 0 by lia. cbn [firstn]. rewrite app_nil_r.
      apply firstn_all2. rewrite skipn_length. lia. }
    rewrite E. exact F5.
Qed.
Lemma reset_holds vs : holds (OverrideValuesReset vs) [] /\ length (vItems (OverrideValuesReset vs)) = length (vItems vs).
Proof. unfold OverrideValuesReset. cbn. rewrite map_length. repeat split; cbn; try lia. constructor. Qed.

(* the keys *)
Lemma upd_in c i v e : In e (upd c i v) -> e = (i, v) \/ (In e c /\ fst e <> i) \/ (exists w, e = (i, w)).
Proof.
  induction c as [|(j, w) c IH]; cbn; [intros [<-|[]]; auto|]. destruct (Z.eqb_spec j i) as [->|N]; cbn.
  - intros [<-|H]; [auto|]. destruct e as (j, u). destruct (Z.eq_dec j i) as [->|N]; [eauto|]. right. left. split; [right; exact H|exact N].
  - intros [<-|H]; [right; left; split; [left; reflexivity|exact N]|]. destruct (IH H) as [A|[(A & B)|A]]; auto.
Qed.
Lemma upd_keys c i v j : In j (map fst (upd c i v)) <-> j = i \/ In j (map fst c).
Proof.
  induction c as [|(k, w) c IH]; cbn; [intuition|]. destruct (Z.eqb_spec k i) as [->|N]; cbn; [intuition|]. rewrite IH. intuition.
Qed.
Lemma upd_nodup c i v : NoDup (map fst c) -> NoDup (map fst (upd c i v)).
Proof.
  induction c as [|(k, w) c IH]; cbn; intros H; [constructor; auto; constructor|].
  inversion H as [|? ? H1 H2]; subst. destruct (Z.eqb_spec k i) as [->|N]; cbn; [constructor; auto|].
  constructor; [|apply IH, H2]. rewrite upd_keys. intros [E|E]; [congruence|contradiction].
Qed.
Lemma upd_assoc c i v : NoDup (map fst c) -> forall j w, In (j, w) (upd c i v) <-> (j = i /\ w = v) \/ (j <> i /\ In (j, w) c).
Proof.
  intros H j w. split.
  - intros I. pose proof (upd_nodup c i v H) as D. assert (Iv : In (i, v) (upd c i v)).
    { clear. induction c as [|(k, u) c IH]; cbn; [auto|]. destruct (Z.eqb_spec k i) as [->|N]; cbn; auto. }
    destruct (upd_in _ _ _ _ I) as [E|[(A & B)|(u & E)]].
    + injection E as -> ->. auto.
    + right. split; [exact B|exact A].
    + injection E as -> ->. left. split; [reflexivity|].
      clear -D I Iv. induction (upd c i v) as [|(k, x) l IH]; [destruct I|]. cbn in D. inversion D as [|? ? D1 D2]; subst.
      destruct I as [E|I], Iv as [E'|I'].
      * congruence.
      * injection E as -> ->. exfalso. apply D1. apply in_map_iff. exists (i, v). auto.
      * injection E' as -> ->. exfalso. apply D1. apply in_map_iff. exists (i, u). auto.
      * now apply IH.
  - intros [(-> & ->)|(N & I)].
    + clear. induction c as [|(k, u) c IH]; cbn; [auto|]. destruct (Z.eqb_spec k i) as [->|N]; cbn; auto.
    + clear -N I. induction c as [|(k, u) c IH]; cbn; [destruct I|]. destruct (Z.eqb_spec k i) as [->|M].
      * destruct I as [E|I]; [injection E; intros; subst; congruence|]. right. exact I.
      * destruct I as [E|I]; [left; exact E|right; apply IH, I].
Qed.
Lemma getFirst_in l c : Forall2 itemIs l c -> NoDup (map fst c) -> forall i v,
  In (i, v) c -> exists m, getFirst l i = Some m /\ stringIs m v.
Proof.
  induction 1 as [|x (j, w) l c (E1 & m & E2 & E3) H IH]; cbn [map fst snd]; intros D i v I; [destruct I|].
  cbn [fst snd] in *. inversion D as [|? ? D1 D2]; subst. cbn [getFirst]. destruct (Z.eqb_spec (ovIndex x) i) as [Q|N].
  - destruct I as [E|I]; [injection E as _ ->; eauto|]. exfalso. apply D1. rewrite Q. apply in_map_iff. exists (i, v). auto.
  - destruct I as [E|I]; [injection E as E _; congruence|]. now apply IH.
Qed.
Lemma getFirst_none l c : Forall2 itemIs l c -> forall i, (forall v, ~ In (i, v) c) -> getFirst l i = None.
Proof.
  induction 1 as [|x (j, w) l c (E1 & _) H IH]; intros i N; [reflexivity|]. cbn [getFirst]. cbn in E1. destruct (Z.eqb_spec (ovIndex x) i) as [Q|Q].
  - exfalso. apply (N w). left. congruence.
  - apply IH. intros v Hv. apply (N v). right. exact Hv.
Qed.
Lemma has_in l c : Forall2 itemIs l c -> forall i, existsb (fun x => Z.eqb (ovIndex x) i) l = true <-> exists v, In (i, v) c.
Proof.
  intros H i. rewrite existsb_exists. induction H as [|x (j, w) l c (E1 & _) H IH].
  - split; [intros (x & [] & _)|intros (v & [])].
  - cbn in E1. split.
    + intros (y & [<-|Hy] & Q).
      * apply Z.eqb_eq in Q. exists w. left. congruence.
      * destruct (proj1 IH) as (v & V); [eauto|]. exists v. right. exact V.
    + intros (v & [E|V]).
      * injection E as -> ->. exists x. split; [left; reflexivity|apply Z.eqb_eq, E1].
      * destruct (proj2 IH) as (y & Y1 & Y2); [eauto|]. exists y. split; [right; exact Y1|exact Y2].
Qed.

(* histories *)
Fixpoint runOps (vs : OverrideValues) (ops : list op) : option OverrideValues :=
  match ops with
  | [] => Some vs
  | Put i v :: rest => match OverridesAdd vs i v with Some (vs', _) => runOps vs' rest | None => None end
  | Clear :: rest => runOps (OverrideValuesReset vs) rest
  end.
Lemma lastAdd_add ops i v j w : lastAdd (ops ++ [Put i v]) j w <-> (j = i /\ w = v) \/ (j <> i /\ lastAdd ops j w).
Proof.
  split.
  - intros (b & a & E & NR & NA). destruct (list_eq_dec (fun x y : op => ltac:(decide equality; [apply (list_eq_dec Z.eq_dec)|apply Z.eq_dec])) a []) as [->|N].
    + apply app_inj_tail in E. destruct E as (_ & E). injection E as -> ->. auto.
    + destruct (exists_last N) as (a' & y & ->). rewrite app_comm_cons, app_assoc in E. apply app_inj_tail in E. destruct E as (-> & <-).
      right. split.
      * intros ->. apply (NA v). apply in_or_app. right. left. reflexivity.
      * exists b, a'. repeat split; [intros H; apply NR, in_or_app; now left|intros u H; apply (NA u), in_or_app; now left].
  - intros [(-> & ->)|(N & b & a & -> & NR & NA)].
    + exists ops, []. repeat split; auto.
    + exists b, (a ++ [Put i v]). split; [now rewrite <- app_assoc|]. split.
      * intros H. apply in_app_or in H. destruct H as [H|[H|[]]]; [now apply NR|discriminate H].
      * intros u H. apply in_app_or in H. destruct H as [H|[H|[]]]; [now apply (NA u)|]. injection H as -> _. congruence.
Qed.
Lemma lastAdd_reset ops j w : ~ lastAdd (ops ++ [Clear]) j w.
Proof.
  intros (b & a & E & NR & NA). destruct a as [|y a].
  - apply app_inj_tail in E. destruct E as (_ & E). discriminate E.
  - destruct (@exists_last _ (y :: a)) as (a' & z & Q); [discriminate|]. rewrite Q in E, NR. rewrite app_comm_cons, app_assoc in E. apply app_inj_tail in E.
    destruct E as (_ & <-). apply NR. apply in_or_app. right. left. reflexivity.
Qed.
(* all histories keep the values distinct and within the capacity *)
Definition distinct (cap : nat) (vs : OverrideValues) : Prop :=
  exists c, holds vs c /\ NoDup (map fst c) /\ length (vItems vs) = cap.
Lemma add_distinct cap vs i v : distinct cap vs -> exists vs' b, OverridesAdd vs i v = Some (vs', b) /\ distinct cap vs'.
Proof.
  intros (c & H & D & L). destruct (add_effect vs c i v H) as (vs' & A & B & C). exists vs'. eexists. split; [exact A|].
  destruct (Z.leb 0 i && Nat.ltb (vCount vs) (length (vItems vs)))%bool.
  - exists (upd c i v). split; [exact C|]. split; [now apply upd_nodup|lia].
  - subst vs'. exists c. auto.
Qed.
Lemma create_distinct cap : distinct cap (OverrideValuesCreate cap).
Proof. exists []. cbn. rewrite repeat_length. repeat split; cbn; try lia; constructor. Qed.
Lemma reset_distinct cap vs : distinct cap vs -> distinct cap (OverrideValuesReset vs).
Proof. intros (c & H & D & L). exists []. destruct (reset_holds vs) as (R1 & R2). split; [exact R1|]. split; [constructor|lia]. Qed.
Lemma run_distinct cap ops : forall vs, distinct cap vs -> exists vs', runOps vs ops = Some vs' /\ distinct cap vs'.
Proof.
  induction ops as [|[i v|] ops IH]; intros vs H; cbn [runOps].
  - eauto.
  - destruct (add_distinct cap vs i v H) as (vs' & b & A & B). rewrite A. now apply IH.
  - apply IH. now apply reset_distinct.
Qed.

Definition knows (cap : nat) (ops : list op) (vs : OverrideValues) : Prop :=
  exists c, holds vs c /\ NoDup (map fst c) /\ length (vItems vs) = cap /\ forall i v, In (i, v) c <-> (0 <= i)%Z /\ lastAdd ops i v.
Lemma run_knows cap todo : forall done vs, knows cap done vs -> roomy cap (done ++ todo) ->
  exists vs', runOps vs todo = Some vs' /\ knows cap (done ++ todo) vs'.
Proof.
  induction todo as [|o todo IH]; intros done vs K R; [exists vs; rewrite app_nil_r; auto|].
  destruct K as (c & H & D & L & M). replace (done ++ o :: todo) with ((done ++ [o]) ++ todo) in * by (rewrite <- app_assoc; reflexivity).
  destruct o as [i v|]; cbn [runOps].
  - destruct (add_effect vs c i v H) as (vs' & A & B & C). rewrite A. apply IH; [|exact R].
    destruct (Z.leb_spec 0 i) as [I|I]; cbn [andb] in C.
    + assert (LC : length c < cap).
      { rewrite <- (map_length fst). eapply (R done i v todo); [rewrite <- app_assoc; reflexivity|exact I|exact D|].
        intros j Hj. apply in_map_iff in Hj. destruct Hj as ((j', w) & <- & Hj). apply M in Hj. cbn. split; [apply Hj|]. exists w. apply Hj. }
      assert (Lv : vCount vs = length c) by (destruct H as (H1 & H2); apply forall2_length in H2; rewrite firstn_length in H2; lia).
      destruct (Nat.ltb_spec (vCount vs) (length (vItems vs))); [|lia].
      exists (upd c i v). split; [exact C|]. split; [now apply upd_nodup|]. split; [lia|]. intros j w. rewrite upd_assoc by exact D.
      rewrite lastAdd_add, M. destruct (Z.eq_dec j i) as [->|N]; intuition.
    + subst vs'. exists c. split; [exact H|]. split; [exact D|]. split; [exact L|]. intros j w. rewrite M, lastAdd_add. split.
      * intros (Q1 & Q2). split; [exact Q1|]. right. split; [lia|exact Q2].
      * intros (Q1 & [(-> & _)|(_ & Q2)]); [lia|auto].
  - apply IH; [|exact R]. destruct (reset_holds vs) as (R1 & R2). exists []. split; [exact R1|]. split; [constructor|]. split; [lia|].
    intros j w. split; [intros []|]. intros (_ & Q). exfalso. eapply lastAdd_reset; eauto.
Qed.
Lemma create_knows cap : knows cap [] (OverrideValuesCreate cap).
Proof.
  exists []. split; [split; cbn; [lia|constructor]|]. split; [constructor|]. split; [apply repeat_length|].
  intros i v. split; [intros []|]. intros (_ & b & a & E & _). destruct b; discriminate E.
Qed.

(* names *)
Lemma skip_meant b f : Forall (fun c => c <> 0%Z) f -> meant b f (skipPrefix b f).
Proof.
  intros Nz. destruct b; unfold skipPrefix; cbn [andb]; [|constructor].
  assert (Z4 : Forall (fun c => c <> 0%Z) OVERRIDE_PREFIX) by (repeat constructor; discriminate).
  destruct (Nat.ltb_spec 5 (length f)) as [L|L]; cbn [andb].
  - destruct (compareLength_some 4 (cstr f) (cstr OVERRIDE_PREFIX)) as (d & D & Hd); [unfold cstr; rewrite app_length; cbn; lia|cbn; lia|].
    rewrite D. assert (F : firstn 4 (cstr f) = firstn 4 f) by (unfold cstr; rewrite firstn_app; replace (4 - length f) with 0 by lia; cbn; apply app_nil_r).
    rewrite F in Hd. change (firstn 4 (cstr OVERRIDE_PREFIX)) with [53; 49; 68; 95]%Z in Hd.
    destruct (Z.eqb_spec d 0) as [E|E].
    + rewrite <- (firstn_skipn 4 f) at 1. apply meant_prefixed; [now apply Hd|]. rewrite skipn_length. lia.
    + apply meant_other. intros p n -> S. exfalso. apply E, Hd. rewrite first_app; [exact S|]. now apply same_length in S.
  - apply meant_other. intros p n -> S. apply same_length in S. rewrite app_length in L. cbn in S. lia.
Qed.
Lemma meant_unique b f n n' : meant b f n -> meant b f n' -> n = n'.
Proof.
  assert (A : forall b f n, meant b f n -> (b = false /\ n = f) \/
    (b = true /\ ((exists p, f = p ++ n /\ sameText p [53; 49; 68; 95]%Z /\ 2 <= length n) \/
                 (n = f /\ forall p n, f = p ++ n -> sameText p [53; 49; 68; 95]%Z -> length n < 2)))).
  { intros b0 f0 n0 [g|p m S L|g N]; [left; auto| |]; right; split; auto. left. eauto. }
  intros H H'. apply A in H, H'. destruct H as [(E & ->)|(E & H)], H' as [(E' & ->)|(E' & H')]; try congruence.
  destruct H as [(p & F & S & L)|(-> & N)], H' as [(p' & F' & S' & L')|(-> & N')]; auto.
  - subst f. assert (p = p') as <-; [|now apply app_inv_head in F'].
    apply same_length in S, S'. cbn in S, S'. rewrite <- (first_app p n 4), <- (first_app p' n' 4) by auto. congruence.
  - specialize (N' p n F S). lia.
  - specialize (N p' n' F' S'). lia.
Qed.
Definition named (ps : OverrideProperties) (f : list Z) (i : Z) : Prop :=
  exists n before m after, meant (oPrefix ps) f n /\ oItems ps = before ++ (m, i) :: after /\ sameText m n /\
    forall e, In e before -> ~ sameText (fst e) n.
Lemma index_named l n i : (forall e, In e l -> (0 <= snd e)%Z) ->
  (indexOfName l n = i /\ (0 <= i)%Z <-> exists before m after, l = before ++ (m, i) :: after /\ sameText m n /\ forall e, In e before -> ~ sameText (fst e) n) /\
  ((0 <= indexOfName l n)%Z -> In (indexOfName l n) (map snd l)).
Proof.
  induction l as [|(m, k) l IH]; intros P; cbn [indexOfName].
  - split; [|lia]. split; [lia|]. intros (b & m & a & E & _). destruct b; discriminate E.
  - destruct IH as (I1 & I2); [intros e He; apply P; now right|]. destruct (Z.eqb_spec (StringCompare m n) 0) as [E|E].
    + apply compare_zero in E. split; [|intros _; left; reflexivity]. split.
      * intros (-> & _). exists [], m, l. repeat split; auto.
      * intros (b & m' & a & Q & S & N). destruct b as [|x b].
        -- injection Q as -> -> ->. split; [reflexivity|]. apply (P (m', i)). left. reflexivity.
        -- injection Q as <- ->. exfalso. apply (N (m, k)); [left; reflexivity|exact E].
    + split; [|intros H; right; apply I2, H]. rewrite I1. split.
      * intros (b & m' & a & -> & S & N). exists ((m, k) :: b), m', a. split; [reflexivity|]. split; [exact S|].
        intros e [<-|He]; [|now apply N]. intros S'. apply E, compare_zero, S'.
      * intros (b & m' & a & Q & S & N). destruct b as [|x b].
        -- injection Q as -> -> ->. exfalso. apply E, compare_zero, S.
        -- injection Q as <- ->. exists b, m', a. split; [reflexivity|]. split; [exact S|]. intros e He. apply N. now right.
Qed.
Definition goodProperties (ps : OverrideProperties) : Prop := forall e, In e (oItems ps) -> (0 <= snd e)%Z.
Lemma required_named ps f i : goodProperties ps -> Forall (fun c => c <> 0%Z) f ->
  getRequiredPropertyIndexFromName ps f = i /\ (0 <= i)%Z <-> named ps f i.
Proof.
  intros G Nz. unfold getRequiredPropertyIndexFromName, named. destruct (index_named (oItems ps) (skipPrefix (oPrefix ps) f) i G) as (I & _). rewrite I.
  pose proof (skip_meant (oPrefix ps) f Nz) as M. split.
  - intros (b & m & a & H). exists (skipPrefix (oPrefix ps) f), b, m, a. split; [exact M|exact H].
  - intros (n & b & m & a & H1 & H2). rewrite (meant_unique _ _ _ _ M H1). eauto.
Qed.

(* extraction from evidence *)
Definition opsOf (ps : OverrideProperties) (l : list Pair) : list op :=
  map (fun q => Put (getRequiredPropertyIndexFromName ps (field q)) (match parsedValue q with Some v => v | None => [] end)) l.
Definition within (ps : OverrideProperties) (vs : OverrideValues) (cap : nat) : Prop :=
  exists c, holds vs c /\ NoDup (map fst c) /\ length (vItems vs) = cap /\ incl (map fst c) (map snd (oItems ps)).
Lemma within_room ps vs cap : within ps vs cap -> length (oItems ps) < cap -> Nat.ltb (vCount vs) (length (vItems vs)) = true.
Proof.
  intros (c & (H1 & H2) & D & L & I) R. apply Nat.ltb_lt. apply forall2_length in H2. rewrite firstn_length in H2.
  pose proof (NoDup_incl_length D I) as N. rewrite !map_length in N. lia.
Qed.
Lemma within_add ps vs cap f v vs' b : goodProperties ps -> within ps vs cap ->
  OverridesAdd vs (getRequiredPropertyIndexFromName ps f) v = Some (vs', b) -> within ps vs' cap.
Proof.
  intros G (c & H & D & L & I) A. set (i := getRequiredPropertyIndexFromName ps f) in *.
  destruct (add_effect vs c i v H) as (vs1 & A1 & B & C). rewrite A1 in A. injection A as <- _.
  destruct (Z.leb_spec 0 i) as [P|P]; cbn [andb] in C.
  - destruct (Nat.ltb (vCount vs) (length (vItems vs))); [|subst vs1; exists c; auto].
    exists (upd c i v). split; [exact C|]. split; [now apply upd_nodup|]. split; [lia|]. intros j Hj. apply upd_keys in Hj. destruct Hj as [->|Hj]; [|now apply I].
    apply (index_named (oItems ps) (skipPrefix (oPrefix ps) f) i G). exact P.
  - subst vs1. exists c. auto.
Qed.
Lemma called_run ps cap l : goodProperties ps -> length (oItems ps) < cap -> Forall (fun q => parsedValue q <> None) l ->
  forall vs n st, within ps vs cap -> called (addOverrideToResults ps) l (Some vs) n st -> n = length l /\ st = runOps vs (opsOf ps l).
Proof.
  intros G R. induction 1 as [|q l Hq Hl IH]; intros vs n st W C; cbn [opsOf map runOps].
  - inversion C. auto.
  - destruct (parsedValue q) as [v|] eqn:E; [|congruence].
    assert (X : exists vs', OverridesAdd vs (getRequiredPropertyIndexFromName ps (field q)) v = Some (vs', true) /\ within ps vs' cap).
    { destruct W as (c & H & D & L & I). destruct (add_effect vs c (getRequiredPropertyIndexFromName ps (field q)) v H) as (vs1 & A1 & B & _).
      assert (W1 : within ps vs1 cap) by (eapply within_add; [exact G|exists c; eauto|exact A1]).
      rewrite (within_room ps vs1 cap W1 R) in A1. eauto. }
    destruct X as (vs' & A & W'). rewrite A.
    inversion C as [|x l0 s s' Q|x l0 s s' n' s'' Q C']; subst; unfold addOverrideToResults in Q; rewrite E, A in Q; [discriminate Q|].
    injection Q as <-. destruct (IH vs' n' st W' C') as (-> & ->). auto.
Qed.
Lemma opsOf_roomy ps cap l : goodProperties ps -> length (oItems ps) < cap -> roomy cap (opsOf ps l).
Proof.
  intros G R b i v a E Hi s Ds Hs. assert (I : incl s (map snd (oItems ps))).
  { intros j Hj. destruct (Hs j Hj) as (Pj & w & b' & a' & Eb & _). subst b.
    assert (X : In (Put j w) (opsOf ps l)) by (rewrite E; apply in_or_app; left; apply in_or_app; right; left; reflexivity).
    unfold opsOf in X. apply in_map_iff in X. destruct X as (q & Q & _). injection Q as Q _. rewrite <- Q. 
    apply (index_named (oItems ps) (skipPrefix (oPrefix ps) (field q)) j G). unfold getRequiredPropertyIndexFromName in Q. rewrite Q. exact Pj. }
  pose proof (NoDup_incl_length Ds I) as N. rewrite map_length in N. lia.
Qed.

(* profile ids *)
Lemma isdigit_digit c : isdigit c = true <-> digit c.
Proof. unfold isdigit, digit. rewrite andb_true_iff, !Z.leb_le. lia. Qed.
Lemma number_from r : forall n, Forall digit r -> (0 <= n)%Z -> (n <= fold_left (fun n c => 10 * n + (c - 48)) r n)%Z.
Proof.
  induction r as [|c r IH]; intros n D P; cbn [fold_left]; [lia|]. apply Forall_cons_iff in D. destruct D as (D & Ds). unfold digit in D.
  etransitivity; [|apply IH; [exact Ds|lia]]. lia.
Qed.
Lemma strtol_run r t : Forall digit r -> (match t with c :: _ => ~ digit c | [] => True end) -> forall n, (0 <= n)%Z ->
  (fold_left (fun n c => 10 * n + (c - 48)) r n <= 2147483647)%Z ->
  strtol (r ++ t) n = fold_left (fun n c => 10 * n + (c - 48))%Z r n.
Proof.
  intros D T. induction r as [|c r IH]; intros n P M; cbn [fold_left app strtol].
  - destruct t as [|c t]; [reflexivity|]. cbn [strtol]. destruct (isdigit c) eqn:E; [|reflexivity]. apply isdigit_digit in E. contradiction.
  - apply Forall_cons_iff in D. destruct D as (D & Ds). cbn [fold_left] in M. rewrite (proj2 (isdigit_digit c) D). unfold digit in D.
    assert (B : (10 * n + (c - 48) <= 2147483647)%Z) by (etransitivity; [apply (number_from r); [exact Ds|lia]|exact M]).
    rewrite Z.min_l by lia. apply IH; auto. lia.
Qed.
Lemma extract_run r t : r <> [] -> Forall digit r -> (match t with c :: _ => ~ digit c | [] => True end) -> (number r <= 2147483647)%Z ->
  extractProfileId (r ++ t) = [number r].
Proof.
  intros N D T M. destruct r as [|c r]; [congruence|]. cbn [app extractProfileId].
  rewrite (proj2 (isdigit_digit c) (Forall_inv D)). change (c :: r ++ t) with ((c :: r) ++ t). unfold atoi.
  unfold number in *. rewrite strtol_run by (auto; lia). pose proof (number_from (c :: r) 0 D). rewrite toInt_id by lia.
  cbn zeta. destruct (Z.leb_spec 0 (fold_left (fun n c => 10 * n + (c - 48)) (c :: r) 0)%Z); [reflexivity|lia].
Qed.
Lemma extract_digits r : Forall digit r -> forall t p, extractLoop (r ++ t) p = extractLoop t p.
Proof. induction 1 as [|c r D Ds IH]; intros t p; [reflexivity|]. cbn. rewrite (proj2 (isdigit_digit c) D). apply IH. Qed.
Lemma extract_runs s l : digitRuns s l -> Forall (fun r => (number r <= 2147483647)%Z) l -> extractProfileIds s = map number l.
Proof.
  unfold extractProfileIds. induction 1 as [|c s l N H IH|r N D|r c s l N D Nc H IH]; intros F.
  - reflexivity.
  - cbn. destruct (isdigit c) eqn:E; [apply isdigit_digit in E; contradiction|]. cbn. now apply IH.
  - pose proof (extract_digits r D [] r) as E. rewrite app_nil_r in E. rewrite E. cbn [extractLoop map].
    pose proof (extract_run r [] N D I (Forall_inv F)) as X. rewrite app_nil_r in X. exact X.
  - rewrite extract_digits by exact D. cbn [extractLoop]. destruct (isdigit c) eqn:E; [apply isdigit_digit in E; contradiction|].
    rewrite (extract_run r (c :: s) N D Nc (Forall_inv F)). cbn. f_equal. apply IH. now apply Forall_inv_tail in F.
Qed.
Lemma runs_total s : exists l, digitRuns s l.
Proof.
  assert (G : forall s r, Forall digit r -> exists l, digitRuns (r ++ s) l).
  { clear s. induction s as [|c s IH]; intros r D.
    - rewrite app_nil_r. destruct r as [|x r]; [exists []; constructor|]. exists [x :: r]. apply runs_end; [discriminate|exact D].
    - destruct (isdigit c) eqn:E.
      + apply isdigit_digit in E. replace (r ++ c :: s) with ((r ++ [c]) ++ s) by (rewrite <- app_assoc; reflexivity).
        apply IH. apply Forall_app. split; [exact D|constructor; auto].
      + assert (Nc : ~ digit c) by (intros Q; apply isdigit_digit in Q; congruence). destruct (IH [] (Forall_nil _)) as (l & L).
        destruct r as [|x r]; [exists l; now apply runs_other|]. exists ((x :: r) :: l). apply runs_run; auto. discriminate. }
  apply (G s []). constructor.
Qed.

(* the values added to a list *)
Lemma valuesAdd_none l c : Forall2 itemIs l c -> forall i room out n, (forall v, ~ In (i, v) c) -> valuesAdd l i room out n = (out, n).
Proof.
  induction 1 as [|x (j, w) l c (E1 & _) H IH]; intros i [|room] out n N; try reflexivity. cbn [valuesAdd]. cbn in E1.
  destruct (Z.eqb_spec (ovIndex x) i) as [Q|Q]; [exfalso; apply (N w); left; congruence|]. apply IH. intros v Hv. apply (N v). now right.
Qed.
Lemma valuesAdd_in l c : Forall2 itemIs l c -> NoDup (map fst c) -> forall i v room out n, In (i, v) c -> 0 < room ->
  exists m, valuesAdd l i room out n = (out ++ [Some m], n + 1) /\ getFirst l i = Some m.
Proof.
  induction 1 as [|x (j, w) l c (E1 & m & E2 & E3) H IH]; cbn [map fst snd]; intros D i v [|room] out n I R; [destruct I|destruct I|lia|].
  cbn [fst snd] in *. inversion D as [|? ? D1 D2]; subst. cbn [valuesAdd getFirst]. destruct (Z.eqb_spec (ovIndex x) i) as [Q|Q].
  - exists m. rewrite E2. split; [|reflexivity]. apply (valuesAdd_none _ _ H). intros u Hu. apply D1. rewrite Q. now apply (in_map fst) in Hu.
  - destruct I as [I|I]; [congruence|]. now apply (IH D2 i v).
Qed.
