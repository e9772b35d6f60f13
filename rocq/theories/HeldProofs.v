(* Proofs about HeldModel *)
From Coq Require Import Permutation.
From Verif Require Import ItemModel LifeModel LifeSpec LifeProofs HeldModel HeldSpec.
Local Open Scope Z_scope.

Definition itemBlocks (l : list (Z * data)) := nodesBlocks (map snd l).
Definition valuesBlocks (v : values) := (arr v, sizeofArray + sizeofOverride * Z.of_nat (length (vitems v))) :: itemBlocks (vitems v).
Definition entryBlocks (e : entry) : list (nat * Z) :=
  match e with Owned it => match ihandle it with Some p => [(p, allocated (idata it))] | None => [] end | Borrowed _ => [] end.
Definition entriesBlocks (l : list entry) := concat (map entryBlocks l).
Definition listBlocks (l : rlist) := (larr l, sizeofItem * Z.of_nat (lcapacity l)) :: entriesBlocks (lentries l).
Definition entryOK (e : entry) : Prop :=
  match e with Owned it => exists p n, it = mkItem (mkData (Some p) n) (Some p) | Borrowed _ => True end.
Definition valuesOK (v : values) : Prop :=
  Forall nodeOK (map snd (vitems v)) /\ (vcount v <= length (vitems v))%nat /\
  Forall (fun x => ptr (snd x) <> None) (firstn (vcount v) (vitems v)).
Definition listOK (l : rlist) : Prop := Forall entryOK (lentries l) /\ (length (lentries l) <= lcapacity l)%nat.

Lemma setItem_length {A} (l : list A) k x : length (setItem l k x) = length l.
Proof. revert k. induction l as [|y l IH]; intros [|k]; cbn; auto. Qed.
Lemma setItem_blocks l k x : nth_error l k = Some x -> exists rest,
  Permutation (itemBlocks l) (nodeBlocks (snd x) ++ rest) /\
  forall y, Permutation (itemBlocks (setItem l k y)) (nodeBlocks (snd y) ++ rest).
Proof.
  revert k. induction l as [|z l IH]; intros [|k] E; cbn in E; try discriminate.
  - injection E as ->. exists (itemBlocks l). split; [reflexivity|]. intros y. reflexivity.
  - destruct (IH k E) as (rest & P & Q). exists (nodeBlocks (snd z) ++ rest). split.
    + unfold itemBlocks, nodesBlocks in *. cbn [map concat]. rewrite P. rewrite !app_assoc. apply Permutation_app_tail, Permutation_app_comm.
    + intros y. cbn [setItem]. unfold itemBlocks, nodesBlocks in *. cbn [map concat]. rewrite Q. rewrite !app_assoc. apply Permutation_app_tail, Permutation_app_comm.
Qed.
Lemma setItem_forall {A} (P : A -> Prop) l k x : P x -> Forall P l -> Forall P (setItem l k x).
Proof. intros Px. revert k. induction l as [|y l IH]; intros k F; cbn; [constructor|]. inversion F; subst. destruct k; constructor; auto. Qed.
Lemma setItem_map {A B} (f : A -> B) l k x : map f (setItem l k x) = setItem (map f l) k (f x).
Proof. revert k. induction l as [|y l IH]; intros [|k]; cbn; auto. now rewrite IH. Qed.
Lemma firstn_setItem {A} (l : list A) k x n : firstn n (setItem l k x) = setItem (firstn n l) k x.
Proof. revert k n. induction l as [|y l IH]; intros [|k] [|n]; cbn; auto. now rewrite IH. Qed.
Lemma firstn_setItem_end {A} (l : list A) k x : (k < length l)%nat -> firstn (S k) (setItem l k x) = firstn k l ++ [x].
Proof.
  revert k. induction l as [|y l IH]; intros [|k] H; cbn in *; try lia; [reflexivity|]. f_equal. apply IH. lia.
Qed.
Lemma findValue_bound l i : (findValue l i <= length l)%nat.
Proof. induction l as [|(j, d) l IH]; cbn; [lia|]. destruct (Z.eqb j i); cbn; lia. Qed.
Lemma findValue_at l i : (findValue l i < length l)%nat -> exists d, nth_error l (findValue l i) = Some (i, d).
Proof.
  induction l as [|(j, d) l IH]; cbn; [lia|]. destruct (Z.eqb_spec j i) as [->|]; cbn; [eauto|]. intros H. apply IH. lia.
Qed.
Lemma nth_firstn {A} (l : list A) n k : (k < n)%nat -> nth_error (firstn n l) k = nth_error l k.
Proof. revert n k. induction l as [|y l IH]; intros [|n] [|k] H; cbn; auto; try lia. apply IH. lia. Qed.

(* the first value of a property *)
Fixpoint firstOf (l : list (Z * data)) (i : Z) : option data :=
  match l with [] => None | (j, d) :: rest => if Z.eqb j i then Some d else firstOf rest i end.
Lemma nth_findValue l i : nth_error l (findValue l i) = match firstOf l i with Some d => Some (i, d) | None => None end.
Proof. induction l as [|(j, d) l IH]; cbn; [reflexivity|]. destruct (Z.eqb_spec j i) as [->|]; cbn; auto. Qed.
Lemma getFirst_firstOf v i : OverrideValuesGetFirst v i = option_map ptr (firstOf (firstn (vcount v) (vitems v)) i).
Proof. unfold OverrideValuesGetFirst. rewrite nth_findValue. now destruct (firstOf _ _). Qed.
Lemma firstOf_app l j d i : j <> i -> firstOf (l ++ [(j, d)]) i = firstOf l i.
Proof. intros N. induction l as [|(k, e) l IH]; cbn; [destruct (Z.eqb_spec j i); congruence|]. now rewrite IH. Qed.
Lemma firstOf_setItem l j d k i : j <> i -> (exists e, nth_error l k = Some (j, e)) -> firstOf (setItem l k (j, d)) i = firstOf l i.
Proof.
  intros N. revert k. induction l as [|(q, e) l IH]; intros k (x & E); [destruct k; discriminate|]. destruct k as [|k]; cbn in *.
  - injection E as -> ->. destruct (Z.eqb_spec j i); [contradiction|reflexivity].
  - rewrite IH by eauto. reflexivity.
Qed.
Lemma firstOf_in l i d : firstOf l i = Some d -> In (i, d) l.
Proof. induction l as [|(j, e) l IH]; cbn; [discriminate|]. destruct (Z.eqb_spec j i) as [->|]; intros E; [injection E as ->; auto|auto]. Qed.

Lemma create_owns m0 m ps cap m' r ok : owns m0 m ps -> OverrideValuesCreate m cap ok = (m', r) ->
  match r with
  | Some v => owns m0 m' (valuesBlocks v ++ ps) /\ valuesOK v /\ length (vitems v) = cap /\ vcount v = 0%nat
  | None => m' = m /\ ok = false
  end.
Proof.
  intros H E. unfold OverrideValuesCreate in E. destruct ok; [|now injection E as <- <-].
  destruct (alloc _ _) as (m1, p) eqn:A. injection E as <- <-. pose proof (owns_alloc _ _ _ _ _ _ H A) as O.
  assert (itemBlocks (repeat (0, DataReset) cap) = []) as N. { clear. induction cap as [|cap IH]; [reflexivity|]. unfold itemBlocks, nodesBlocks in *. cbn [repeat map concat]. now rewrite IH. }
  split; [|split; [|split; [apply repeat_length|reflexivity]]].
  - unfold valuesBlocks. cbn [arr vitems]. rewrite repeat_length, N. exact O.
  - unfold valuesOK. cbn [vitems vcount firstn]. split; [|split; [lia|constructor]].
    clear. induction cap as [|cap IH]; cbn [repeat map]; constructor; [left; cbn; auto|exact IH].
Qed.

Lemma listInit_owns m0 m ps cap m' r ok : owns m0 m ps -> ListInit m cap ok = (m', r) ->
  match r with
  | Some l => owns m0 m' (listBlocks l ++ ps) /\ listOK l /\ lcapacity l = cap /\ lentries l = []
  | None => m' = m /\ ok = false
  end.
Proof.
  intros H E. unfold ListInit in E. destruct ok; [|now injection E as <- <-].
  destruct (alloc _ _) as (m1, p) eqn:A. injection E as <- <-. pose proof (owns_alloc _ _ _ _ _ _ H A) as O.
  split; [exact O|]. split; [|auto]. split; cbn; [constructor|lia].
Qed.

Lemma owns_size m0 m p n ps : owns m0 m ps -> In (p, n) ps -> sizeOf (live m) p = Some n.
Proof. intros [_ _ H _] I. now apply H. Qed.

Lemma add_owns m0 m v ps i len memOk : owns m0 m (valuesBlocks v ++ ps) -> valuesOK v -> 0 <= len < 2 ^ 32 - 11 ->
  (memOk = true -> OverridesAdd m v i len memOk <> None) /\
  (forall m' v', OverridesAdd m v i len memOk = Some (m', v') -> owns m0 m' (valuesBlocks v' ++ ps) /\ valuesOK v' /\
    (forall j, j <> i -> firstOf (firstn (vcount v') (vitems v')) j = firstOf (firstn (vcount v) (vitems v)) j)).
Proof.
  intros O (N & L & U) B. unfold OverridesAdd.
  rewrite (owns_size _ _ (arr v) _ _ O) by (left; reflexivity).
  destruct (Z.leb 0 i && Nat.ltb (vcount v) (length (vitems v))) eqn:C; [|split; [discriminate|]; intros m' v' E; injection E as <- <-; split; [exact O|split; [repeat split; auto|reflexivity]]].
  apply andb_true_iff in C as (_ & C). apply Nat.ltb_lt in C.
  set (k := findValue (firstn (vcount v) (vitems v)) i).
  assert (k <= vcount v)%nat as Hk. { unfold k. pose proof (findValue_bound (firstn (vcount v) (vitems v)) i) as X. rewrite firstn_length in X. lia. }
  destruct (nth_error (vitems v) k) as [(i0, d)|] eqn:E; [|apply nth_error_None in E; lia].
  destruct (setItem_blocks _ _ _ E) as (rest & P & Q). cbn [snd] in P, Q.
  assert (nodeOK d) as Hd. { rewrite Forall_forall in N. apply N. apply (in_map snd _ (i0, d)). eapply nth_error_In. exact E. }
  assert (owns m0 m (nodeBlocks d ++ (rest ++ (arr v, sizeofArray + sizeofOverride * Z.of_nat (length (vitems v))) :: ps))) as O1.
  { eapply owns_perm; [|exact O]. unfold valuesBlocks. cbn [app]. rewrite P. rewrite <- app_assoc.
    transitivity ((nodeBlocks d ++ rest) ++ (arr v, sizeofArray + sizeofOverride * Z.of_nat (length (vitems v))) :: ps); [|now rewrite app_assoc].
    rewrite app_assoc. apply Permutation_middle. }
  destruct (DataMalloc_owns _ _ _ _ (sizeofString + len) memOk Hd O1) as (m1 & d1 & D & Hd1 & O2 & S1); [unfold sizeofString; lia|].
  rewrite D. destruct d1 as [[p|] a].
  - specialize (S1 p eq_refl). cbn [allocated] in S1. destruct Hd1 as [(X & _)|(p' & X & A)]; [discriminate|]. cbn [allocated] in A.
    unfold nodeBlocks in O2. cbn [ptr allocated] in O2. destruct (Z.ltb_spec 0 a) as [Ha|]; [|lia]. cbn [app] in O2.
    rewrite (owns_write _ _ p a _ (2 + len + 1) O2) by ((left; reflexivity) || (unfold sizeofString in S1; lia)).
    split; [discriminate|]. intros m' v' E'. injection E' as <- <-.
    set (y := (if Nat.eqb k (vcount v) then i else i0, mkData (Some p) a)).
    split; [|split].
    + eapply owns_perm; [|exact O2]. unfold valuesBlocks. cbn [arr vitems app]. rewrite setItem_length. rewrite (Q y).
      unfold nodeBlocks. cbn [snd ptr allocated y]. destruct (Z.ltb_spec 0 a); [|lia]. cbn [app].
      rewrite perm_swap. apply perm_skip. symmetry. apply Permutation_middle.
    + unfold valuesOK. cbn [vitems vcount]. rewrite setItem_map, setItem_length. split; [|split].
      * apply setItem_forall; [|exact N]. right. cbn. eauto.
      * destruct (Nat.eqb k (vcount v)); lia.
      * destruct (Nat.eqb_spec k (vcount v)) as [Ek|Nk].
        -- rewrite Ek. rewrite firstn_setItem_end by lia. apply Forall_app. split; [exact U|]. constructor; [cbn; discriminate|constructor].
        -- rewrite firstn_setItem. apply setItem_forall; [cbn; discriminate|exact U].
    + intros j Nj. cbn [vcount vitems]. destruct (Nat.eqb_spec k (vcount v)) as [Ek|Nk].
      * rewrite Ek. rewrite firstn_setItem_end by lia. unfold y. rewrite firstOf_app; auto.
      * rewrite firstn_setItem. destruct (findValue_at (firstn (vcount v) (vitems v)) i) as (e0 & X0). { fold k. rewrite firstn_length. lia. }
        fold k in X0. rewrite nth_firstn in X0 by lia. rewrite X0 in E. injection E as <- <-.
        unfold y. apply firstOf_setItem; [auto|]. exists e0. rewrite nth_firstn by lia. exact X0.
  - split.
    + intros ->. exfalso. destruct Hd as [(Hx & Hy)|(q & Hx & Hy)]; destruct d as [pt al]; cbn [ptr allocated] in *; subst; unfold DataMalloc in D; cbn [ptr allocated Z.ltb Z.compare andb Z.eqb] in D.
      * discriminate.
      * destruct (Z.ltb 0 al && Z.ltb al (sizeofString + len)); [destruct (free m q); cbn in D; discriminate|]. cbn [allocated] in D. destruct (Z.eqb_spec al 0); [lia|discriminate].
    + discriminate.
Qed.

Lemma hasMemory_blocks d : nodeOK d -> match hasMemory d with Some p => nodeBlocks d = [(p, allocated d)] | None => nodeBlocks d = [] end.
Proof.
  intros H. unfold hasMemory, nodeBlocks. destruct (ptr d); [|reflexivity]. destruct (Z.ltb 0 (allocated d)); reflexivity.
Qed.

Lemma resetItems_owns m0 m l : Forall nodeOK (map snd l) -> forall ps, owns m0 m ps -> (forall b, In b (itemBlocks l) -> In b ps) ->
  exists l', resetItems m l = Some l' /\ map snd l' = map snd l.
Proof.
  induction l as [|(i, d) l IH]; intros F ps O I; cbn [resetItems]; [exists []; auto|].
  cbn [map snd] in F. inversion F as [|? ? Hd F']; subst. pose proof (hasMemory_blocks d Hd) as Hm. unfold itemBlocks, nodesBlocks in I. cbn [map concat snd] in I.
  destruct (IH F' ps O) as (l' & -> & M); [intros b Hb; apply I, in_or_app; now right|].
  destruct (hasMemory d) as [p|].
  - rewrite (owns_write _ _ p (allocated d) ps (allocated d) O) by (lia || (apply I; rewrite Hm; now left)). eexists. split; [reflexivity|]. cbn. now rewrite M.
  - eexists. split; [reflexivity|]. cbn. now rewrite M.
Qed.
Lemma reset_owns m0 m v ps : owns m0 m (valuesBlocks v ++ ps) -> valuesOK v ->
  exists v', OverrideValuesReset m v = Some v' /\ owns m0 m (valuesBlocks v' ++ ps) /\ valuesOK v'.
Proof.
  intros O (N & L & U). unfold OverrideValuesReset. rewrite (owns_size _ _ (arr v) _ _ O) by (left; reflexivity).
  destruct (resetItems_owns m0 m (vitems v) N _ O) as (l' & -> & M). { intros b Hb. apply in_or_app. left. now right. }
  eexists. split; [reflexivity|]. assert (length l' = length (vitems v)) as E by (rewrite <- (map_length snd l'), M; apply map_length). split.
  - unfold valuesBlocks, itemBlocks in *. cbn [arr vitems]. now rewrite M, E.
  - unfold valuesOK. cbn [vitems vcount firstn]. rewrite M. split; [exact N|]. split; [lia|constructor].
Qed.
Lemma freeItems_owns m0 l : Forall nodeOK (map snd l) -> forall m ps, owns m0 m (itemBlocks l ++ ps) ->
  exists m', freeItems m l = Some m' /\ owns m0 m' ps.
Proof.
  induction l as [|(i, d) l IH]; intros F m ps O; cbn [freeItems]; [eauto|].
  cbn [map snd] in F. inversion F as [|? ? Hd F']; subst. pose proof (hasMemory_blocks d Hd) as Hm. unfold itemBlocks, nodesBlocks in O. cbn [map concat snd] in O.
  rewrite <- app_assoc in O. destruct (hasMemory d) as [p|]; rewrite Hm in O; cbn [app] in O.
  - destruct (owns_free _ _ _ _ _ O) as (m1 & -> & O1). apply IH; auto.
  - apply IH; auto.
Qed.
Lemma valuesFree_owns m0 m v ps : owns m0 m (valuesBlocks v ++ ps) -> valuesOK v ->
  exists m', OverrideValuesFree m v = Some m' /\ owns m0 m' ps.
Proof.
  intros O (N & _). unfold OverrideValuesFree. rewrite (owns_size _ _ (arr v) _ _ O) by (left; reflexivity).
  destruct (freeItems_owns m0 (vitems v) N m ((arr v, sizeofArray + sizeofOverride * Z.of_nat (length (vitems v))) :: ps)) as (m1 & -> & O1).
  { eapply owns_perm; [|exact O]. unfold valuesBlocks. cbn [app]. apply Permutation_middle. }
  destruct (owns_free _ _ _ _ _ O1) as (m2 & -> & O2). eauto.
Qed.

Lemma listAdd_owns m0 m l e ps : owns m0 m (listBlocks l ++ entryBlocks e ++ ps) -> listOK l -> entryOK e ->
  (length (lentries l) < lcapacity l)%nat ->
  exists l', ListAdd m l e = Some l' /\ owns m0 m (listBlocks l' ++ ps) /\ listOK l' /\ lentries l' = lentries l ++ [e] /\ lcapacity l' = lcapacity l.
Proof.
  intros O (F & L) He H. unfold ListAdd. destruct (Nat.ltb_spec (length (lentries l)) (lcapacity l)); [|lia].
  rewrite (owns_write _ _ (larr l) _ _ _ O (or_introl eq_refl)) by (unfold sizeofItem; lia).
  eexists. split; [reflexivity|]. split; [|split; [|auto]].
  - eapply owns_perm; [|exact O]. unfold listBlocks. cbn [larr lcapacity lentries app]. apply perm_skip.
    unfold entriesBlocks. rewrite map_app, concat_app. cbn [map concat]. rewrite app_nil_r, <- app_assoc. reflexivity.
  - split; cbn [lentries lcapacity]; [apply Forall_app; split; [exact F|now constructor]|rewrite app_length; cbn; lia].
Qed.
Lemma releaseEntries_owns m0 l : Forall entryOK l -> forall m ps, owns m0 m (entriesBlocks l ++ ps) ->
  exists m', releaseEntries m l = Some m' /\ owns m0 m' ps.
Proof.
  induction l as [|e l IH]; intros F m ps O; cbn [releaseEntries]; [eauto|]. inversion F as [|? ? He F']; subst.
  unfold entriesBlocks in O. cbn [map concat] in O. destruct e as [it|p]; cbn [entryBlocks app] in O.
  - destruct He as (p & n & ->). cbn [ihandle idata allocated app] in O. destruct (release_owns _ _ _ _ _ O) as (m1 & -> & O1). apply IH; auto.
  - apply IH; auto.
Qed.
Lemma listRelease_owns m0 m l ps : owns m0 m (listBlocks l ++ ps) -> listOK l ->
  exists m' l', ListRelease m l = Some (m', l') /\ owns m0 m' (listBlocks l' ++ ps) /\ listOK l' /\ larr l' = larr l /\ lcapacity l' = lcapacity l /\ lentries l' = [].
Proof.
  intros O (F & L). unfold ListRelease. destruct (releaseEntries_owns m0 (lentries l) F m ((larr l, sizeofItem * Z.of_nat (lcapacity l)) :: ps)) as (m1 & -> & O1).
  { eapply owns_perm; [|exact O]. unfold listBlocks. cbn [app]. apply Permutation_middle. }
  do 2 eexists. split; [reflexivity|]. split; [exact O1|]. split; [|auto]. split; cbn; [constructor|lia].
Qed.
Lemma listFree_owns m0 m l ps : owns m0 m (listBlocks l ++ ps) -> listOK l -> exists m', ListFree m l = Some m' /\ owns m0 m' ps.
Proof.
  intros O K. unfold ListFree. destruct (listRelease_owns _ _ _ _ O K) as (m1 & l1 & -> & O1 & K1 & _ & _ & E).
  unfold listBlocks in O1. rewrite E in O1. cbn [entriesBlocks map concat app] in O1. apply (owns_free _ _ _ _ _ O1).
Qed.
Lemma borrow_owns m0 m i vs : forall l ps, owns m0 m (listBlocks l ++ ps) -> listOK l ->
  exists l', borrow m vs i l = Some l' /\ owns m0 m (listBlocks l' ++ ps) /\ listOK l'.
Proof.
  induction vs as [|(j, d) vs IH]; intros l ps O K; cbn [borrow]; [eauto|].
  destruct (Nat.ltb_spec (length (lentries l)) (lcapacity l)); [|eauto]. destruct (Z.eqb j i); [|auto].
  destruct (listAdd_owns m0 m l (Borrowed (ptr d)) ps) as (l' & -> & O' & K' & _); auto. cbn. auto.
Qed.

(* the invariant of results *)
Definition resultsOK (m0 : list (nat * Z)) (s : mem * values * rlist) : Prop :=
  let '(m, v, l) := s in owns m0 m (valuesBlocks v ++ listBlocks l) /\ valuesOK v /\ listOK l.

Lemma rstep_ok m0 o s : resultsOK m0 s -> fits o -> forall s', rstep o s = Some s' -> resultsOK m0 s'.
Proof.
  destruct s as ((m, v), l). intros (O & V & L) Fo ((m', v'), l') E. destruct o as [i len memOk| |i|w|]; cbn [rstep fits] in *.
  - destruct (add_owns _ _ _ _ i len memOk O V Fo) as (_ & H). destruct (OverridesAdd _ _ _ _ _) as [(m1, v1)|]; [|discriminate].
    injection E as <- <- <-. destruct (H _ _ eq_refl) as (O1 & V1 & _). split; auto.
  - destruct (reset_owns _ _ _ _ O V) as (v1 & R & O1 & V1). rewrite R in E. injection E as <- <- <-. split; auto.
  - unfold OverrideValuesAdd in E. destruct (borrow_owns m0 m i (firstn (vcount v) (vitems v)) l (valuesBlocks v)) as (l1 & B & O1 & L1); auto.
    { eapply owns_perm; [apply Permutation_app_comm|exact O]. }
    rewrite B in E. injection E as <- <- <-. split; [|auto]. eapply owns_perm; [apply Permutation_app_comm|exact O1].
  - destruct (getFile_owns m0 m (valuesBlocks v ++ listBlocks l) w Fo O) as (m1 & it & r & G & H). rewrite G in E. destruct r as [p|].
    + destruct H as (O1 & -> & R). unfold ListAdd in E. destruct (Nat.ltb_spec (length (lentries l)) (lcapacity l)) as [Hl|]; [|discriminate].
      destruct (listAdd_owns m0 m1 l (Owned (mkItem (mkData (Some p) (usedOf w)) (Some p))) (valuesBlocks v)) as (l1 & A & O2 & L1 & _); auto.
      * eapply owns_perm; [|exact O1]. cbn [entryBlocks ihandle idata allocated]. rewrite (Permutation_app_comm (valuesBlocks v)). cbn [app]. apply Permutation_middle.
      * cbn. eauto.
      * unfold ListAdd in A. destruct (Nat.ltb_spec (length (lentries l)) (lcapacity l)); [|lia]. rewrite A in E. injection E as <- <- <-.
        split; [|auto]. eapply owns_perm; [apply Permutation_app_comm|exact O2].
    + destruct H as (O1 & _). injection E as <- <- <-. split; auto.
  - destruct (listRelease_owns m0 m l (valuesBlocks v)) as (m1 & l1 & R & O1 & L1 & _); auto.
    { eapply owns_perm; [apply Permutation_app_comm|exact O]. }
    rewrite R in E. injection E as <- <- <-. split; [|auto]. eapply owns_perm; [apply Permutation_app_comm|exact O1].
Qed.
Lemma rstep_none m0 o m v l : resultsOK m0 (m, v, l) -> fits o -> granted o -> rstep o (m, v, l) = None ->
  (exists w, o = RFetch w /\ readable w) /\ length (lentries l) = lcapacity l.
Proof.
  intros (O & V & L) Fo Go E. destruct o as [i len memOk| |i|w|]; cbn [rstep fits granted] in *.
  - destruct (add_owns _ _ _ _ i len memOk O V Fo) as (H & _). specialize (H Go). destruct (OverridesAdd _ _ _ _ _) as [(m1, v1)|]; [discriminate|contradiction].
  - destruct (reset_owns _ _ _ _ O V) as (v1 & R & _). rewrite R in E. discriminate.
  - unfold OverrideValuesAdd in E. destruct (borrow_owns m0 m i (firstn (vcount v) (vitems v)) l (valuesBlocks v)) as (l1 & B & _); auto.
    { eapply owns_perm; [apply Permutation_app_comm|exact O]. }
    rewrite B in E. discriminate.
  - destruct (getFile_owns m0 m (valuesBlocks v ++ listBlocks l) w Fo O) as (m1 & it & r & G & H). rewrite G in E. destruct r as [p|]; [|discriminate].
    destruct H as (O1 & -> & R).
    assert (readable w) as Rd. { destruct w as [|bytes [] []]; try discriminate; [exists bytes; split; [reflexivity|now apply (Fo bytes true true)]|..]; cbn [getFile] in G; unfold DataMalloc, DataReset in G; cbn [idata ptr allocated Z.ltb Z.compare andb Z.eqb] in G; try discriminate. destruct (write _ _ _); [|discriminate]. destruct (free _ _); discriminate. }
    split; [eauto|]. pose proof L as L0. destruct L as (_ & L). destruct (Nat.eq_dec (length (lentries l)) (lcapacity l)) as [|N]; [assumption|exfalso].
    destruct (listAdd_owns m0 m1 l (Owned (mkItem (mkData (Some p) (usedOf w)) (Some p))) (valuesBlocks v)) as (l1 & A & _); auto; try lia.
    + eapply owns_perm; [|exact O1]. cbn [entryBlocks ihandle idata allocated]. rewrite (Permutation_app_comm (valuesBlocks v)). cbn [app]. apply Permutation_middle.
    + cbn. eauto.
    + rewrite A in E. discriminate.
  - destruct (listRelease_owns m0 m l (valuesBlocks v)) as (m1 & l1 & R & _); auto.
    { eapply owns_perm; [apply Permutation_app_comm|exact O]. }
    rewrite R in E. discriminate.
Qed.

Lemma rrun_ok m0 os : Forall fits os -> forall s s', resultsOK m0 s -> rrun os s = Some s' -> resultsOK m0 s'.
Proof.
  induction os as [|o os IH]; intros F s s' R E; cbn [rrun] in E; [now injection E as <-|]. inversion F as [|? ? F1 F2]; subst.
  destruct (rstep o s) as [s1|] eqn:E1; [|discriminate]. exact (IH F2 s1 s' (rstep_ok m0 o s R F1 s1 E1) E).
Qed.

Lemma first_live m0 m v l i d : resultsOK m0 (m, v, l) -> firstOf (firstn (vcount v) (vitems v)) i = Some d ->
  exists p, ptr d = Some p /\ sizeOf (live m) p = Some (allocated d).
Proof.
  intros (O & (N & _ & U) & _) E. apply firstOf_in in E. rewrite Forall_forall in U. specialize (U _ E). cbn [snd] in U.
  assert (In (i, d) (vitems v)) as I by (rewrite <- (firstn_skipn (vcount v) (vitems v)); apply in_or_app; now left).
  rewrite Forall_forall in N. destruct (N d (in_map snd _ _ I)) as [(X & _)|(p & X & A)]; [contradiction|]. exists p. split; [exact X|].
  apply (owns_size _ _ _ _ _ O). apply in_or_app. left. right. unfold itemBlocks, nodesBlocks. apply in_concat. exists (nodeBlocks d). split.
  - rewrite map_map. apply (in_map (fun x => nodeBlocks (snd x)) _ _ I).
  - unfold nodeBlocks. rewrite X. destruct (Z.ltb_spec 0 (allocated d)); [now left|lia].
Qed.
Lemma rstep_first m0 o s i : resultsOK m0 s -> fits o -> spares i o -> forall s', rstep o s = Some s' ->
  firstOf (firstn (vcount (snd (fst s'))) (vitems (snd (fst s')))) i = firstOf (firstn (vcount (snd (fst s))) (vitems (snd (fst s)))) i.
Proof.
  destruct s as ((m, v), l). intros (O & V & L) Fo So ((m', v'), l') E. destruct o as [j len memOk| |j|w|]; cbn [rstep fits spares fst snd] in *.
  - destruct (add_owns _ _ _ _ j len memOk O V Fo) as (_ & H). destruct (OverridesAdd _ _ _ _ _) as [(m1, v1)|]; [|discriminate].
    injection E as <- <- <-. destruct (H _ _ eq_refl) as (_ & _ & X). apply X. congruence.
  - contradiction.
  - destruct (OverrideValuesAdd _ _ _ _); [|discriminate]. now injection E as <- <- <-.
  - destruct (getFile _ _ _) as [((m1, it), [p|])|]; try discriminate.
    + destruct (ListAdd _ _ _); [|discriminate]. now injection E as <- <- <-.
    + now injection E as <- <- <-.
  - destruct (ListRelease _ _) as [(m1, l1)|]; [|discriminate]. now injection E as <- <- <-.
Qed.
Lemma rrun_first m0 os i : Forall fits os -> Forall (spares i) os -> forall s s', resultsOK m0 s -> rrun os s = Some s' ->
  firstOf (firstn (vcount (snd (fst s'))) (vitems (snd (fst s')))) i = firstOf (firstn (vcount (snd (fst s))) (vitems (snd (fst s)))) i.
Proof.
  induction os as [|o os IH]; intros F Sp s s' R E; cbn [rrun] in E; [now injection E as <-|]. inversion F as [|? ? F1 F2]; subst. inversion Sp as [|? ? S1 S2]; subst.
  destruct (rstep o s) as [s1|] eqn:E1; [|discriminate]. rewrite (IH F2 S2 s1 s' (rstep_ok m0 o s R F1 s1 E1) E). exact (rstep_first m0 o s i R F1 S1 s1 E1).
Qed.

Lemma getFile_readable m w m' it p : getFile m (mkItem DataReset None) w = Some (m', it, Some p) -> sized w -> readable w.
Proof.
  intros G Fo. destruct w as [|bytes [] []]; try discriminate; [exists bytes; split; [reflexivity|now apply (Fo bytes true true)]|..]; cbn [getFile] in G; unfold DataMalloc, DataReset in G; cbn [idata ptr allocated Z.ltb Z.compare andb Z.eqb] in G; try discriminate.
  destruct (write _ _ _); [|discriminate]. destruct (free _ _); discriminate.
Qed.
Lemma getFile_unreadable m w m' it : getFile m (mkItem DataReset None) w = Some (m', it, None) -> ~ readable w.
Proof.
  intros G (bytes & -> & R). cbn in G. unfold write in G. cbn [live sizeOf] in G. rewrite Nat.eqb_refl, Z.leb_refl in G. discriminate.
Qed.
Lemma initLoop_owns m0 ways n : (forall i, sized (ways i)) -> forall left m l, owns m0 m (listBlocks l) -> listOK l ->
  lcapacity l = n -> (length (lentries l) + left = n)%nat -> (forall i, (i < length (lentries l))%nat -> readable (ways i)) ->
  exists m' l' b, initLoop m ways l left = Some (m', l', b) /\ owns m0 m' (listBlocks l') /\ listOK l' /\
    readUpTo ways n (length (lentries l')) /\ (b = true <-> length (lentries l') = n).
Proof.
  intros Hs. induction left as [|left IH]; intros m l O L C E R; cbn [initLoop].
  - do 3 eexists. split; [reflexivity|]. split; [exact O|]. split; [exact L|]. split; [split; [lia|split; [exact R|lia]]|]. split; [lia|reflexivity].
  - destruct (getFile_owns m0 m (listBlocks l) (ways (length (lentries l))) (Hs _) O) as (m1 & it & r & G & H). rewrite G. destruct r as [p|].
    + destruct H as (O1 & -> & Rg).
      destruct (listAdd_owns m0 m1 l (Owned (mkItem (mkData (Some p) (usedOf (ways (length (lentries l))))) (Some p))) []) as (l1 & A & O2 & L1 & E1 & C1).
      * rewrite app_nil_r. eapply owns_perm; [|exact O1]. cbn [entryBlocks ihandle idata allocated]. apply Permutation_cons_append.
      * exact L.
      * cbn. eauto.
      * lia.
      * rewrite A. rewrite app_nil_r in O2. apply IH; auto; rewrite ?E1, ?app_length; cbn [length]; try lia; try congruence.
        intros i Hi. destruct (Nat.eq_dec i (length (lentries l))) as [->|]; [eapply getFile_readable; eauto|apply R; lia].
    + destruct H as (O1 & _). do 3 eexists. split; [reflexivity|]. split; [exact O1|]. split; [exact L|].
      split; [split; [lia|split; [exact R|]]|split; [discriminate|lia]]. intros _. eapply getFile_unreadable. exact G.
Qed.
