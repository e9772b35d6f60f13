From Verif Require Export HeadersModel HeadersSpec StringProofs.
From Coq Require Import Permutation.

Lemma skip_app {A} (l1 l2 : list A) k : k = length l1 -> skipn k (l1 ++ l2) = l2.
Proof. intros ->. rewrite skipn_app, Nat.sub_diag, skipn_all. reflexivity. Qed.
Lemma skip_app_le {A} (l1 l2 : list A) k : k <= length l1 -> skipn k (l1 ++ l2) = skipn k l1 ++ l2.
Proof. intros H. rewrite skipn_app. replace (k - length l1) with 0 by lia. reflexivity. Qed.
Lemma first_app {A} (l1 l2 : list A) k : k = length l1 -> firstn k (l1 ++ l2) = l1.
Proof. intros ->. rewrite firstn_app, Nat.sub_diag, firstn_all, firstn_O, app_nil_r. reflexivity. Qed.

(* The parts of a text, computed. *)
Fixpoint runs (acc s : list Z) : list (list Z) :=
  match s with
  | [] => match acc with [] => [] | _ => [acc] end
  | c :: s' =>
    if Z.eqb c SEP then match acc with [] => runs [] s' | _ => acc :: runs [] s' end
    else runs (acc ++ [c]) s'
  end.
Lemma noSep_nil : noSep [].
Proof. intros []. Qed.
Lemma noSep_snoc w c : noSep w -> c <> SEP -> noSep (w ++ [c]).
Proof. unfold noSep. intros H1 H2 H3. apply in_app_or in H3. destruct H3 as [H3|[H3|[]]]; [auto|]. apply H2. exact H3. Qed.
Lemma parts_runs s : forall acc, noSep acc -> parts (acc ++ s) (runs acc s).
Proof.
  induction s as [|c s IH]; intros acc H; cbn.
  - rewrite app_nil_r. destruct acc; [constructor|]. constructor; [discriminate|exact H].
  - destruct (Z.eqb_spec c SEP) as [-> |N].
    + destruct acc as [|a acc].
      * cbn. apply (parts_sep s). apply (IH [] noSep_nil).
      * apply (parts_word (a :: acc) s); [discriminate|exact H|]. apply (IH [] noSep_nil).
    + replace (acc ++ c :: s) with ((acc ++ [c]) ++ s) by (rewrite <- app_assoc; reflexivity).
      apply IH. now apply noSep_snoc.
Qed.
Lemma runs_word w : forall acc s, noSep w -> runs acc (w ++ s) = runs (acc ++ w) s.
Proof.
  induction w as [|c w IH]; intros acc s H; [now rewrite app_nil_r|].
  cbn. destruct (Z.eqb_spec c SEP) as [-> |N]; [destruct H; left; reflexivity|].
  rewrite IH by (intros G; apply H; right; exact G). rewrite <- app_assoc. reflexivity.
Qed.
Lemma parts_unique n l : parts n l -> l = runs [] n.
Proof.
  induction 1 as [|s l H IH|w N H|w s l N H1 H2 IH].
  - reflexivity.
  - exact IH.
  - rewrite <- (app_nil_r w) at 2. rewrite runs_word by exact H. cbn. destruct w; [congruence|reflexivity].
  - rewrite runs_word by exact H1. cbn. destruct w; [congruence|]. now rewrite IH.
Qed.
Lemma parts_iff n l : parts n l <-> l = runs [] n.
Proof. split; [apply parts_unique|]. intros ->. apply (parts_runs n [] noSep_nil). Qed.

Lemma countLoop_runs s : forall acc last k,
  (last = SEP /\ acc = []) \/ (last <> SEP /\ acc <> []) -> countLoop last s k = k + length (runs acc s).
Proof.
  induction s as [|c s IH]; intros acc last k H; cbn.
  - destruct H as [(-> & ->)|(N & Na)]; [cbn; lia|]. destruct (Z.eqb_spec last SEP); [congruence|]. destruct acc; [congruence|]. cbn. lia.
  - destruct (Z.eqb_spec c SEP) as [-> |N]; cbn.
    + rewrite (IH []) by (left; auto). destruct H as [(-> & ->)|(N & Na)].
      * rewrite Z.eqb_refl. reflexivity.
      * destruct (Z.eqb_spec last SEP); [congruence|]. cbn. destruct acc; [congruence|]. cbn. lia.
    + rewrite (IH (acc ++ [c])); [reflexivity|]. right. split; [exact N|]. destruct acc; discriminate.
Qed.
Lemma count_runs n : n <> [] -> countHeaderSegments n = length (runs [] n).
Proof.
  intros N. destruct n as [|c s]; [congruence|]. unfold countHeaderSegments. cbn [hd].
  destruct (Z.eqb_spec c SEP) as [-> |Nc].
  - apply (countLoop_runs (SEP :: s) []). left. auto.
  - cbn [countLoop runs]. destruct (Z.eqb_spec c SEP) as [|_]; [congruence|]. cbn.
    apply (countLoop_runs s [c]). right. split; [exact Nc|discriminate].
Qed.
Lemma count_empty : countHeaderSegments [] = 1.
Proof. reflexivity. Qed.

(* Segments point at the parts. *)
Definition segInside (n : list Z) (s : Segment) : Prop := segStart s + segLength s <= length n.
Lemma segmentLoop_runs n cap : forall rest pre last segs,
  n = pre ++ rest -> last <= length pre ->
  length segs + length (runs (skipn last pre) rest) <= cap ->
  exists new, segmentLoop cap rest (length pre) last segs = Some (segs ++ new) /\
    map (segText n) new = runs (skipn last pre) rest /\ Forall (segInside n) new.
Proof.
  induction rest as [|c rest IH]; intros pre last segs En Hl Hc.
  - cbn. rewrite app_nil_r in En. subst n. destruct (Nat.eqb_spec (length pre) last) as [E|E].
    + exists []. rewrite app_nil_r. subst last. rewrite skipn_all. repeat split. constructor.
    + assert (L : length (skipn last pre) = length pre - last) by apply skipn_length.
      cbn [runs] in Hc. destruct (skipn last pre) as [|x a] eqn:Es; [cbn in L; lia|].
      unfold addSegment. cbn in Hc. destruct (Nat.leb_spec cap (length segs)); [lia|].
      exists [mkSegment last (length pre - last)]. split; [reflexivity|]. split.
      * cbn. unfold segText. cbn. rewrite Es. rewrite firstn_all2; [reflexivity|]. lia.
      * repeat constructor. unfold segInside. cbn. lia.
  - assert (En' : n = (pre ++ [c]) ++ rest) by (rewrite <- app_assoc; exact En).
    assert (Lp : length (pre ++ [c]) = S (length pre)) by (rewrite app_length; cbn; lia).
    cbn [segmentLoop]. cbn [runs] in *. destruct (Z.eqb_spec c SEP) as [Ec|Ec].
    + destruct (Nat.eqb_spec (length pre) last) as [E|E].
      * subst last. rewrite skipn_all in *. specialize (IH (pre ++ [c]) (S (length pre)) segs En').
        rewrite Lp in IH. rewrite (skipn_all2 (pre ++ [c])) in IH by lia. apply IH; [lia|exact Hc].
      * assert (L : length (skipn last pre) = length pre - last) by apply skipn_length.
        destruct (skipn last pre) as [|x a] eqn:Es; [cbn in L; lia|].
        unfold addSegment. cbn [length] in Hc. destruct (Nat.leb_spec cap (length segs)); [lia|].
        specialize (IH (pre ++ [c]) (S (length pre)) (segs ++ [mkSegment last (length pre - last)]) En').
        rewrite Lp in IH. rewrite (skipn_all2 (pre ++ [c])) in IH by lia.
        destruct IH as (new & H1 & H2 & H3); [lia|rewrite app_length; cbn; lia|].
        exists (mkSegment last (length pre - last) :: new). split; [rewrite H1, <- app_assoc; reflexivity|]. split.
        -- cbn [map]. rewrite H2. f_equal. unfold segText. cbn. rewrite En. rewrite skip_app_le by lia. rewrite Es. apply first_app. lia.
        -- constructor; [|exact H3]. unfold segInside. cbn. rewrite En, app_length. cbn. lia.
    + specialize (IH (pre ++ [c]) last segs En'). rewrite Lp in IH. rewrite skip_app_le in IH by lia. apply IH; [lia|exact Hc].
Qed.
Lemma segments_created n : n <> [] -> exists segs, createSegmentArray n = Some segs /\
  map (segText n) segs = runs [] n /\ Forall (segInside n) segs.
Proof.
  intros N. unfold createSegmentArray. rewrite count_runs by exact N.
  destruct (segmentLoop_runs n (length (runs [] n)) n [] 0 []) as (new & H); [reflexivity|cbn; lia|cbn; lia|]. exists new. exact H.
Qed.

(* Searching the array. *)
Lemma index_from hs : forall i nm len, len <= length nm ->
  match getHeaderIndexFrom i hs nm len with
  | Some j => exists k h, j = i + k /\ nth_error hs k = Some h /\ sameText (firstn len nm) (name h) /\
      forall k' h', k' < k -> nth_error hs k' = Some h' -> ~ sameText (firstn len nm) (name h')
  | None => forall h, In h hs -> ~ sameText (firstn len nm) (name h)
  end.
Proof.
  induction hs as [|h hs IH]; intros i nm len Hl; cbn [getHeaderIndexFrom].
  - intros h [].
  - assert (T : (Nat.eqb (nameLength h) len && match StringCompareLength len nm (cstr (name h)) with Some d => Z.eqb d 0 | None => false end)%bool = true
               <-> sameText (firstn len nm) (name h)).
    { rewrite andb_true_iff, Nat.eqb_eq. unfold nameLength. split.
      - intros (L & C). destruct (compareLength_some len nm (cstr (name h)) Hl) as (d & D1 & D2); [unfold cstr; rewrite app_length; cbn; lia|].
        rewrite D1 in C. apply Z.eqb_eq in C. apply D2 in C. unfold cstr in C. rewrite first_app in C by lia. exact C.
      - intros S. assert (L : length (name h) = len). { apply same_length in S. rewrite firstn_length in S. lia. }
        split; [exact L|]. destruct (compareLength_some len nm (cstr (name h)) Hl) as (d & D1 & D2); [unfold cstr; rewrite app_length; cbn; lia|].
        rewrite D1. apply Z.eqb_eq, D2. unfold cstr. rewrite first_app by lia. exact S. }
    match type of T with ?b = true <-> _ => destruct b eqn:E end.
    + exists 0, h. split; [lia|]. split; [reflexivity|]. split; [apply T; reflexivity|]. intros; lia.
    + assert (N : ~ sameText (firstn len nm) (name h)) by (intros S; apply T in S; congruence).
      specialize (IH (S i) nm len Hl). destruct (getHeaderIndexFrom (S i) hs nm len) as [j|].
      * destruct IH as (k & h0 & H1 & H2 & H3 & H4). exists (S k), h0. split; [lia|]. split; [exact H2|]. split; [exact H3|].
        intros [|k'] h' Hk Hn; [cbn in Hn; injection Hn as <-; exact N|]. apply (H4 k'); [lia|exact Hn].
      * intros h' [<-|Hi]; [exact N|auto].
Qed.
Lemma index_spec hs nm len : len <= length nm ->
  match getHeaderIndex hs nm len with
  | Some k => exists h, nth_error hs k = Some h /\ sameText (firstn len nm) (name h) /\
      forall k' h', k' < k -> nth_error hs k' = Some h' -> ~ sameText (firstn len nm) (name h')
  | None => forall h, In h hs -> ~ sameText (firstn len nm) (name h)
  end.
Proof.
  intros Hl. pose proof (index_from hs 0 nm len Hl) as H. unfold getHeaderIndex. destruct (getHeaderIndexFrom 0 hs nm len); [|exact H].
  destruct H as (k & h & -> & H1 & H2 & H3). exists h. auto.
Qed.

(* Same texts have the same parts. *)
Lemma same_sep x y : sameLetter x y -> (x = SEP <-> y = SEP).
Proof. unfold sameLetter, upperLower, SEP. lia. Qed.
Lemma runs_same a b : sameText a b -> forall x y, sameText x y -> Forall2 sameText (runs x a) (runs y b).
Proof.
  induction 1 as [|c d a b H H' IH]; intros x y S; cbn.
  - inversion S; subst; [constructor|constructor; [exact S|constructor]].
  - pose proof (same_sep _ _ H) as E. destruct (Z.eqb_spec c SEP), (Z.eqb_spec d SEP); try tauto.
    + inversion S; subst; [apply IH; constructor|]. constructor; [exact S|]. apply IH. constructor.
    + apply IH. apply Forall2_app; [exact S|]. constructor; [exact H|constructor].
Qed.
Lemma hasPart_runs n : hasPart n <-> runs [] n <> [].
Proof.
  unfold hasPart. split.
  - intros (w & l & H). apply parts_iff in H. congruence.
  - destruct (runs [] n) as [|w l] eqn:E; [congruence|]. intros _. exists w, l. now apply parts_iff.
Qed.
Lemma hasPart_same a b : sameText a b -> hasPart a -> hasPart b.
Proof.
  intros S. rewrite !hasPart_runs. pose proof (runs_same a b S [] [] ltac:(constructor)) as F.
  destruct F; congruence.
Qed.
Lemma hasPart_count n : (Nat.ltb 0 (length n) && Nat.ltb 0 (countHeaderSegments n))%bool = true <-> hasPart n.
Proof.
  rewrite andb_true_iff, !Nat.ltb_lt, hasPart_runs. destruct n as [|c s].
  - cbn. split; [lia|congruence].
  - rewrite count_runs by discriminate. cbn [length]. destruct (runs [] (c :: s)); cbn; [split; [lia|congruence]|]. split; [discriminate|lia].
Qed.

(* What is true of every header. *)
Definition goodHeader (h : Header) : Prop :=
  map (segText (name h)) (segments h) = runs [] (name h) /\ Forall (segInside (name h)) (segments h) /\ name h <> [].
Definition key (h : Header) : Z * list Z := (uniqueId h, name h).
Lemma distinct_snoc l x : distinctTexts l -> (forall y, In y l -> ~ sameText x y) -> distinctTexts (l ++ [x]).
Proof.
  intros D N i j a b Ha Hb S.
  assert (Q : forall k c, nth_error (l ++ [x]) k = Some c -> (k < length l /\ nth_error l k = Some c) \/ (k = length l /\ c = x)).
  { intros k c Hk. destruct (Nat.lt_ge_cases k (length l)) as [L|L].
    - rewrite nth_error_app1 in Hk by exact L. auto.
    - rewrite nth_error_app2 in Hk by exact L. destruct (k - length l) as [|z] eqn:E; [|destruct z; discriminate Hk].
      cbn in Hk. injection Hk as <-. right. split; [lia|reflexivity]. }
  destruct (Q i a Ha) as [(L1 & H1)|(E1 & E2)], (Q j b Hb) as [(L2 & H2)|(E3 & E4)].
  - eapply D; eauto.
  - subst. apply nth_error_In in H1. destruct (N a H1). now apply same_sym.
  - subst. apply nth_error_In in H2. destruct (N b H2 S).
  - lia.
Qed.
Lemma sublist_drop_end {A} (l l' : list A) x : sublist l l' -> sublist l (l' ++ [x]).
Proof. induction 1; cbn; [apply sub_drop; constructor|now constructor|now constructor]. Qed.
Lemma sublist_snoc {A} (l l' : list A) x : sublist l l' -> sublist (l ++ [x]) (l' ++ [x]).
Proof. induction 1; cbn; [repeat constructor|now constructor|now constructor]. Qed.

Definition fromDataSet (done : list (Z * list Z)) (ds : list Header) : Prop :=
  Forall goodHeader ds /\ Forall (fun h => isDataSet h = true) ds /\
  sublist (map key ds) done /\ distinctTexts (map name ds) /\
  (forall e, In e done -> hasPart (snd e) -> exists h, In h ds /\ sameText (name h) (snd e)) /\
  (forall h, In h ds -> hasPart (name h) /\ exists before after, done = before ++ key h :: after /\
     forall e, In e before -> ~ sameText (snd e) (name h)).
Lemma fromDataSet_skip done ds e : fromDataSet done ds -> (hasPart (snd e) -> exists h, In h ds /\ sameText (name h) (snd e)) ->
  fromDataSet (done ++ [e]) ds.
Proof.
  intros (H1 & H2 & H3 & H4 & H5 & H6) He. split; [exact H1|]. split; [exact H2|]. split; [now apply sublist_drop_end|]. split; [exact H4|]. split.
  - intros e' Hi Hp. apply in_app_or in Hi. destruct Hi as [Hi|[<-|[]]]; auto.
  - intros h Hi. destruct (H6 h Hi) as (P & b & a & E & N). split; [exact P|]. exists b, (a ++ [e]). split; [|exact N]. rewrite E, <- app_assoc. reflexivity.
Qed.
Lemma fromDataSet_add done ds h : fromDataSet done ds -> goodHeader h -> isDataSet h = true -> hasPart (name h) ->
  (forall h', In h' ds -> ~ sameText (name h) (name h')) -> fromDataSet (done ++ [key h]) (ds ++ [h]).
Proof.
  intros (H1 & H2 & H3 & H4 & H5 & H6) G D P N. split; [apply Forall_app; auto|]. split; [apply Forall_app; auto|].
  split; [rewrite map_app; now apply sublist_snoc|]. split.
  { rewrite map_app. apply distinct_snoc; [exact H4|]. intros y Hy. apply in_map_iff in Hy. destruct Hy as (h' & <- & Hi). auto. }
  split.
  - intros e Hi Hp. apply in_app_or in Hi. destruct Hi as [Hi|[<-|[]]].
    + destruct (H5 e Hi Hp) as (h' & A & B). exists h'. split; [apply in_or_app; auto|exact B].
    + exists h. split; [apply in_or_app; right; left; reflexivity|apply same_refl].
  - intros h' Hi. apply in_app_or in Hi. destruct Hi as [Hi|[<-|[]]].
    + destruct (H6 h' Hi) as (P' & b & a & E & N'). split; [exact P'|]. exists b, (a ++ [key h]). split; [|exact N']. rewrite E, <- app_assoc. reflexivity.
    + split; [exact P|]. exists done, []. split; [reflexivity|]. intros e Hi S.
      destruct (H5 e Hi) as (h' & A & B); [apply (hasPart_same (name h)); [now apply same_sym|exact P]|].
      apply (N h' A). apply same_sym. apply (same_trans _ (snd e)); [exact B|exact S].
Qed.

Definition extra (h : Header) : nat := if Nat.ltb 1 (length (segments h)) then length (segments h) else 0.
Fixpoint extras (hs : list Header) : nat := match hs with [] => 0 | h :: r => extra h + extras r end.
Lemma extras_app a b : extras (a ++ b) = extras a + extras b.
Proof. induction a; cbn; lia. Qed.
Lemma dataSet_phase cap : forall todo done ds, fromDataSet done ds ->
  match addHeadersFromDataSet cap todo ds with
  | Headers ds' => fromDataSet (done ++ todo) ds' /\
      length ds' + extras ds' <= length ds + extras ds + countAllSegments todo
  | Null => False
  | Overflow => cap < length ds + countAllSegments todo
  end.
Proof.
  induction todo as [|(id, n) todo IH]; intros done ds H; cbn [addHeadersFromDataSet countAllSegments].
  - rewrite app_nil_r. split; [exact H|lia].
  - assert (E : forall x : Z * list Z, done ++ x :: todo = (done ++ [x]) ++ todo) by (intros; rewrite <- app_assoc; reflexivity). rewrite E.
    pose proof (index_spec ds (cstr n) (length n)) as HX. unfold cstr in HX. rewrite app_length in HX. specialize (HX ltac:(lia)).
    rewrite first_app in HX by reflexivity. fold (cstr n) in HX.
    destruct (Nat.ltb 0 (length n) && Nat.ltb 0 (countHeaderSegments n))%bool eqn:EP.
    + pose proof (proj1 (hasPart_count n) EP) as HP. cbn [andb].
      assert (Nn : n <> []) by (intros ->; discriminate EP).
      destruct (getHeaderIndex ds (cstr n) (length n)) as [k|].
      * destruct HX as (h & HX1 & HX2 & _).
        assert (A : fromDataSet (done ++ [(id, n)]) ds).
        { apply fromDataSet_skip; [exact H|]. intros _. exists h. split; [eapply nth_error_In; eauto|]. now apply same_sym. }
        specialize (IH (done ++ [(id, n)]) ds A). destruct (addHeadersFromDataSet cap todo ds);
          [|exact IH|split; [apply IH|]]; destruct (Nat.ltb 1 (countHeaderSegments n)); lia.
      * apply andb_true_iff in EP. destruct EP as (_ & EP). apply Nat.ltb_lt in EP.
        destruct (Nat.ltb_spec (length ds) cap) as [L|L]; [|destruct (Nat.ltb 1 (countHeaderSegments n)); lia].
        destruct (segments_created n Nn) as (segs & C1 & C2 & C3). rewrite C1.
        specialize (IH (done ++ [(id, n)]) (ds ++ [mkHeader n true id segs])). rewrite app_length, extras_app in IH.
        cbn [length extras] in IH. change (extra (mkHeader n true id segs)) with (if Nat.ltb 1 (length segs) then length segs else 0) in IH.
        assert (Ls : length segs = countHeaderSegments n) by (rewrite count_runs, <- C2, map_length by exact Nn; reflexivity).
        rewrite Ls in IH.
        assert (A : fromDataSet (done ++ [(id, n)]) (ds ++ [mkHeader n true id segs])).
        { apply (fromDataSet_add done ds (mkHeader n true id segs)); auto. repeat split; auto. }
        specialize (IH A). destruct (addHeadersFromDataSet cap todo (ds ++ [mkHeader n true id segs]));
          [|exact IH|split; [apply IH|]]; destruct (Nat.ltb 1 (countHeaderSegments n)); lia.
    + cbn [andb]. assert (A : fromDataSet (done ++ [(id, n)]) ds).
      { apply fromDataSet_skip; [exact H|]. intros HP. change (snd (id, n)) with n in HP. apply hasPart_count in HP. rewrite HP in EP. discriminate EP. }
      specialize (IH (done ++ [(id, n)]) ds A). destruct (addHeadersFromDataSet cap todo ds);
        [|exact IH|split; [apply IH|]]; destruct (Nat.ltb 1 (countHeaderSegments n)); lia.
Qed.

(* The second loop. *)
Definition fromSegments (ds done rest : list Header) : Prop :=
  Forall goodHeader (ds ++ rest) /\ distinctTexts (map name (ds ++ rest)) /\
  Forall (fun h => isDataSet h = false /\ uniqueId h = 0%Z /\ exists d, In d ds /\ In (name h) (runs [] (name d))) rest /\
  (forall d w, In d done -> In w (runs [] (name d)) -> exists h, In h (ds ++ rest) /\ sameText (name h) w).
Lemma runs_nonempty s : forall acc w, In w (runs acc s) -> w <> [].
Proof.
  induction s as [|c s IH]; intros acc w H; cbn in H.
  - destruct acc; [destruct H|]. destruct H as [<-|[]]. discriminate.
  - destruct (Z.eqb c SEP); [|eapply IH; eauto]. destruct acc; [eapply IH; eauto|]. destruct H as [<-|H]; [discriminate|eapply IH; eauto].
Qed.
Lemma segText_length n s : segInside n s -> length (segText n s) = segLength s.
Proof. unfold segInside, segText. intros H. rewrite firstn_length, skipn_length. lia. Qed.
Lemma segText_mem n s : segInside n s -> firstn (segLength s) (skipn (segStart s) (cstr n)) = segText n s.
Proof.
  unfold segInside, segText, cstr. intros H. rewrite skip_app_le by lia. rewrite firstn_app, skipn_length.
  replace (segLength s - (length n - segStart s)) with 0 by lia. rewrite firstn_O, app_nil_r. reflexivity.
Qed.
Lemma segments_phase cap ds d : In d ds -> forall todo rest,
  goodHeader d -> Forall (segInside (name d)) todo -> (forall s, In s todo -> In (segText (name d) s) (runs [] (name d))) ->
  Forall goodHeader (ds ++ rest) -> distinctTexts (map name (ds ++ rest)) ->
  Forall (fun h => isDataSet h = false /\ uniqueId h = 0%Z /\ exists d, In d ds /\ In (name h) (runs [] (name d))) rest ->
  match addSegmentsOf cap (name d) todo (ds ++ rest) with
  | Headers hs => exists more, hs = ds ++ rest ++ more /\ length more <= length todo /\
      Forall goodHeader hs /\ distinctTexts (map name hs) /\
      Forall (fun h => isDataSet h = false /\ uniqueId h = 0%Z /\ exists d, In d ds /\ In (name h) (runs [] (name d))) (rest ++ more) /\
      (forall s, In s todo -> exists h, In h hs /\ sameText (name h) (segText (name d) s))
  | Null => False
  | Overflow => cap < length (ds ++ rest) + length todo
  end.
Proof.
  intros Hd. induction todo as [|s todo IH]; intros rest G Hi Hr HG HD HS; cbn [addSegmentsOf].
  - exists []. rewrite !app_nil_r. repeat split; auto. intros s [].
  - inversion Hi as [|? ? Hi1 Hi2]; subst.
    pose proof (index_spec (ds ++ rest) (skipn (segStart s) (cstr (name d))) (segLength s)) as HX.
    rewrite segText_mem in HX by exact Hi1.
    assert (L : segLength s <= length (skipn (segStart s) (cstr (name d)))).
    { rewrite skipn_length. unfold cstr. rewrite app_length. unfold segInside in Hi1. lia. }
    specialize (HX L). destruct (getHeaderIndex (ds ++ rest) (skipn (segStart s) (cstr (name d))) (segLength s)) as [k|].
    + destruct HX as (h & X1 & X2 & _). specialize (IH rest G Hi2 (fun s' Hs' => Hr s' (or_intror Hs')) HG HD HS).
      destruct (addSegmentsOf cap (name d) todo (ds ++ rest)) as [| |hs]; [cbn; lia|exact IH|].
      destruct IH as (more & E & H1 & H2 & H3 & H4 & H5). exists more. split; [exact E|]. split; [cbn; lia|]. split; [exact H2|]. split; [exact H3|]. split; [exact H4|].
      intros s' [<-|Hs']; [|auto]. exists h. split; [|now apply same_sym]. rewrite E, app_assoc. apply in_or_app. left. eapply nth_error_In; eauto.
    + destruct (Nat.ltb_spec (length (ds ++ rest)) cap) as [Lc|Lc]; [|cbn; lia].
      assert (Hin : In (segText (name d) s) (runs [] (name d))) by (apply Hr; left; reflexivity).
      assert (Nn : segText (name d) s <> []) by (eapply runs_nonempty; eauto).
      destruct (segments_created _ Nn) as (segs & C1 & C2 & C3). rewrite C1. rewrite <- app_assoc.
      set (h := mkHeader (segText (name d) s) false 0 segs) in *.
      specialize (IH (rest ++ [h]) G Hi2 (fun s' Hs' => Hr s' (or_intror Hs'))).
      assert (A1 : Forall goodHeader (ds ++ rest ++ [h])) by (rewrite app_assoc; apply Forall_app; split; [exact HG|]; repeat constructor; auto).
      assert (A2 : distinctTexts (map name (ds ++ rest ++ [h]))).
      { rewrite app_assoc, map_app. apply distinct_snoc; [exact HD|]. intros y Hy. apply in_map_iff in Hy. destruct Hy as (h' & <- & Hh). apply (HX h' Hh). }
      assert (A3 : Forall (fun h => isDataSet h = false /\ uniqueId h = 0%Z /\ exists d, In d ds /\ In (name h) (runs [] (name d))) (rest ++ [h])).
      { apply Forall_app. split; [exact HS|]. constructor; [|constructor]. repeat split. exists d. auto. }
      specialize (IH A1 A2 A3). destruct (addSegmentsOf cap (name d) todo (ds ++ rest ++ [h])) as [| |hs].
      * rewrite !app_length in *. cbn in *. lia.
      * exact IH.
      * destruct IH as (more & E & H1 & H2 & H3 & H4 & H5). exists (h :: more). rewrite <- !app_assoc in E. cbn in E. split; [exact E|]. split; [cbn; lia|].
        split; [exact H2|]. split; [exact H3|]. split; [rewrite <- app_assoc in H4; exact H4|].
        intros s' [<-|Hs']; [|auto]. exists h. split; [|apply same_refl]. rewrite E. apply in_or_app. right. apply in_or_app. right. left. reflexivity.
Qed.

Lemma tidy_runs n w : tidy n -> runs [] n = [w] -> n = w.
Proof. intros T E. apply T. apply parts_iff. now symmetry. Qed.
Lemma all_phase cap ds : Forall goodHeader ds -> forall todo done rest,
  ds = done ++ todo -> fromSegments ds done rest ->
  match addHeadersFromSegments cap todo (ds ++ rest) with
  | Headers hs => exists rest', hs = ds ++ rest' /\ fromSegments ds ds rest'
  | Null => False
  | Overflow => (exists h, In h ds /\ ~ tidy (name h)) \/ cap < length (ds ++ rest) + extras todo
  end.
Proof.
  intros HG0. induction todo as [|d todo IH]; intros done rest E (HG & HD & HS & HC); cbn [addHeadersFromSegments].
  - exists rest. split; [reflexivity|]. rewrite app_nil_r in E. subst done. split; [exact HG|]. split; [exact HD|]. split; [exact HS|exact HC].
  - assert (Hd : In d ds) by (rewrite E; apply in_or_app; right; left; reflexivity).
    assert (Gd : goodHeader d) by (rewrite Forall_forall in HG0; auto). pose proof Gd as (G1 & G2 & G3).
    assert (Hin : forall s, In s (segments d) -> In (segText (name d) s) (runs [] (name d))) by (intros s Hs; rewrite <- G1; now apply in_map).
    pose proof (segments_phase cap ds d Hd (segments d) rest Gd G2 Hin HG HD HS) as P.
    cbn [extras]. assert (Tidy : tidy (name d) -> length (segments d) <> 1 \/ exists k, getHeaderIndex (ds ++ rest) (skipn (segStart (hd (mkSegment 0 0) (segments d))) (cstr (name d))) (segLength (hd (mkSegment 0 0) (segments d))) = Some k).
    { intros T. destruct (segments d) as [|s [|s' l]] eqn:Es; [left; discriminate| |left; discriminate]. right. cbn [hd].
      cbn in G1.
      pose proof (Forall_inv G2) as I1.
      pose proof (index_spec (ds ++ rest) (skipn (segStart s) (cstr (name d))) (segLength s)) as HX. rewrite segText_mem in HX by exact I1.
      assert (L : segLength s <= length (skipn (segStart s) (cstr (name d)))).
      { rewrite skipn_length. unfold cstr. rewrite app_length. unfold segInside in I1. lia. }
      specialize (HX L). destruct (getHeaderIndex _ _ _) as [k|]; [eauto|]. exfalso.
      apply (HX d); [apply in_or_app; auto|]. rewrite <- (tidy_runs _ _ T (eq_sym G1)). apply same_refl. }
    destruct (addSegmentsOf cap (name d) (segments d) (ds ++ rest)) as [| |hs] eqn:EA; [|exact P|].
    + destruct (segments d) as [|s [|s' l]] eqn:Es.
      * cbn in EA. discriminate EA.
      * left. exists d. split; [exact Hd|]. intros T. destruct (Tidy T) as [N|(k & N)]; [cbn in N; lia|]. cbn [hd] in N. cbn [addSegmentsOf] in EA. rewrite N in EA. discriminate EA.
      * right. unfold extra. rewrite Es. cbn [length Nat.ltb Nat.leb]. cbn [length] in P. lia.
    + destruct P as (more & -> & H1 & H2 & H3 & H4 & H5).
      specialize (IH (done ++ [d]) (rest ++ more)). rewrite <- app_assoc in IH. specialize (IH E).
      assert (A : fromSegments ds (done ++ [d]) (rest ++ more)).
      { split; [exact H2|]. split; [exact H3|]. split; [exact H4|]. intros d' w Hi Hw. apply in_app_or in Hi. destruct Hi as [Hi|[<-|[]]].
        - destruct (HC d' w Hi Hw) as (h & A & B). exists h. split; [|exact B]. rewrite app_assoc. apply in_or_app. auto.
        - rewrite <- G1 in Hw. apply in_map_iff in Hw. destruct Hw as (s & <- & Hs). auto. }
      specialize (IH A). destruct (addHeadersFromSegments cap todo (ds ++ rest ++ more)) as [| |hs']; [|exact IH|exact IH].
      destruct IH as [IH|IH]; [left; exact IH|]. rewrite !app_length in *.
      destruct (segments d) as [|s [|s' l]] eqn:Es.
      * right. unfold extra. rewrite Es. cbn in *. lia.
      * destruct more as [|m more]; [right; unfold extra; rewrite Es; cbn in *; lia|]. left. exists d. split; [exact Hd|]. intros T.
        destruct (Tidy T) as [N|(k & N)]; [cbn in N; lia|]. cbn [hd] in N. cbn [addSegmentsOf] in EA. rewrite N in EA. injection EA as EA.
        apply (f_equal (@length Header)) in EA. rewrite !app_length in EA. cbn in EA. lia.
      * right. unfold extra. rewrite Es. cbn [length Nat.ltb Nat.leb]. cbn [length] in H1. lia.
Qed.

Lemma create_spec dataSet :
  match HeadersCreate dataSet with
  | Headers hs => exists ds rest, hs = ds ++ rest /\ fromDataSet dataSet ds /\ fromSegments ds ds rest
  | Null => False
  | Overflow => exists e, In e dataSet /\ ~ tidy (snd e)
  end.
Proof.
  unfold HeadersCreate. set (cap := countAllSegments dataSet).
  assert (F0 : fromDataSet [] []).
  { split; [constructor|]. split; [constructor|]. split; [constructor|]. split.
    - intros i j a b Ha. destruct i; discriminate Ha.
    - split; [intros e []|intros h []]. }
  pose proof (dataSet_phase cap dataSet [] [] F0) as P. destruct (addHeadersFromDataSet cap dataSet []) as [| |ds].
  - cbn in P. unfold cap in P. lia.
  - exact P.
  - destruct P as (P & Q). cbn [app] in P. cbn [length extras] in Q. pose proof P as (H1 & H2 & H3 & H4 & H5 & H6).
    assert (S0 : fromSegments ds [] []).
    { unfold fromSegments. rewrite app_nil_r. split; [exact H1|]. split; [exact H4|]. split; [constructor|]. intros d w []. }
    pose proof (all_phase cap ds H1 ds [] [] eq_refl S0) as R. rewrite app_nil_r in R.
    destruct (addHeadersFromSegments cap ds ds) as [| |hs].
    + destruct R as [(h & Hi & N)|R]; [|unfold cap in R; lia]. destruct (H6 h Hi) as (_ & b & a & E & _).
      exists (key h). split; [rewrite E; apply in_or_app; right; left; reflexivity|exact N].
    + exact R.
    + destruct R as (rest & -> & R). exists ds, rest. split; [reflexivity|]. split; [exact P|exact R].
Qed.

(* the comparison of getHeaderIndex never reads outside the texts when the name
   has at least the given length *)
Lemma index_reads_inside (h : Header) (nm : list Z) len : nameLength h = len -> len <= List.length nm ->
  StringCompareLength len nm (cstr (name h)) <> None.
Proof.
  intros E L. destruct (compareLength_some len nm (cstr (name h)) L) as (d & D & _).
  - unfold cstr. rewrite app_length. unfold nameLength in E. cbn. lia.
  - congruence.
Qed.
