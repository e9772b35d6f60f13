(* Proofs about InitModel *)
From Coq Require Import Permutation.
From Verif Require Import ItemModel ItemProofs HeadersSpec HeadersProofs LifeProofs InitModel InitSpec.
From Verif Require LifeModel LifeSpec.
Local Open Scope Z_scope.

(* ---- headers ---- *)
Definition nameSize (n : list Z) : Z := Z.of_nat (length n) + 1.
Definition itemSize (n : list Z) : Z := Z.of_nat (length n) + 3.
Definition itemBlocks (h : hitem) : list (nat * Z) :=
  [(bname h, nameSize (name (content h))); (bsegs h, 24 * Z.of_nat (countHeaderSegments (name (content h))) + 16)].
Definition hBlocks (hs : list hitem) := concat (map itemBlocks hs).

Lemma freeItems_owns m0 hs : forall m ps, owns m0 m (hBlocks hs ++ ps) -> exists m', freeItems m hs = Some m' /\ owns m0 m' ps.
Proof.
  induction hs as [|h hs IH]; intros m ps H; cbn [freeItems]; [exists m; auto|].
  unfold hBlocks in H. cbn [map concat itemBlocks app] in H. fold (hBlocks hs) in H.
  destruct (owns_free _ _ _ _ _ H) as (m1 & -> & H1). destruct (owns_free _ _ _ _ _ H1) as (m2 & -> & H2). auto.
Qed.
Lemma touchNames_owns m0 ds : forall m ps, owns m0 m ps -> exists m', touchNames m ds = Some m' /\ owns m0 m' ps.
Proof.
  induction ds as [|(id, n) ds IH]; intros m ps H; cbn [touchNames]; [exists m; auto|].
  destruct (getName m n) as [m1 p] eqn:E. pose proof (owns_alloc _ _ _ _ _ _ H E) as H1.
  destruct (owns_free _ _ _ _ _ H1) as (m2 & -> & H2). auto.
Qed.
Lemma createSegments_owns m0 m ps n ok segs : owns m0 m ps -> createSegmentArray n = Some segs ->
  exists m' r, createSegments m n ok = Some (m', r) /\
    match r with
    | Some (segs', q) => ok = true /\ segs' = segs /\ owns m0 m' ((q, 24 * Z.of_nat (countHeaderSegments n) + 16) :: ps)
    | None => ok = false /\ owns m0 m' ps
    end.
Proof.
  intros H E. unfold createSegments. destruct ok; [|do 2 eexists; split; [reflexivity|]; cbn beta iota; auto].
  destruct (LifeModel.alloc m _) as [m1 q] eqn:A. pose proof (owns_alloc _ _ _ _ _ _ H A) as H1. rewrite E.
  do 2 eexists. split; [reflexivity|]. cbn beta iota. auto.
Qed.
(* what is lost when a header of the data set cannot be made *)
Definition lostName (n : list Z) (lost : list (nat * Z)) : Prop := lost = [] \/ exists p, lost = [(p, nameSize n)].
Lemma fromDataSet_owns m0 m ps n id a b segs : owns m0 m ps -> createSegmentArray n = Some segs ->
  exists m' r, setHeaderFromDataSet m n id a b = Some (m', r) /\
    match r with
    | Some h => content h = mkHeader n true id segs /\ owns m0 m' (itemBlocks h ++ ps)
    | None => (a && b)%bool = false /\ exists lost, lostName n lost /\ owns m0 m' (lost ++ ps)
    end.
Proof.
  intros H E. unfold setHeaderFromDataSet. destruct a.
  - destruct (LifeModel.alloc m _) as [m1 p] eqn:A. pose proof (owns_alloc _ _ _ _ _ _ H A) as H1.
    destruct (createSegments_owns m0 m1 _ n b segs H1 E) as (m2 & [(segs' & q)|] & -> & H2).
    + destruct H2 as (_ & -> & H2). do 2 eexists. split; [reflexivity|]. cbn beta iota. split; [reflexivity|].
      unfold itemBlocks, nameSize. cbn [content bname bsegs name app]. eapply owns_perm; [|exact H2]. apply perm_swap.
    + destruct H2 as (-> & H2). do 2 eexists. split; [reflexivity|]. cbn beta iota. split; [reflexivity|].
      exists [(p, nameSize n)]. split; [right; eauto|exact H2].
  - do 2 eexists. split; [reflexivity|]. cbn beta iota. split; [reflexivity|]. exists []. split; [now left|exact H].
Qed.
Lemma fromSegment_owns m0 m ps n a b segs : owns m0 m ps -> createSegmentArray n = Some segs ->
  exists m' r, setHeaderFromSegment m n a b = Some (m', r) /\
    match r with
    | Some h => content h = mkHeader n false 0 segs /\ owns m0 m' (itemBlocks h ++ ps)
    | None => (a && b)%bool = false /\ owns m0 m' ps
    end.
Proof.
  intros H E. unfold setHeaderFromSegment. destruct a.
  - destruct (LifeModel.alloc m _) as [m1 p] eqn:A. pose proof (owns_alloc _ _ _ _ _ _ H A) as H1.
    destruct (createSegments_owns m0 m1 _ n b segs H1 E) as (m2 & [(segs' & q)|] & -> & H2).
    + destruct H2 as (_ & -> & H2). do 2 eexists. split; [reflexivity|]. cbn beta iota. split; [reflexivity|].
      unfold itemBlocks, nameSize. cbn [content bname bsegs name app]. eapply owns_perm; [|exact H2]. apply perm_swap.
    + destruct H2 as (-> & H2). destruct (owns_free _ _ _ _ _ H2) as (m3 & -> & H3).
      do 2 eexists. split; [reflexivity|]. cbn beta iota. auto.
  - do 2 eexists. split; [reflexivity|]. cbn beta iota. auto.
Qed.
Lemma hBlocks_snoc hs h ps : Permutation (itemBlocks h ++ hBlocks hs ++ ps) (hBlocks (hs ++ [h]) ++ ps).
Proof.
  unfold hBlocks. rewrite map_app, concat_app. cbn [map concat]. rewrite app_nil_r, !app_assoc.
  apply Permutation_app_tail, Permutation_app_comm.
Qed.
(* one of the names of the data set and what is lost for it *)
Definition lostFor (ds : list (Z * list Z)) (lost : list (nat * Z)) : Prop :=
  exists e p lost', In e ds /\ lostName (snd e) lost' /\ lost = lost' ++ [(p, itemSize (snd e))].
Lemma lostFor_cons e ds lost : lostFor ds lost -> lostFor (e :: ds) lost.
Proof. intros (x & p & l & Hi & H). exists x, p, l. split; [now right|exact H]. Qed.

Lemma addFromDataSet_owns m0 ok cap ds : forall m hs ps, owns m0 m (hBlocks hs ++ ps) ->
  addHeadersFromDataSet cap ds (map content hs) <> Overflow -> addHeadersFromDataSet cap ds (map content hs) <> Null ->
  exists m' hs' b, addFromDataSet m ok cap ds hs = Some (m', hs', b) /\
    if b then addHeadersFromDataSet cap ds (map content hs) = Headers (map content hs') /\ owns m0 m' (hBlocks hs' ++ ps)
    else (exists i, (ok (DName i) && ok (DSegs i))%bool = false) /\ exists lost, lostFor ds lost /\ owns m0 m' (lost ++ hBlocks hs' ++ ps).
Proof.
  induction ds as [|(id, n) ds IH]; intros m hs ps H NO NN; cbn [addFromDataSet addHeadersFromDataSet] in *.
  - do 3 eexists. split; [reflexivity|]. cbn beta iota. auto.
  - destruct (getName m n) as [m1 p] eqn:E. pose proof (owns_alloc _ _ _ _ _ _ H E) as H1.
    destruct (_ && _ && _)%bool.
    + rewrite map_length in NO, NN |- *. destruct (Nat.ltb (length hs) cap); [|congruence].
      destruct (createSegmentArray n) as [segs|] eqn:Es; [|congruence].
      destruct (fromDataSet_owns m0 m1 _ n id (ok (DName (length hs))) (ok (DSegs (length hs))) segs H1 Es) as (m2 & [h|] & -> & H2).
      * destruct H2 as (Hc & H2).
        assert (owns m0 m2 ((p, itemSize n) :: hBlocks (hs ++ [h]) ++ ps)) as H3.
        { eapply owns_perm; [|exact H2]. eapply Permutation_trans; [apply Permutation_sym, Permutation_middle|]. apply perm_skip, hBlocks_snoc. }
        destruct (owns_free _ _ _ _ _ H3) as (m3 & -> & H4).
        assert (map content (hs ++ [h]) = map content hs ++ [mkHeader n true id segs]) as Em by (rewrite map_app; cbn; now rewrite Hc).
        specialize (IH m3 (hs ++ [h]) ps H4). rewrite Em in IH. destruct (IH NO NN) as (m' & hs' & b & -> & Hb).
        do 3 eexists. split; [reflexivity|]. destruct b; [exact Hb|]. destruct Hb as (Hf & lost & Hl & Ho).
        split; [exact Hf|]. exists lost. split; [now apply lostFor_cons|exact Ho].
      * destruct H2 as (Hf & lost & Hl & Ho). do 3 eexists. split; [reflexivity|]. cbn beta iota. split; [eauto|].
        exists (lost ++ [(p, itemSize n)]). split.
        -- exists (id, n), p, lost. split; [now left|]. auto.
        -- rewrite <- app_assoc. exact Ho.
    + destruct (owns_free _ _ _ _ _ H1) as (m2 & -> & H2). destruct (IH m2 hs ps H2 NO NN) as (m' & hs' & b & -> & Hb).
      do 3 eexists. split; [reflexivity|]. destruct b; [exact Hb|]. destruct Hb as (Hf & lost & Hl & Ho).
      split; [exact Hf|]. exists lost. split; [now apply lostFor_cons|exact Ho].
Qed.
Lemma addSegsOf_owns m0 ok cap n segs : forall m hs ps, owns m0 m (hBlocks hs ++ ps) ->
  addSegmentsOf cap n segs (map content hs) <> Overflow -> addSegmentsOf cap n segs (map content hs) <> Null ->
  exists m' hs' b, addSegsOf m ok cap n segs hs = Some (m', hs', b) /\ owns m0 m' (hBlocks hs' ++ ps) /\
    if b then addSegmentsOf cap n segs (map content hs) = Headers (map content hs')
    else exists i, (ok (SName i) && ok (SSegs i))%bool = false.
Proof.
  induction segs as [|s segs IH]; intros m hs ps H NO NN; cbn [addSegsOf addSegmentsOf] in *.
  - do 3 eexists. split; [reflexivity|]. cbn beta iota. auto.
  - destruct (getHeaderIndex (map content hs) _ _) eqn:Ei; [auto|].
    rewrite map_length in NO, NN |- *. destruct (Nat.ltb (length hs) cap); [|congruence].
    destruct (createSegmentArray (segText n s)) as [segs'|] eqn:Es; [|congruence].
    destruct (fromSegment_owns m0 m _ (segText n s) (ok (SName (length hs))) (ok (SSegs (length hs))) segs' H Es) as (m2 & [h|] & -> & H2).
    + destruct H2 as (Hc & H2).
      assert (map content (hs ++ [h]) = map content hs ++ [mkHeader (segText n s) false 0 segs']) as Em by (rewrite map_app; cbn; now rewrite Hc).
      specialize (IH m2 (hs ++ [h]) ps). rewrite Em in IH. apply IH; auto. eapply owns_perm; [apply hBlocks_snoc|exact H2].
    + destruct H2 as (Hf & Ho). do 3 eexists. split; [reflexivity|]. cbn beta iota. split; [exact Ho|eauto].
Qed.
Lemma addFromSegments_owns m0 ok cap todo : forall m hs ps, owns m0 m (hBlocks hs ++ ps) ->
  addHeadersFromSegments cap todo (map content hs) <> Overflow -> addHeadersFromSegments cap todo (map content hs) <> Null ->
  exists m' hs' b, addFromSegments m ok cap todo hs = Some (m', hs', b) /\ owns m0 m' (hBlocks hs' ++ ps) /\
    if b then addHeadersFromSegments cap todo (map content hs) = Headers (map content hs')
    else exists i, (ok (SName i) && ok (SSegs i))%bool = false.
Proof.
  induction todo as [|h todo IH]; intros m hs ps H NO NN; cbn [addFromSegments addHeadersFromSegments] in *.
  - do 3 eexists. split; [reflexivity|]. cbn beta iota. auto.
  - destruct (addSegsOf_owns m0 ok cap (name h) (segments h) m hs ps H) as (m1 & hs1 & b & E & Ho & Hb).
    + intros X. rewrite X in NO. congruence.
    + intros X. rewrite X in NN. congruence.
    + rewrite E. destruct b.
      * rewrite Hb in NO, NN |- *. apply IH; auto.
      * do 3 eexists. split; [reflexivity|]. cbn beta iota. auto.
Qed.

(* the blocks of an array of headers *)
Definition hdrsBlocks (h : option hdrs) (cap : Z) : list (nat * Z) :=
  match h with Some h => hBlocks (hitems h) ++ [(hblock h, cap)] | None => [] end.
Lemma HeadersFree_owns m0 m h cap ps : owns m0 m (hdrsBlocks h cap ++ ps) -> exists m', HeadersFree m h = Some m' /\ owns m0 m' ps.
Proof.
  destruct h as [h|]; cbn [hdrsBlocks HeadersFree]; [|exists m; auto]. rewrite <- app_assoc. intros H.
  destruct (freeItems_owns _ _ _ _ H) as (m1 & -> & H1). cbn [app] in H1. now apply owns_free in H1.
Qed.
Lemma HeadersCreate_owns m0 m ok ds ps : tidyNames ds -> owns m0 m ps ->
  exists m' r lost, HeadersCreate m ok ds = Some (m', r) /\ owns m0 m' (hdrsBlocks r (40 * Z.of_nat (countAllSegments ds) + 24) ++ lost ++ ps) /\
    match r with
    | Some h => HeadersModel.HeadersCreate ds = Headers (map content (hitems h)) /\ lost = []
    | None => (exists c, ok c = false) /\ (lost = [] \/ lostFor ds lost /\ exists i, (ok (DName i) && ok (DSegs i))%bool = false)
    end.
Proof.
  intros Ht H. unfold HeadersCreate. destruct (touchNames_owns m0 ds m ps H) as (m1 & -> & H1).
  destruct (ok HArray) eqn:EA.
  2:{ do 3 eexists. split; [reflexivity|]. split; [instantiate (1 := []); exact H1|]. cbn beta iota. eauto. }
  destruct (LifeModel.alloc m1 _) as [m2 a] eqn:A. pose proof (owns_alloc _ _ _ _ _ _ H1 A) as H2.
  pose proof (create_spec ds) as C. unfold HeadersModel.HeadersCreate in *. set (cap := countAllSegments ds) in *.
  destruct (addFromDataSet_owns m0 ok cap ds m2 [] _ H2) as (m3 & hs & b & -> & Hb).
  { cbn [map]. intros X. rewrite X in C. destruct C as (e & Hi & N). apply N, Ht, Hi. }
  { cbn [map]. intros X. rewrite X in C. exact C. }
  cbn [map] in Hb. destruct b.
  - destruct Hb as (Eb & H3). rewrite Eb in C |- *.
    destruct (addFromSegments_owns m0 ok cap (map content hs) m3 hs _ H3) as (m4 & hs' & b' & -> & H4 & Hb').
    { intros X. rewrite X in C. destruct C as (e & Hi & N). apply N, Ht, Hi. }
    { intros X. rewrite X in C. exact C. }
    destruct b'.
    + do 3 eexists. split; [reflexivity|]. split; [|cbn beta iota; split; [exact Hb'|reflexivity]].
      cbn [hdrsBlocks hitems hblock app]. rewrite <- app_assoc. exact H4.
    + destruct (HeadersFree_owns m0 m4 (Some (mkHdrs a hs')) (40 * Z.of_nat cap + 24) ps) as (m5 & -> & H5).
      { cbn [hdrsBlocks hitems hblock]. rewrite <- app_assoc. exact H4. }
      exists m5, None, []. split; [reflexivity|]. split; [exact H5|]. split; [|now left].
      destruct Hb' as (i & Hi). apply Bool.andb_false_iff in Hi as [Hi|Hi]; eauto.
  - destruct Hb as ((i & Hi) & lost & Hl & H3).
    destruct (HeadersFree_owns m0 m3 (Some (mkHdrs a hs)) (40 * Z.of_nat cap + 24) (lost ++ ps)) as (m5 & -> & H5).
    { cbn [hdrsBlocks hitems hblock]. rewrite <- app_assoc. eapply owns_perm; [|exact H3]. cbn [app].
      rewrite !app_assoc. eapply Permutation_trans; [apply Permutation_app_tail, Permutation_app_comm|].
      rewrite <- !app_assoc. apply Permutation_app_head, Permutation_sym, Permutation_middle. }
    exists m5, None, lost. split; [reflexivity|]. split; [exact H5|]. split; [|right; eauto].
    apply Bool.andb_false_iff in Hi as [Hi|Hi]; eauto.
Qed.

(* ---- properties ---- *)
Definition nBlocks (it : item) : list (nat * Z) := match ihandle it with Some p => [(p, allocated (idata it))] | None => [] end.
Definition pBlocks (x : pitem) : list (nat * Z) :=
  nBlocks (pname x) ++ match pevidence x with Some (p, c, _) => [(p, 4 * c + 16)] | None => [] end.
Definition psBlocks (l : list pitem) := concat (map pBlocks l).
Definition itemOK (it : item) : Prop := ihandle it = None \/ exists p n, it = mkItem (mkData (Some p) n) (Some p).
(* how the item comes out of the read *)
Definition readAs (w : way) (it : item) : Prop :=
  itemOK it /\ (usable it = true <-> LifeSpec.readable w) /\ (clean w -> ptr (idata it) = None \/ usable it = true) /\
  (~ clean w -> ptr (idata it) <> None /\ usable it = false).

Lemma clean_dec w : clean w \/ ~ clean w.
Proof.
  destruct w as [|b [] []]; try (left; intros ? X; discriminate X). right. intros X. now apply (X b).
Qed.
Lemma getName_owns m0 m ps w : LifeSpec.sized w -> owns m0 m ps ->
  exists m' it r, getFile m (mkItem DataReset None) w = Some (m', it, r) /\ readAs w it /\ owns m0 m' (nBlocks it ++ ps).
Proof.
  intros Hs H. destruct (getFile_owns m0 m ps w Hs H) as (m' & it & r & E & Hr). exists m', it, r. split; [exact E|].
  assert (forall (b : Z) (x y : bool), w = Try b x y -> 0 < b < 2 ^ 32) as Hb by exact Hs.
  unfold readAs, itemOK, usable, nBlocks.
  destruct w as [|b x y].
  - cbn [getFile] in E. injection E as <- <- <-. destruct Hr as (Ho & _). cbn [ihandle idata ptr app]. split; [|exact Ho].
    split; [now left|]. split; [split; [discriminate|intros (z & X & _); discriminate X]|]. split; [now left|].
    intros N. exfalso. apply N. intros z X. discriminate X.
  - specialize (Hb b x y eq_refl). destruct x.
    + destruct r as [p|].
      * destruct Hr as (Ho & -> & _). cbn [ihandle idata ptr app allocated]. split; [|exact Ho]. split; [right; eauto|].
        assert (y = true) as ->.
        { cbn [getFile DataMalloc DataReset idata allocated] in E. cbn in E. unfold write in E. cbn [live sizeOf] in E.
          rewrite Nat.eqb_refl in E. rewrite Z.leb_refl in E. destruct y; [reflexivity|].
          unfold free in E. cbn [live sizeOf] in E. rewrite Nat.eqb_refl in E. discriminate E. }
        split; [split; [intros _; exists b; auto|auto]|]. split; [now right|]. intros N. exfalso. apply N. intros z X. discriminate X.
      * destruct Hr as (Ho & Hh). rewrite Hh. cbn [app]. split; [|exact Ho]. split; [now left|].
        cbn in E. unfold write in E. cbn [live sizeOf] in E. rewrite Nat.eqb_refl, Z.leb_refl in E.
        destruct y; [discriminate E|]. unfold free in E. cbn [live sizeOf] in E. rewrite Nat.eqb_refl in E. injection E as E1 E2.
        split; [split; [discriminate|intros (z & X & _); discriminate X]|]. split; [intros N; exfalso; now apply (N b)|].
        intros _. split; [subst it; discriminate|reflexivity].
    + cbn in E. injection E as <- <- <-. destruct Hr as (Ho & _). cbn [ihandle idata ptr app]. split; [|exact Ho].
      split; [now left|]. split; [split; [discriminate|intros (z & X & _); discriminate X]|]. split; [now left|].
      intros N. exfalso. apply N. intros z X. discriminate X.
Qed.
Lemma setNames_owns m0 ways : Forall LifeSpec.sized ways -> forall m ps, owns m0 m ps ->
  exists m' names, setNames m ways = Some (m', names) /\ Forall2 readAs ways names /\ owns m0 m' (concat (map nBlocks names) ++ ps).
Proof.
  induction ways as [|w ways IH]; intros HF m ps H; cbn [setNames].
  - exists m, []. auto.
  - inversion HF as [|? ? Hw HF']; subst. destruct (getName_owns m0 m ps w Hw H) as (m1 & it & r & -> & Hr & H1).
    destruct (IH HF' m1 _ H1) as (m2 & names & -> & H2 & H3). exists m2, (it :: names). split; [reflexivity|]. split; [now constructor|].
    cbn [map concat]. eapply owns_perm; [|exact H3]. rewrite !app_assoc. apply Permutation_app_tail, Permutation_app_comm.
Qed.
(* an item made from what was asked for *)
Definition made (x : way * evid) (y : pitem) : Prop :=
  readAs (fst x) (pname y) /\
  match pevidence y with Some (_, c, k) => okArray (snd x) = true /\ c = needed (snd x) /\ k = given (snd x) | None => okArray (snd x) = false end.
Lemma setEvidence_owns m0 l : forall names m ps, Forall2 readAs (map fst l) names -> owns m0 m (concat (map nBlocks names) ++ ps) ->
  exists m' items, setEvidence m names (map snd l) = (m', items) /\ Forall2 made l items /\ owns m0 m' (psBlocks items ++ ps).
Proof.
  induction l as [|(w, e) l IH]; intros names m ps HF H; cbn [map fst snd] in *; inversion HF as [|? it ? names' Hr HF']; subst; cbn [setEvidence].
  - exists m, []. auto.
  - cbn [map concat] in H. rewrite <- app_assoc in H.
    assert (forall m1 ev es, owns m0 m1 (concat (map nBlocks names') ++ es ++ nBlocks it ++ ps) ->
      es = match ev with Some (p, c, _) => [(p, 4 * c + 16)] | None => [] end ->
      match ev with Some (_, c, k) => okArray e = true /\ c = needed e /\ k = given e | None => okArray e = false end ->
      exists m' items, (let (m2, l2) := setEvidence m1 names' (map snd l) in (m2, mkPItem it ev :: l2)) = (m', items) /\
        Forall2 made ((w, e) :: l) items /\ owns m0 m' (psBlocks items ++ ps)) as K.
    { intros m1 ev es H1 -> Hev. destruct (IH names' m1 _ HF' H1) as (m2 & items & -> & H2 & H3). do 2 eexists. split; [reflexivity|].
      split; [constructor; [split; [exact Hr|exact Hev]|exact H2]|]. unfold psBlocks. cbn [map concat]. fold (psBlocks items).
      unfold pBlocks at 1. cbn [pname pevidence]. eapply owns_perm; [|exact H3]. rewrite !app_assoc. apply Permutation_app_tail.
      rewrite <- !app_assoc. eapply Permutation_trans; [apply Permutation_app_comm|]. rewrite (app_assoc (nBlocks it)). apply Permutation_app_tail, Permutation_app_comm. }
    destruct (okArray e) eqn:Eo.
    + destruct (LifeModel.alloc m _) as [m1 p] eqn:A. pose proof (owns_alloc _ _ _ _ _ _ H A) as H1.
      apply (K m1 (Some (p, needed e, given e)) [(p, 4 * needed e + 16)]); auto.
      eapply owns_perm; [|exact H1]. cbn [app]. eapply Permutation_trans; [|apply Permutation_middle]. apply perm_skip.
      rewrite !app_assoc. apply Permutation_app_tail, Permutation_app_comm.
    + apply (K m None []); auto. cbn [app]. eapply owns_perm; [|exact H].
      rewrite !app_assoc. apply Permutation_app_tail, Permutation_app_comm.
Qed.
Lemma psBlocks_perm l l' : Permutation l l' -> Permutation (psBlocks l) (psBlocks l').
Proof.
  unfold psBlocks. induction 1; cbn [map concat].
  - constructor.
  - now apply Permutation_app_head.
  - rewrite !app_assoc. apply Permutation_app_tail, Permutation_app_comm.
  - eapply Permutation_trans; eassumption.
Qed.
(* an item whose memory can be given back *)
Definition freeable (x : pitem) : Prop := itemOK (pname x) /\ (ptr (idata (pname x)) = None \/ usable (pname x) = true).
Lemma freeProps_owns m0 l : Forall freeable l -> forall m ps, owns m0 m (psBlocks l ++ ps) -> exists m', freeProps m l = Some m' /\ owns m0 m' ps.
Proof.
  induction l as [|x l IH]; intros HF m ps H; cbn [freeProps]; [exists m; auto|].
  inversion HF as [|? ? (Hi & Hx) HF']; subst. unfold psBlocks in H. cbn [map concat] in H. fold (psBlocks l) in H. unfold pBlocks in H.
  rewrite <- !app_assoc in H.
  assert (exists m1, (match ptr (idata (pname x)) with
           | Some _ => if usable (pname x)
                       then match releaseFile m (pname x) with Some (m, _) => Some m | None => None end
                       else None
           | None => Some m
           end) = Some m1 /\ owns m0 m1 (match pevidence x with Some (p, c, _) => [(p, 4 * c + 16)] | None => [] end ++ psBlocks l ++ ps)) as (m1 & -> & H1).
  { unfold nBlocks in H. destruct Hi as [Hi|(p & n & Hi)].
    - rewrite Hi in H. unfold usable in *. rewrite Hi in *. destruct Hx as [->|]; [|discriminate]. exists m. auto.
    - rewrite Hi in *. cbn [ihandle idata allocated app] in H. destruct (release_owns _ _ _ _ _ H) as (m1 & E & H1).
      cbn [idata ptr usable ihandle]. rewrite E. eauto. }
  destruct (pevidence x) as [((p, c), k)|].
  - destruct (owns_free _ _ _ _ _ H1) as (m2 & -> & H2). auto.
  - auto.
Qed.
Definition propsBlocks (p : option props) (n : Z) : list (nat * Z) :=
  match p with Some p => psBlocks (pitems p) ++ [(pblock p, n)] | None => [] end.
Definition propsOK (p : option props) : Prop := forall q, p = Some q -> Forall freeable (pitems q).
Lemma PropertiesFree_owns m0 m p n ps : propsOK p -> owns m0 m (propsBlocks p n ++ ps) -> exists m', PropertiesFree m p = Some m' /\ owns m0 m' ps.
Proof.
  destruct p as [p|]; cbn [propsBlocks PropertiesFree]; [|exists m; auto]. rewrite <- app_assoc. intros Hk H.
  destruct (freeProps_owns m0 _ (Hk p eq_refl) _ _ H) as (m1 & -> & H1). cbn [app] in H1. now apply owns_free in H1.
Qed.
Definition propsSize (chosen : option (list (way * evid))) : Z :=
  match chosen with Some l => 16 + 64 * Z.of_nat (length l) | None => 0 end.
(* the items can be sorted *)
Definition usableAll (l : list (way * evid)) : Prop := Forall named l \/ exists w e, l = [(w, e)] /\ clean w.
Lemma Forall2_length A B (R : A -> B -> Prop) l l' : Forall2 R l l' -> length l = length l'.
Proof. induction 1; cbn; congruence. Qed.
Lemma made_sortable l items : Forall2 made l items -> sortable items = true <-> usableAll l.
Proof.
  intros HF. pose proof (Forall2_length _ _ _ _ _ HF) as El. unfold sortable, usableAll.
  assert (forallb (fun x => usable (pname x)) items = true <-> Forall named l) as K.
  { clear El. induction HF as [|x y l items (Hr & _) HF IH]; cbn [forallb].
    - split; auto.
    - rewrite Bool.andb_true_iff, IH. destruct Hr as (_ & Hu & _). rewrite Hu. split.
      + intros (A & B). constructor; auto.
      + intros X. inversion X; subst. auto. }
  destruct (Nat.leb_spec 2 (length items)).
  - rewrite K. split; [auto|]. intros [|(w & e & -> & _)]; [auto|]. cbn in El. lia.
  - destruct HF as [|x y l items Hm HF].
    + cbn. split; auto.
    + assert (l = [] /\ items = []) as (-> & ->).
      { clear K. cbn [length] in *. destruct items; cbn [length] in *; [|lia]. destruct l; [auto|cbn in El; lia]. }
      cbn [forallb]. rewrite Bool.andb_true_r. destruct Hm as ((Hi & Hu & Hc & Hn) & _). destruct x as [w e]. cbn [fst] in *. split.
      * intros E. destruct (clean_dec w) as [C|C]; [right; eauto|]. destruct (Hn C) as (Hp & Hx).
        destruct (ptr (idata (pname y))); [congruence|congruence].
      * intros [X|(w' & e' & X & C)].
        -- inversion X as [|? ? Hx]; subst. unfold named in Hx. cbn [fst] in Hx. apply Hu in Hx. destruct (ptr _); auto.
        -- injection X as <- <-. destruct (Hc C) as [-> | ->]; [reflexivity|]. destruct (ptr _); reflexivity.
Qed.
Lemma readable_clean w : LifeSpec.readable w -> clean w.
Proof. intros (b & -> & _) z X. discriminate X. Qed.
Lemma made_freeable l items : Forall2 made l items -> usableAll l -> Forall freeable items.
Proof.
  intros HF Hu. assert (Forall (fun x => clean (fst x)) l) as HC.
  { destruct Hu as [H|(w & e & -> & H)]; [|now repeat constructor]. eapply Forall_impl; [|exact H]. intros x. apply readable_clean. }
  clear Hu. induction HF as [|x y l items Hm HF IH]; [constructor|]. inversion HC as [|? ? Hx HC']; subst.
  constructor; [|auto]. destruct Hm as ((Hi & _ & Hc & _) & _). split; auto.
Qed.
Lemma PropertiesCreate_owns m0 m okMem chosen order ps : (forall l, chosen = Some l -> Forall LifeSpec.sized (map fst l)) -> reorders order ->
  owns m0 m ps ->
  match PropertiesCreate m okMem chosen order with
  | Some (m', r) => owns m0 m' (propsBlocks r (propsSize chosen) ++ ps) /\ propsOK r /\
    match r with
    | Some p => okMem = true /\ exists l items, chosen = Some l /\ usableAll l /\ Forall2 made l items /\ pitems p = order items
    | None => listed okMem chosen = false
    end
  | None => okMem = true /\ exists l, chosen = Some l /\ ~ usableAll l
  end.
Proof.
  intros Hs Ho H. unfold PropertiesCreate. destruct chosen as [l|].
  2:{ cbn [propsBlocks app]. split; [exact H|]. split; [intros ? X; discriminate X|reflexivity]. }
  destruct okMem.
  2:{ cbn [propsBlocks app]. split; [exact H|]. split; [intros ? X; discriminate X|reflexivity]. }
  destruct (LifeModel.alloc m _) as [m1 b] eqn:A. pose proof (owns_alloc _ _ _ _ _ _ H A) as H1.
  destruct (setNames_owns m0 (map fst l) (Hs l eq_refl) m1 _ H1) as (m2 & names & -> & H2 & H3).
  destruct (setEvidence_owns m0 l names m2 _ H2 H3) as (m3 & items & -> & H4 & H5).
  pose proof (made_sortable l items H4) as Es. destruct (sortable items).
  - assert (usableAll l) as Hu by now apply Es. split; [|split].
    + cbn [propsBlocks pitems pblock propsSize]. rewrite <- app_assoc. eapply owns_perm; [|exact H5].
      apply Permutation_app_tail, psBlocks_perm, Ho.
    + intros q X. injection X as <-. cbn [pitems]. eapply Permutation_Forall; [apply Ho|]. eapply made_freeable; eassumption.
    + split; [reflexivity|]. exists l, items. auto.
  - split; [reflexivity|]. exists l. split; [reflexivity|]. intros X. apply Es in X. discriminate X.
Qed.

(* ---- the data set ---- *)
Definition optBlock (p : option nat) (n : Z) : list (nat * Z) := match p with Some p => [(p, n)] | None => [] end.
Definition dBlocks (d : dset) (sh so sp sm : Z) : list (nat * Z) :=
  hdrsBlocks (uniqueHeaders d) sh ++ optBlock (overridable d) so ++ propsBlocks (available d) sp ++ optBlock (memoryToFree d) sm.
Lemma freeOpt_owns m0 m p n ps : owns m0 m (optBlock p n ++ ps) ->
  exists m', match p with Some p => free m p | None => Some m end = Some m' /\ owns m0 m' ps.
Proof. destruct p as [p|]; cbn [optBlock app]; [apply owns_free|exists m; auto]. Qed.
Lemma DataSetFree_owns m0 m d sh so sp sm ps t : propsOK (available d) -> useTemp d = Some t -> owns m0 m (dBlocks d sh so sp sm ++ ps) ->
  exists m', DataSetFree m d = Some (m', mkDset None None None None (Some t), t) /\ owns m0 m' ps.
Proof.
  intros Hp Et H. unfold DataSetFree, dBlocks in *. rewrite <- !app_assoc in H.
  destruct (HeadersFree_owns _ _ _ _ _ H) as (m1 & -> & H1).
  destruct (freeOpt_owns _ _ _ _ _ H1) as (m2 & -> & H2).
  destruct (PropertiesFree_owns _ _ _ _ _ Hp H2) as (m3 & -> & H3).
  destruct (freeOpt_owns _ _ _ _ _ H3) as (m4 & -> & H4). rewrite Et. eauto.
Qed.

(* what is set in a data set *)
Definition setIn (parts : list part) (d : dset) : Prop :=
  (uniqueHeaders d <> None -> In PHeaders parts) /\ (available d <> None -> In PProps parts) /\ (In PList parts -> available d <> None) /\
  (overridable d <> None -> In POverrides parts) /\ (memoryToFree d <> None -> In PMemory parts).
Definition goodSet (m0 : list (nat * Z)) (parts : list part) (m : mem) (d : dset) (t : bool) : Prop :=
  setIn parts d /\ propsOK (available d) /\ useTemp d = Some t /\ exists sh so sp sm, owns m0 m (dBlocks d sh so sp sm).
Lemma trusted_false ok : trustedHeaders ok -> forall i, (ok (DName i) && ok (DSegs i))%bool = false -> False.
Proof. intros H i E. destruct (H i) as (E1 & E2). rewrite E1, E2 in E. discriminate E. Qed.
Lemma named_sized l : Forall named l -> Forall LifeSpec.sized (map fst l).
Proof. induction 1 as [|x l (b & E & Hb) HF IH]; cbn; constructor; auto. rewrite E. intros b' x' y' X. injection X as <- <- <-. exact Hb. Qed.
Lemma none_or A (o : option A) (P : Prop) : (o <> None -> P) -> ~ P -> o = None.
Proof. destruct o; auto. intros H N. exfalso. apply N, H. discriminate. Qed.
Lemma drun_good m0 t os : forall m d parts, goodSet m0 parts m d t -> proper parts os ->
  exists m' d' parts', drun os m d = Some (m', d') /\ goodSet m0 parts' m' d' t.
Proof.
  induction os as [|o os IH]; intros m d parts G P; cbn [drun]; [eauto|].
  destruct G as ((S1 & S2 & S3 & S4 & S5) & Hp & Ht & sh & so & sp & sm & H).
  destruct o as [ok ds|okMem chosen order|ok n|n|]; cbn [dstep proper] in *.
  - destruct P as (P1 & P2 & P3 & P4). unfold DataSetInitHeaders. rewrite Ht.
    destruct (HeadersCreate_owns m0 m ok ds _ P3 H) as (m1 & r & lost & -> & H1 & Hr).
    assert (lost = []) as ->.
    { destruct r; [tauto|]. destruct Hr as (_ & [?|(_ & i & Hi)]); [auto|]. exfalso. eapply trusted_false; eassumption. }
    apply (IH _ _ (PHeaders :: parts)); [|exact P4]. split; [|split; [exact Hp|split; [reflexivity|]]].
    + unfold setIn. cbn [uniqueHeaders available overridable memoryToFree In]. intuition discriminate.
    + apply none_or in S1; [|exact P1]. unfold dBlocks in *. rewrite S1 in H1. cbn [hdrsBlocks app] in H1. cbn [uniqueHeaders available overridable memoryToFree].
      exists (40 * Z.of_nat (countAllSegments ds) + 24), so, sp, sm. exact H1.
  - destruct P as (P1 & P2 & P3 & P4). unfold DataSetInitProperties.
    assert (forall l, chosen = Some l -> Forall LifeSpec.sized (map fst l)) as Hz by (intros l El; apply named_sized, P2, El).
    pose proof (PropertiesCreate_owns m0 m okMem chosen order _ Hz P3 H) as K.
    destruct (PropertiesCreate m okMem chosen order) as [(m1 & r)|].
    2:{ destruct K as (_ & l & El & N). exfalso. apply N. left. apply P2, El. }
    destruct K as (H1 & Hk & Hr).
    set (d1 := mkDset (uniqueHeaders d) (overridable d) r (memoryToFree d) (useTemp d)).
    assert (exists st, match r with
      | None => Some (m1, d1, REQ_PROP_NOT_PRESENT)
      | Some p =>
        if Nat.eqb (length (pitems p)) 0 then Some (m1, d1, REQ_PROP_NOT_PRESENT)
        else if existsb (fun x => match ptr (idata (pname x)) with None => true | Some _ => false end) (pitems p)
             then Some (m1, d1, COLLECTION_FAILURE)
             else Some (m1, d1, checkEvidence (pitems p))
      end = Some (m1, d1, st)) as (st & ->).
    { destruct r as [p|]; [|eauto]. destruct (Nat.eqb _ _); [eauto|]. destruct (existsb _ _); eauto. }
    apply (IH _ _ (PProps :: if listed okMem chosen then PList :: parts else parts)); [|exact P4]. apply none_or in S2; [|exact P1].
    split; [|split; [exact Hk|split; [exact Ht|]]].
    + unfold setIn. subst d1. cbn [uniqueHeaders available overridable memoryToFree In].
      assert (forall x, In x parts -> In x (if listed okMem chosen then PList :: parts else parts)) as Hin by (intros x; destruct (listed _ _); cbn; auto).
      assert (~ In PList parts) as NL by (intros X; apply S3 in X; congruence).
      split; [auto|]. split; [auto|]. split; [|split; auto].
      intros [X|X]; [discriminate|]. destruct r as [p|]; [discriminate|]. rewrite Hr in X. contradiction.
    + unfold dBlocks in *. subst d1. rewrite S2 in H1. cbn [propsBlocks app] in H1. cbn [uniqueHeaders available overridable memoryToFree].
      exists sh, so, (propsSize chosen), sm. eapply owns_perm; [|exact H1]. rewrite !app_assoc. apply Permutation_app_tail.
      rewrite <- !app_assoc. eapply Permutation_trans; [apply Permutation_app_comm|]. rewrite <- app_assoc. apply Permutation_refl.
  - destruct P as (P1 & P2 & P3). unfold setOverrides. destruct (available d) as [av|] eqn:Ea; [|exfalso; apply (S3 P2); reflexivity].
    apply none_or in S4; [|exact P1].
    destruct (Nat.ltb 0 n && ok)%bool.
    + destruct (LifeModel.alloc m _) as [m1 p] eqn:A. pose proof (owns_alloc _ _ _ _ _ _ H A) as H1.
      apply (IH _ _ (POverrides :: parts)); [|exact P3]. split; [|split; [exact Hp|split; [exact Ht|]]].
      * unfold setIn. cbn [uniqueHeaders available overridable memoryToFree In]. intuition discriminate.
      * unfold dBlocks in *. rewrite S4, Ea in H1. cbn [optBlock app] in H1. cbn [uniqueHeaders available overridable memoryToFree optBlock].
        do 4 eexists. eapply owns_perm; [|exact H1]. apply Permutation_middle.
    + apply (IH _ _ (POverrides :: parts)); [|exact P3]. split; [|split; [exact Hp|split; [exact Ht|]]].
      * unfold setIn. cbn [uniqueHeaders available overridable memoryToFree In]. intuition discriminate.
      * unfold dBlocks in *. rewrite S4, Ea in H. cbn [uniqueHeaders available overridable memoryToFree]. exists sh, so, sp, sm. exact H.
  - destruct P as (P1 & P2). unfold setMemory. apply none_or in S5; [|exact P1].
    destruct (LifeModel.alloc m _) as [m1 p] eqn:A. pose proof (owns_alloc _ _ _ _ _ _ H A) as H1.
    apply (IH _ _ (PMemory :: parts)); [|exact P2]. split; [|split; [exact Hp|split; [exact Ht|]]].
    + unfold setIn. cbn [uniqueHeaders available overridable memoryToFree In]. intuition discriminate.
    + unfold dBlocks in *. rewrite S5 in H1. cbn [optBlock] in H1. rewrite app_nil_r in H1.
      cbn [uniqueHeaders available overridable memoryToFree optBlock].
      exists sh, so, sp, n. eapply owns_perm; [|exact H1]. rewrite !app_assoc. apply Permutation_cons_append.
  - destruct (DataSetFree_owns m0 m d sh so sp sm [] t Hp Ht) as (m1 & -> & H1); [now rewrite app_nil_r|].
    apply (IH _ _ []); [|exact P]. split; [|split; [intros ? X; discriminate X|split; [reflexivity|]]].
    + unfold setIn. cbn. intuition.
    + exists 0, 0, 0, 0. exact H1.
Qed.

(* ---- for the theorems ---- *)
Lemma hBlocks_fst hs : Permutation (map fst (hBlocks hs)) (map bname hs ++ map bsegs hs).
Proof.
  induction hs as [|h hs IH]; [constructor|]. unfold hBlocks. cbn [map concat itemBlocks app fst]. fold (hBlocks hs). constructor.
  eapply Permutation_trans; [apply perm_skip, IH|]. apply Permutation_middle.
Qed.
Lemma nodup_app_l A (l l' : list A) : NoDup (l ++ l') -> NoDup l.
Proof.
  induction l as [|x l IH]; cbn; [constructor|]. intros H. inversion H as [|? ? N H']; subst. constructor; auto.
  intros Hi. apply N, in_or_app. now left.
Qed.
Lemma owns_housed m0 m hs ps : Forall goodHeader (map content hs) -> owns m0 m (hBlocks hs ++ ps) -> housed (live m) hs.
Proof.
  intros HG [H1 _ H3 _]. split.
  - eapply Permutation_NoDup; [apply hBlocks_fst|]. rewrite map_app in H1. now apply nodup_app_l in H1.
  - intros h Hi. assert (incl (itemBlocks h) (hBlocks hs ++ ps)) as I.
    { intros b Hb. apply in_or_app. left. unfold hBlocks. apply in_concat. exists (itemBlocks h). split; [now apply in_map|exact Hb]. }
    assert (length (segments (content h)) = countHeaderSegments (name (content h))) as El.
    { rewrite Forall_forall in HG. destruct (HG (content h)) as (E & _ & N); [now apply in_map|]. rewrite count_runs by exact N. now rewrite <- E, map_length. }
    unfold itemBlocks, nameSize in I. do 2 eexists.
    split; [eapply sizeOf_in, H3, I; left; reflexivity|]. split; [lia|].
    split; [eapply sizeOf_in, H3, I; right; left; reflexivity|]. rewrite El. lia.
Qed.
Lemma created_good ds hs : HeadersModel.HeadersCreate ds = Headers hs -> Forall goodHeader hs.
Proof. intros E. pose proof (create_spec ds) as C. rewrite E in C. destruct C as (a & b & -> & _ & H & _). exact H. Qed.
Lemma owns_adds m0 m ps : owns m0 m ps -> addsOnly (map fst ps) m0 (live m).
Proof.
  intros [_ _ _ H]. unfold addsOnly. rewrite <- H. unfold gone, hasBlock. apply filter_ext. intros (p, n). cbn [fst]. f_equal. clear H.
  induction ps as [|(q, k) ps IH]; [reflexivity|]. cbn [map existsb fst]. now rewrite IH.
Qed.
(* the check does not depend on the order as far as success goes *)
Definition pcomplete (y : pitem) : Prop := match pevidence y with Some (_, c, k) => c = k | None => False end.
Lemma check_iff l : checkEvidence l = SUCCESS <-> Forall pcomplete l.
Proof.
  induction l as [|y l IH]; cbn [checkEvidence]; [split; auto|]. unfold pcomplete at 1. split.
  - destruct (pevidence y) as [((p, c), k)|] eqn:Ey; [|discriminate]. destruct (Z.eqb_spec c k); [|discriminate]. intros E.
    constructor; [unfold pcomplete; rewrite Ey; auto|now apply IH].
  - intros H. inversion H as [|? ? H1 H2]; subst. unfold pcomplete in H1. destruct (pevidence y) as [((p, c), k)|]; [|destruct H1].
    subst k. rewrite Z.eqb_refl. now apply IH.
Qed.
Lemma check_why l : match checkEvidence l with
  | SUCCESS => True
  | INSUFFICIENT_MEMORY => exists y, In y l /\ pevidence y = None
  | COLLECTION_FAILURE => exists y p c k, In y l /\ pevidence y = Some (p, c, k) /\ c <> k
  | _ => False
  end.
Proof.
  induction l as [|y l IH]; cbn [checkEvidence]; [auto|]. destruct (pevidence y) as [((p, c), k)|] eqn:Ey.
  - destruct (Z.eqb_spec c k).
    + destruct (checkEvidence l); try exact IH.
      * destruct IH as (z & a & b & d & Hi & H). exists z, a, b, d. split; [now right|exact H].
      * destruct IH as (z & Hi & H). exists z. split; [now right|exact H].
    + exists y, p, c, k. split; [now left|auto].
  - exists y. split; [now left|auto].
Qed.
Lemma made_back l items y : Forall2 made l items -> In y items -> exists x, In x l /\ made x y.
Proof.
  induction 1 as [|x z l items Hm HF IH]; intros Hi; [destruct Hi|]. destruct Hi as [->|Hi]; [exists x; split; [now left|auto]|].
  destruct (IH Hi) as (x' & Hx & Hm'). exists x'. split; [now right|auto].
Qed.
Lemma made_complete l items : Forall2 made l items -> Forall pcomplete items <-> Forall complete l.
Proof.
  induction 1 as [|x y l items (_ & He) HF IH]; [split; auto|]. split; intros H; inversion H as [|? ? H1 H2]; subst; (constructor; [|now apply IH]).
  - unfold pcomplete, complete in *. destruct (pevidence y) as [((p, c), k)|]; [|destruct H1]. destruct He as (A & -> & ->). auto.
  - unfold pcomplete, complete in *. destruct H1 as (A & B). destruct (pevidence y) as [((p, c), k)|]; [|congruence]. destruct He as (_ & -> & ->). exact B.
Qed.
Lemma made_named l items : Forall2 made l items -> Forall named l -> forall y, In y items -> ptr (idata (pname y)) <> None.
Proof.
  intros HF HN y Hi. destruct (made_back _ _ _ HF Hi) as (x & Hx & ((Ho & Hu & _) & _)). rewrite Forall_forall in HN.
  apply HN in Hx. apply Hu in Hx. destruct Ho as [E|(p & n & ->)]; [|discriminate]. unfold usable in Hx. rewrite E in Hx. discriminate Hx.
Qed.
