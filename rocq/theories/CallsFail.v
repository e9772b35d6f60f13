(* Calls in which gets fail: they end as without the failures or with the exception set *)
From Coq Require Import Permutation.
From Verif Require Import TreeModel CacheModel CacheSpec CacheRun CacheProps CollectionModel CollectionSpec CollectionProofs CollectionRun CollectionCreate CollectionProps PropertiesCollection.
From Verif Require ItemModel LifeModel LifeSpec LifeProofs.
From Verif Require Import SearchModel ProfileModel ProfileSpec ProfileProofs PropertiesProfile DbModel DbSpec DbProofs DbFound CallsModel CallsSpec CallsGet CallsWorld CallsProofs.
Local Open Scope Z_scope.

(* ---- one collection ---- *)
Lemma cacheGet_sim {D} fuel h ok (d : D) ok' d' cc j o cc' : cacheGet fuel h ok d cc = Some ((j, o), cc') -> (match o with OHit _ _ | ONull => True | _ => False end) ->
  cacheGet fuel h ok' d' cc = Some ((j, o), cc').
Proof.
  unfold cacheGet. destruct (shardIndex _ h) as [z|]; [|discriminate]. destruct (nth_error (shards cc) (Z.to_nat z)) as [s|]; [|discriminate]. unfold shardGet.
  destruct (TreeFind fuel h (tree s)) as [([p|], hp)|]; [| |discriminate].
  - destruct (cacheIncremenetCheckAndRemove _ _); [|discriminate]. auto.
  - unfold cacheLoad. destruct (cacheGetNextFree fuel (set_tree hp s)) as [([i|], s1)|]; [| |discriminate].
    + intros E Ho. exfalso. revert E. destruct ok.
      * destruct (onTree _ _) as [(u, s2)|]; [|discriminate]. destruct (Z.ltb _ _); [|discriminate]. intros E. injection E as _ <- _. exact Ho.
      * destruct (Z.ltb _ _); [|discriminate]. intros E. injection E as _ <- _. exact Ho.
    + auto.
Qed.
Lemma read_fails file k st ci f i r : f <> IoOk -> fileRead file k st ci f i = Some r -> exists s, r = RErr s.
Proof.
  intros Hf. unfold fileRead. destruct k as [|init final].
  - unfold ReadFileFixed. intros E. apply (f_equal (fun o => match o with Some x => x | None => r end)) in E. cbv beta iota in E. subst r. destruct (Z.ltb _ _); [|eauto]. destruct (Z.ltb _ _); [|eauto]. destruct f; cbn [io_eqb orb]; eauto. contradiction.
  - unfold ReadFileVariable. destruct (Z.ltb _ _); [|intros E; injection E as <-; eauto]. destruct f; cbn [io_eqb]; try contradiction; try (intros E; injection E as <-; eauto; fail).
    destruct (fread _ _ _); intros E; injection E as <-; eauto.
Qed.
Lemma get_sim_one file k fuel : forall c f i e c', collGet file k fuel c f i = Some (e, c') -> f <> IoOk ->
  collGet file k fuel c IoOk i = Some (e, c') \/ exists st leak, e = ENull i (Some st) leak.
Proof.
  fix IH 1. intros [ci b|ci st|ci st cc|ci b [n|]] f i e c' E Hf; cbn [collGet] in E |- *.
  - left. exact E.
  - right. unfold getFile in E. destruct (fileRead file k st ci f i) as [r|] eqn:R; [|discriminate]. destruct (read_fails _ _ _ _ _ _ _ Hf R) as (s & ->). injection E as <- _. eauto.
  - unfold getFromCache in *. destruct (fileRead file k st ci f i) as [r|] eqn:R.
    + destruct (read_fails _ _ _ _ _ _ _ Hf R) as (s & ->). cbn [loaderCache] in E. destruct (cacheGet fuel (toInt32 i) false [] cc) as [((j, o), cc1)|] eqn:G; [|discriminate]. destruct o as [|nd d|nd d|nd d].
      * left. destruct (match fileRead file k st ci IoOk i with Some r => loaderCache r | None => (false, []) end) as (ok', d'). rewrite (cacheGet_sim _ _ _ _ ok' d' _ _ _ _ G Logic.I). exact E.
      * left. destruct (match fileRead file k st ci IoOk i with Some r => loaderCache r | None => (false, []) end) as (ok', d'). rewrite (cacheGet_sim _ _ _ _ ok' d' _ _ _ _ G Logic.I). exact E.
      * exfalso. unfold cacheGet in G. destruct (shardIndex _ _); [|discriminate]. destruct (nth_error _ _); [|discriminate]. unfold shardGet in G. destruct (TreeFind _ _ _) as [([p|], hp)|]; [| |discriminate].
        -- destruct (cacheIncremenetCheckAndRemove _ _); discriminate.
        -- destruct (cacheLoad _ _ _ _ _) as [([x|], s1)|]; [| |discriminate]; [destruct (Z.ltb _ _); discriminate|discriminate].
      * injection E as <- _. right. eauto.
    + destruct (cacheGet fuel (toInt32 i) false [] cc) as [((j, o), cc1)|] eqn:G; [|discriminate]. destruct o as [|nd d|nd d|nd d]; try discriminate.
      * left. destruct (match fileRead file k st ci IoOk i with Some r => loaderCache r | None => (false, []) end) as (ok', d'). rewrite (cacheGet_sim _ _ _ _ ok' d' _ _ _ _ G Logic.I). exact E.
      * left. destruct (match fileRead file k st ci IoOk i with Some r => loaderCache r | None => (false, []) end) as (ok', d'). rewrite (cacheGet_sim _ _ _ _ ok' d' _ _ _ _ G Logic.I). exact E.
  - destruct (getMemory ci b i); [left; exact E|]. destruct (collGet file k fuel n f i) as [(e1, n1)|] eqn:X; [|discriminate]. injection E as <- <-. destruct (IH _ _ _ _ _ X Hf) as [Y|Y]; [left; now rewrite Y|right; exact Y].
  - left. exact E.
Qed.
Lemma get_memory file k fuel f f' : forall c i, (match serving c i with Mem _ _ | Partial _ _ _ => True | _ => False end) -> collGet file k fuel c f i = collGet file k fuel c f' i.
Proof.
  fix IH 1. intros [ci b|ci st|ci st cc|ci b [n|]] i; cbn [serving collGet]; try contradiction; try reflexivity. destruct (getMemory ci b i); [reflexivity|]. intros H. now rewrite (IH n i H).
Qed.
Lemma get_file file k fuel f : forall c i ci st, serving c i = File ci st -> collGet file k fuel c f i = match getFile file k ci st f i with Some e => Some (e, c) | None => None end.
Proof.
  fix IH 1. intros [ci b|ci st|ci st cc|ci b [n|]] i ci1 st1; cbn [serving collGet]; try discriminate.
  - intros E. injection E as <- <-. reflexivity.
  - destruct (getMemory ci b i); [discriminate|]. intros E. rewrite (IH n i _ _ E). destruct (getFile file k ci1 st1 f i); reflexivity.
Qed.
Lemma way_fails file k st ci f i : f <> IoOk -> wayOf file k st ci f i = ItemModel.Early \/ exists b mo, wayOf file k st ci f i = ItemModel.Try b mo false.
Proof.
  intros Hf. unfold wayOf. destruct (_ && _); [|auto]. destruct k as [|init final].
  - right. destruct (read_fails file Fixed st ci f i _ Hf eq_refl) as (s & E). rewrite E. eauto.
  - destruct (if io_eqb f IoRead then None else _) as [initial|]; [|auto]. right. destruct (ReadFileVariable file st ci init final f i) as [r|] eqn:R; [|eauto].
    destruct (read_fails file (VarSize init final) st ci f i r Hf R) as (s & ->). eauto.
Qed.
Lemma getFile_fails m0 hp bl dt y : LifeProofs.owns m0 hp bl -> ItemModel.allocated dt = 0 -> y = ItemModel.Early \/ (exists b mo, y = ItemModel.Try b mo false) ->
  exists hp' it', ItemModel.getFile hp (ItemModel.mkItem dt None) y = Some (hp', it', None) /\ LifeProofs.owns m0 hp' bl.
Proof.
  intros O Ha [->|(b & mo & ->)]; cbn [ItemModel.getFile]; [eauto|]. unfold ItemModel.DataMalloc. cbn [ItemModel.idata]. rewrite Ha. cbn [Z.ltb Z.compare andb]. rewrite Ha. cbn [Z.eqb].
  destruct mo; [|eauto]. unfold ItemModel.write. cbn [ItemModel.live ItemModel.sizeOf]. rewrite Nat.eqb_refl, Z.leb_refl.
  destruct (LifeProofs.owns_free m0 _ (ItemModel.fresh hp) b bl (LifeProofs.owns_alloc _ _ _ _ _ _ O eq_refl)) as (hp' & Fr & O'). rewrite Fr. eauto.
Qed.
(* with the exception set *)
Lemma failing_get file k fuel : forall c i e c', collGet file k fuel c IoHandle i = Some (e, c') -> hasCache c = true ->
  (match serving c i with Cached _ _ _ => True | _ => False end) -> exists lost, getFailing k fuel c i = Some (lost, c').
Proof.
  fix IH 1. intros [ci b|ci st|ci st cc|ci b [n|]] i e c' E Hc; cbn [collGet serving getFailing hasCache] in *; try discriminate; intros Hs.
  - unfold getFromCache in E. assert ((match fileRead file k st ci IoHandle i with Some r => loaderCache r | None => (false, []) end) = (false, [])) as X.
    { destruct (fileRead file k st ci IoHandle i) as [r|] eqn:R; [|reflexivity]. destruct (read_fails file k st ci IoHandle i r ltac:(discriminate) R) as (s & ->). reflexivity. }
    rewrite X in E. destruct (cacheGet fuel (toInt32 i) false [] cc) as [((j, o), cc1)|]; [|discriminate].
    destruct o; destruct (fileRead file k st ci IoHandle i) as [[|]|]; try discriminate; injection E as _ <-; eauto.
  - destruct (getMemory ci b i); [contradiction|]. destruct (collGet file k fuel n IoHandle i) as [(e1, n1)|] eqn:X; [|discriminate]. injection E as _ <-. destruct (IH _ _ _ _ X Hc Hs) as (lost & ->). eauto.
Qed.

(* ---- worlds ---- *)
Lemma release_clean m it w it' wc : release m it (clean w) = Some (it', wc) -> exists w', release m it w = Some (it', w') /\ clean w' = wc.
Proof.
  assert (forall m, releaseWith m it (clean w) = Some (it', wc) -> exists w', releaseWith m it w = Some (it', w') /\ clean w' = wc) as H.
  { intros m1. unfold releaseWith. destruct m1, (ihandle it) as [| |p|s n]; try discriminate; try (intros E; injection E as <- <-; eauto; fail).
    - cbn [clean heap]. destruct (ItemModel.free (heap w) p); [|discriminate]. intros E. injection E as <- <-. eauto.
    - cbn [clean colls]. destruct (collRelease (colls w s) n); [|discriminate]. intros E. injection E as <- <-. eauto. }
  unfold release. destruct m; try apply H. destruct (ihandle it) as [| |p|s n], (icoll it) as [[[| | |]|]|]; try discriminate; try apply H; intros E; injection E as <- <-; eauto.
Qed.
Lemma releaseIn_clean s it w it' wc : releaseIn s it (clean w) = Some (it', wc) -> exists w', releaseIn s it w = Some (it', w') /\ clean w' = wc.
Proof. apply release_clean. Qed.

(* in a collection in memory nothing fails *)
Lemma memory_search file fuel id ci bs : forall n lower upper it w, colls w Offs = Mem ci bs ->
  match CallsModel.search file fuel Offs (CallsModel.compareProfileId id) n lower upper it (clean w) with
  | Some (r, ok, it1, ob, wc) => exists w1, CallsModel.search file fuel Offs (CallsModel.compareProfileId id) n lower upper it w = Some (r, ok, it1, ob, w1) /\ clean w1 = wc /\ colls w1 Offs = Mem ci bs
  | None => True
  end.
Proof.
  induction n as [|n IH]; intros lower upper it w M; [exact Logic.I|]. cbn [CallsModel.search]. destruct (Z.leb lower upper); [|eauto].
  set (m := lower + (upper - lower) / 2). unfold CallsModel.get, getClear. cbn [clean colls]. rewrite M. cbn [serving].
  rewrite (get_memory file (kindOf Offs) (fuel Offs) (nextIo w) (nextIo (clean w)) (Mem ci bs) m Logic.I).
  destruct (collGet file (kindOf Offs) (fuel Offs) (Mem ci bs) (nextIo (clean w)) m) as [(e, c')|] eqn:G; [|exact Logic.I].
  assert (c' = Mem ci bs) as -> by (cbn [collGet] in G; destruct (getMemory ci bs m); now injection G as _ <-).
  assert (forall x, clean (setColl (dropIo x) Offs (Mem ci bs)) = setColl (dropIo (clean x)) Offs (Mem ci bs)) as Cl by reflexivity.
  destruct e as [i b o|i st o|o]; [|eexists; split; [reflexivity|split; reflexivity]|exact Logic.I].
  assert (exists x, (forall w', CallsModel.compareProfileId id b w' = Some (x, true, w')) \/ (forall w', CallsModel.compareProfileId id b w' = None)) as (x & [Ex|Ex]) by (unfold CallsModel.compareProfileId; destruct (offsetOf b); [eexists; left; reflexivity|exists 0; right; reflexivity]).
  2:{ rewrite !Ex. exact Logic.I. }
  rewrite !Ex.
  destruct (Z.eqb x 0); [eexists; split; [reflexivity|split; reflexivity]|]. unfold releaseIn, methodIn. cbn [setColl colls dropIo clean methodOf src_eqb release releaseWith].
  rewrite <- (Cl w). set (w2 := setColl (dropIo w) Offs (Mem ci bs)). assert (colls w2 Offs = Mem ci bs) as M2 by reflexivity.
  destruct (Z.ltb 0 _); [destruct (Z.eqb m 0)|]; apply IH; exact M2.
Qed.
Lemma memory_offset file fuel id ci bs w r ok wc : colls w Offs = Mem ci bs -> CallsModel.ProfileGetOffsetForProfileId file fuel id (clean w) = Some (r, ok, wc) ->
  exists w1, CallsModel.ProfileGetOffsetForProfileId file fuel id w = Some (r, ok, w1) /\ clean w1 = wc.
Proof.
  intros M. unfold CallsModel.ProfileGetOffsetForProfileId. destruct (Z.eqb id 0); [intros E; injection E as <- <- <-; eauto|]. change (colls (clean w) Offs) with (colls w Offs).
  set (up := (CollectionGetCount (colls w Offs) - 1) mod 2 ^ 32). pose proof (memory_search file fuel id ci bs 33%nat 0 up newItem w M) as Q. revert Q. generalize 33%nat. intros n Q.
  destruct (CallsModel.search file fuel Offs (CallsModel.compareProfileId id) n 0 up newItem (clean w)) as [((((r1, ok1), it1), ob), w1)|]; [|discriminate]. destruct Q as (w2 & Q & <- & _). rewrite Q.
  destruct (Z.leb 0 r1); [|intros E; injection E as <- <- <-; eauto]. destruct ob as [b|]; [|discriminate]. destruct (offsetOf b) as [o|]; [|discriminate].
  destruct (releaseIn Offs it1 (clean w2)) as [(it3, w3)|] eqn:R; [|discriminate]. intros E. injection E as <- <- <-. destruct (releaseIn_clean _ _ _ _ _ R) as (w4 & R' & <-). rewrite R'. eauto.
Qed.

Section Fail.
  Context (file : list Z) (pl : places) (d : db) (u : uses).
  Context (D : dbOK d) (St : stored file pl d) (Op : allOpened file pl u).
  Context (use0 : src -> slot -> nat) (out0 : src -> nat) (m0 : list (nat * Z)) (h0 : nat).
  Notation collOf s := (ucoll (useOf u s)).
  Context (room : forall s, hasCache (collOf s) = true -> Z.of_nat (out0 s) < concOf (ucfg (useOf u s)) /\ Z.of_nat (length (concat (itemsOf d s))) <= 2 ^ 31).
  Context (Hh : (0 < h0)%nat).
  Notation I := (CallsWorld.I file u use0 out0 m0 h0).
  Notation heldBy := (CallsWorld.heldBy u).
  Notation at_ s n := (position (kindOf s) (itemsOf d s) n).
  Notation idle it := (ItemModel.allocated (idata it) = 0).
  Notation get := (CallsModel.get file (fuelOf u)).
  Notation meth s := (methodOf (collOf s)).
  (* after a get that failed: what was held still is, a node of a cache may be lost *)
  Definition failed (held : list res) (w : world) : Prop :=
    exists use' out', CallsWorld.I file u use' out' m0 h0 held (clean w) /\ forall x, (out' x <= S (out0 x))%nat.

  Lemma I_more use' out' m1 h1 held w s e tr c' w' hp h' : CallsWorld.I file u use' out' m1 h1 held (clean w) ->
    execS file u s tr (colls w s) -> (forall n, holding tr n + leaked tr n = use' s n + nodeCount s n held)%nat ->
    (forall n, nodeCount s n held <= holding tr n)%nat -> outstanding tr = (out' s + srcCount s held)%nat -> execS file u s (e :: tr) c' -> (forall sl, e <> ERel sl) ->
    clean w' = mkWorld (fun x => if src_eqb x s then c' else colls w x) hp h' [] -> LifeProofs.owns m1 hp (blocks held) ->
    exists use'' out'', CallsWorld.I file u use'' out'' m1 h' held (clean w') /\ (out'' s <= S (out' s))%nat /\ forall x, x <> s -> out'' x = out' x.
  Proof using Type.
    clear Hh room. intros HI E A B C E' Ne Ew Ow. rewrite Ew.
    set (add := match e with EGot _ _ o | ENull _ _ o => o | ERel _ => None end).
    set (one := fun n => match add with Some m => if slot_eqb n m then 1%nat else 0%nat | None => 0%nat end).
    set (cnt := match add with Some _ => 1%nat | None => 0%nat end).
    exists (fun x n => if src_eqb x s then (use' x n + one n)%nat else use' x n), (fun x => if src_eqb x s then (out' x + cnt)%nat else out' x).
    split; [|split; [destruct (src_eqb_spec s s); [|contradiction]; unfold cnt; destruct add; lia|intros x Nx; destruct (src_eqb_spec x s); [contradiction|reflexivity]]].
    destruct HI as [H1 H2 H3 H4]. constructor; cbn [colls heap handles ios]; [|exact Ow|reflexivity|reflexivity].
    intros x. destruct (src_eqb_spec x s) as [->|Nx]; [|exact (H1 x)]. exists (e :: tr). split; [exact E'|].
    destruct e as [i b [m|]|i st [m|]|sl]; cbn [holding leaked outstanding] in *; subst add one cnt; cbn beta iota.
    - split; [intros n; specialize (A n); destruct (slot_eqb n m); lia|]. split; [intros n; specialize (B n); destruct (slot_eqb n m); lia|lia].
    - split; [intros n; specialize (A n); lia|]. split; [exact B|lia].
    - split; [intros n; specialize (A n); destruct (slot_eqb n m); lia|]. split; [exact B|lia].
    - split; [intros n; specialize (A n); lia|]. split; [exact B|lia].
    - exfalso. exact (Ne sl eq_refl).
  Qed.
  Lemma well_used use' out' m1 h1 held w s n itm tr f : CallsWorld.I file u use' out' m1 h1 held (clean w) -> nth_error (itemsOf d s) n = Some itm ->
    execS file u s tr (colls w s) -> outstanding tr = (out' s + srcCount s held)%nat ->
    (hasCache (collOf s) = true -> Z.of_nat (out' s + srcCount s held) < 2 ^ 31 - 1) -> wellUsed tr (colls w s) (Get (at_ s n) f).
  Proof using D St Op room.
    clear Hh. intros HI N E C Hb. pose proof (position_small file pl d u D St Op s n itm N) as (Hp & Hp32). split; [lia|]. intros X.
    assert (hasCache (colls w s) = hasCache (collOf s)) as Ec by (rewrite <- (cache_skeleton (colls w s)), (exec_skeleton _ _ _ _ _ _ E); apply cache_skeleton). rewrite Ec in X.
    destruct (room s X) as (R1 & R2). split; [lia|]. intros sl. pose proof (users_small file u s tr _ sl E). specialize (Hb X). lia.
  Qed.
  Lemma conc_small s : hasCache (collOf s) = true -> concOf (ucfg (useOf u s)) < 2 ^ 16.
  Proof using D St Op.
    clear Hh room. intros X. destruct (source_ok file pl d u D St Op s) as (h & HR & HC & Hcr & Hconc). specialize (Hconc X). destruct (ucfg (useOf u s)) as [|ld cp cn]; cbn [concOf configOK] in *; [lia|]. destruct HC as (_ & _ & Y & _). lia.
  Qed.

  (* a get that succeeds without failures *)
  Lemma get_clean held w s n itm it b it1 wc : I held (clean w) -> idle it -> nth_error (itemsOf d s) n = Some itm -> srcCount s held = 0%nat ->
    get s (at_ s n) true it (clean w) = Some (Some b, true, it1, wc) ->
    (exists w1, get s (at_ s n) true it w = Some (Some b, true, it1, w1) /\ clean w1 = wc) \/ (exists it' w', get s (at_ s n) true it w = Some (None, false, it', w') /\ failed held w').
  Proof using D St Op room Hh.
    intros HI Hi N Hs G. pose proof HI as [H1 H2 H3 H4]. cbn [clean colls heap handles ios] in H1, H2, H3. destruct (H1 s) as (tr & E & A & B & C).
    assert (wellUsed tr (colls w s) (Get (at_ s n) (nextIo w))) as Hw.
    { apply (well_used use0 out0 m0 h0 held w s n itm tr _ HI N E C). intros X. rewrite Hs. destruct (room s X). pose proof (conc_small s X). lia. }
    assert (nextIo (clean w) = IoOk) as Hio by (unfold nextIo; cbn [clean handles ios]; rewrite H3; destruct h0; [lia|reflexivity]).
    destruct (source_ok file pl d u D St Op s) as (h & HR & HC & Hcr & Hconc).
    destruct (collection_get_returns_item file (kindOf s) (itemsOf d s) h _ _ _ _ tr (colls w s) n itm (nextIo w) HR HC Hcr E N Hw) as (e & c' & Ge & _). cbn [cstep] in Ge.
    assert (E' : execS file u s (e :: tr) c') by exact (exec_cons _ _ _ _ _ _ _ _ _ E Hw Ge).
    set (i := at_ s n) in *. unfold CallsModel.get, getClear in *. rewrite Hio in G. change (colls (clean w) s) with (colls w s) in G. unfold fuelOf in *. set (fu := ufuel (useOf u s)) in *.
    assert (Done : nextIo w = IoOk \/ nextIo w <> IoOk) by (destruct (nextIo w); auto; right; discriminate). destruct Done as [Hf|Hf].
    - rewrite Hf. left. destruct (serving (colls w s) i) as [ci0 b0|ci0 st0|ci0 st0 cc0|ci0 b0 nx0] eqn:Sv.
      + destruct (collGet file (kindOf s) fu (colls w s) IoOk i) as [([? ? o|? st o|?], c2)|]; try discriminate. injection G as <- <- <-. eauto.
      + cbn [io_eqb andb] in *. destruct (collGet file (kindOf s) fu (colls w s) IoOk i) as [([? ? o|? st o|?], c2)|]; try discriminate;
          change (heap (dropIo (clean w))) with (heap (dropIo w)) in G; destruct (ItemModel.getFile (heap (dropIo w)) _ _) as [((m1, i1), [p1|])|]; try discriminate. injection G as <- <- <-. eauto.
      + destruct (collGet file (kindOf s) fu (colls w s) IoOk i) as [([? ? [o|]|? [st|] [o|]|?], c2)|]; try discriminate. injection G as <- <- <-. eauto.
      + destruct (collGet file (kindOf s) fu (colls w s) IoOk i) as [([? ? o|? st o|?], c2)|]; try discriminate. injection G as <- <- <-. eauto.
    - destruct (serving (colls w s) i) as [ci0 b0|ci0 st0|ci0 st0 cc0|ci0 b0 nx0] eqn:Sv.
      + left. rewrite (get_memory file (kindOf s) fu (nextIo w) IoOk) by now rewrite Sv.
        destruct (collGet file (kindOf s) fu (colls w s) IoOk i) as [([? ? o|? st o|?], c2)|]; try discriminate. injection G as <- <- <-. eauto.
      + right. rewrite (get_file file (kindOf s) fu (nextIo w) (colls w s) i _ _ Sv) in Ge.
        assert (noNeed (idata it) (wayOf file (kindOf s) st0 ci0 IoMemory i) = false) as Hn by (unfold noNeed; rewrite Hi; destruct (wayOf _ _ _ _ _ _); reflexivity). rewrite Hn, andb_false_r.
        rewrite (get_file file (kindOf s) fu (nextIo w) (colls w s) i _ _ Sv).
        destruct (getFile file (kindOf s) ci0 st0 (nextIo w) i) as [e1|] eqn:Gf; [|discriminate]. injection Ge as <- <-.
        unfold getFile in Gf. destruct (fileRead file (kindOf s) st0 ci0 (nextIo w) i) as [r|] eqn:Rd; [|discriminate]. destruct (read_fails _ _ _ _ _ _ _ Hf Rd) as (st & ->). injection Gf as <-.
        destruct (getFile_fails m0 (heap (dropIo w)) (blocks held) (idata it) _ H2 Hi (way_fails file (kindOf s) st0 ci0 (nextIo w) i Hf)) as (hp & it' & Gm & Ow). rewrite Gm.
        eexists _, _. split; [reflexivity|].
        destruct (I_more use0 out0 m0 h0 held w s _ tr (colls w s) (setHeap (setColl (dropIo w) s (colls w s)) hp) hp h0 HI E A B C E' ltac:(discriminate)) as (u1 & o1 & I1 & O1 & O2); [unfold clean, setHeap, setColl, dropIo; cbn [colls heap handles]; now rewrite H3|exact Ow|].
        exists u1, o1. split; [exact I1|]. intros x. destruct (src_eqb_spec x s) as [->|Nx]; [exact O1|]. rewrite (O2 x Nx). lia.
      + rewrite Ge. destruct (get_sim_one file (kindOf s) fu (colls w s) (nextIo w) i e c' Ge Hf) as [Gs|(st & leak & ->)].
        * left. rewrite Gs in G. destruct e as [? ? [o|]|? [st|] [o|]|?]; try discriminate. injection G as <- <- <-. eauto.
        * right. eexists _, _. split; [reflexivity|].
          destruct (I_more use0 out0 m0 h0 held w s _ tr c' (setColl (dropIo w) s c') (heap w) h0 HI E A B C E' ltac:(discriminate)) as (u1 & o1 & I1 & O1 & O2); [unfold clean, setColl, dropIo; cbn [colls heap handles]; now rewrite H3|exact H2|].
          exists u1, o1. split; [exact I1|]. intros x. destruct (src_eqb_spec x s) as [->|Nx]; [exact O1|]. rewrite (O2 x Nx). lia.
      + left. rewrite (get_memory file (kindOf s) fu (nextIo w) IoOk) by now rewrite Sv.
        destruct (collGet file (kindOf s) fu (colls w s) IoOk i) as [([? ? o|? st o|?], c2)|]; try discriminate. injection G as <- <- <-. eauto.
  Qed.
  (* a get with the exception set *)
  Lemma get_set use' out' h1 held w s n itm it : CallsWorld.I file u use' out' m0 h1 held (clean w) -> nth_error (itemsOf d s) n = Some itm ->
    (hasCache (collOf s) = true -> Z.of_nat (out' s + srcCount s held) < 2 ^ 31 - 1) ->
    exists x it' w' use'' out'' h2, get s (at_ s n) false it w = Some (x, false, it', w') /\ CallsWorld.I file u use'' out'' m0 h2 held (clean w') /\ (h2 <= h1)%nat /\ (out'' s <= S (out' s))%nat.
  Proof using D St Op room.
    clear Hh. intros HI N Hb. pose proof HI as [H1 H2 H3 H4]. cbn [clean colls heap handles ios] in H1, H2, H3. destruct (H1 s) as (tr & E & A & B & C).
    pose proof (well_used use' out' m0 h1 held w s n itm tr IoHandle HI N E C Hb) as Hw.
    destruct (source_ok file pl d u D St Op s) as (h & HR & HC & Hcr & Hconc).
    destruct (collection_get_returns_item file (kindOf s) (itemsOf d s) h _ _ _ _ tr (colls w s) n itm IoHandle HR HC Hcr E N Hw) as (e & c' & Ge & _). cbn [cstep] in Ge.
    assert (E' : execS file u s (e :: tr) c') by exact (exec_cons _ _ _ _ _ _ _ _ _ E Hw Ge).
    assert (Same : forall h2, CallsWorld.I file u use' out' m0 h2 held (mkWorld (colls w) (heap w) h2 [])) by (intros h2; constructor; auto).
    set (i := at_ s n) in *. unfold CallsModel.get, getSet, fuelOf in *. set (fu := ufuel (useOf u s)) in *.
    destruct (serving (colls w s) i) as [ci0 b0|ci0 st0|ci0 st0 cc0|ci0 b0 nx0] eqn:Sv.
    - destruct (getMemory ci0 b0 i); (eexists _, _, (dropIo w), use', out', h1; split; [reflexivity|]; split; [unfold clean, dropIo; cbn [colls heap handles]; rewrite H3; apply Same|lia]).
    - eexists _, _, _, use', out', (handles (loseHandle (inRange (kindOf s) ci0 i) (dropIo w))). split; [reflexivity|]. split; [apply Same|]. cbn [loseHandle handles dropIo]. split; [|lia]. destruct (inRange _ _ _); lia.
    - assert (hasCache (colls w s) = true) as Hc.
      { pose proof (layers_in file u use' out' m0 h1 held (clean w) s HI) as L. cbn [clean colls] in L. pose proof (shape file pl d u D St Op s) as Sh. rewrite <- L in Sh.
        pose proof (serving_layers (colls w s) i Sh) as V. rewrite Sv in V. exact (layers_cache _ V). }
      destruct (failing_get file (kindOf s) fu (colls w s) i e c' Ge Hc ltac:(now rewrite Sv)) as (lost & ->).
      assert (forall sl, e <> ERel sl) as Ne.
      { intros sl ->. clear - Ge. revert Ge. generalize (colls w s). revert c'. fix IH 2. intros c' [ci b|ci st|ci st cc|ci b [nx|]]; cbn [collGet].
        - destruct (getMemory ci b i); discriminate.
        - unfold getFile. destruct (fileRead file (kindOf s) st ci IoHandle i) as [[|]|]; discriminate.
        - unfold getFromCache. destruct (match fileRead file (kindOf s) st ci IoHandle i with Some r => loaderCache r | None => (false, []) end) as (ok1, d1). destruct (cacheGet fu (toInt32 i) ok1 d1 cc) as [((j, o), cc1)|]; [|discriminate].
          destruct o; destruct (fileRead file (kindOf s) st ci IoHandle i) as [[|]|]; try discriminate; destruct d0; discriminate.
        - destruct (getMemory ci b i); [discriminate|]. destruct (collGet file (kindOf s) fu nx IoHandle i) as [(e1, n1)|] eqn:X; [|discriminate]. intros Q. injection Q as -> _. exact (IH _ _ X).
        - destruct (getMemory ci b i); discriminate. }
      destruct (I_more use' out' m0 h1 held w s e tr c' (loseHandle lost (setColl (dropIo w) s c')) (heap w) (if lost then pred (handles w) else handles w) HI E A B C E' Ne) as (u1 & o1 & I1 & O1 & O2); [reflexivity|exact H2|].
      eexists _, _, _, u1, o1, _. split; [reflexivity|]. split; [exact I1|]. split; [destruct lost; lia|exact O1].
    - destruct (getMemory ci0 b0 i); (eexists _, _, (dropIo w), use', out', h1; split; [reflexivity|]; split; [unfold clean, dropIo; cbn [colls heap handles]; rewrite H3; apply Same|lia]).
  Qed.

  Notation get_there := (CallsProofs.get_there file pl d u D St Op use0 out0 m0 h0 room Hh).
  Notation get_text := (CallsProofs.get_text file pl d u D St Op use0 out0 m0 h0 room Hh).
  Notation get_prop := (CallsProofs.get_prop file pl d u D St Op use0 out0 m0 h0 room Hh).
  Notation get_offs := (CallsProofs.get_offs file pl d u D St Op use0 out0 m0 h0 room Hh).
  Notation get_prof := (CallsProofs.get_prof file pl d u D St Op use0 out0 m0 h0 room Hh).
  Notation released := (CallsProofs.released file pl d u D St Op use0 out0 m0 h0).
  Notation own := (CallsProofs.own file pl d u D St Op).
  Lemma failed_perm l l' w : Permutation l l' -> failed l w -> failed l' w.
  Proof using Type. intros P (u1 & o1 & HI & Ho). exists u1, o1. split; [exact (I_perm file u u1 o1 m0 h0 _ _ _ P HI)|exact Ho]. Qed.
  Lemma released_failed held w s it r s' : failed (r ++ held) w -> heldBy s it r -> fits_method (meth s') (collOf s) = true ->
    exists it' w', releaseIn s' it w = Some (it', w') /\ failed held w'.
  Proof using D St Op.
    intros (u1 & o1 & HI & Ho) Hd Hf. destruct (CallsProofs.released file pl d u D St Op u1 o1 m0 h0 held (clean w) s it r s' HI Hd Hf) as (it' & wc & R & I1 & _).
    destruct (releaseIn_clean _ _ _ _ _ R) as (w' & R' & <-). exists it', w'. split; [exact R'|]. exists u1, o1. auto.
  Qed.

  (* ---- properties ---- *)
  Lemma loop_fails : fits_method (meth Props) (collOf Texts) = true -> forall name n i held nameItem it w r it1 wc, I held (clean w) -> srcCount Props held = 0%nat -> srcCount Texts held = 0%nat ->
    idle nameItem -> idle it -> (i + n <= length (props d))%nat -> propertyLoop file (fuelOf u) n (Z.of_nat i) name nameItem it (clean w) = Some (r, true, it1, wc) ->
    (exists w1, propertyLoop file (fuelOf u) n (Z.of_nat i) name nameItem it w = Some (r, true, it1, w1) /\ clean w1 = wc) \/
    (exists r' it' w' rs, propertyLoop file (fuelOf u) n (Z.of_nat i) name nameItem it w = Some (r', false, it', w') /\ failed (rs ++ held) w' /\
       match r' with
       | None => rs = []
       | Some (k, q) => heldBy Props it' rs /\ 0 <= k /\ exists p, nth_error (props d) (Z.to_nat k) = Some p /\ q = decoded d p
       end).
  Proof using D St Op room Hh.
    intros Hf name. induction n as [|n IH]; intros i held nameItem it w r it1 wc HI Hp Ht Hn Hi L E.
    - cbn [propertyLoop] in *. injection E as <- <- <-. left. exists w. auto.
    - cbn [propertyLoop] in *. destruct (item_at (props d) i ltac:(lia)) as (p & Np). destruct (get_prop held (clean w) i p it HI Hi Np Hp) as (b & it2 & w2 & r2 & G1 & I1 & Hd1 & C1 & E1 & _ & P1).
      rewrite G1 in E. destruct (get_clean held w Props i _ it b it2 w2 HI Hi (prop_item d i p Np) Hp G1) as [(w3 & G1' & <-)|(it' & w' & G1' & Fd)]; cbn [kindOf position] in G1'; rewrite G1'.
      2:{ right. exists None, it', w', []. auto. }
      rewrite E1 in E |- *. cbn [decoded nameOffset] in E |- *. fold (decoded d p) in E |- *.
      destruct (prop_in d D _ _ Np) as (_ & _ & _ & _ & _ & Lt & _). destruct (item_at (texts d) (pname p) Lt) as (t & Nt).
      assert (srcCount Texts (r2 ++ held) = 0%nat) as Ht2 by (rewrite C1 by discriminate; exact Ht).
      destruct (get_text (r2 ++ held) (clean w3) (pname p) t nameItem I1 Hn Nt Ht2) as (nb & it4 & w4 & r4 & G2 & I2 & Hd2 & C2 & E2 & P2).
      rewrite G2 in E. destruct (get_clean (r2 ++ held) w3 Texts (pname p) _ nameItem nb it4 w4 I1 Hn (text_item d _ _ Nt) Ht2 G2) as [(w5 & G2' & <-)|(it' & w' & G2' & Fd)]; change (at_ Texts (pname p)) with (textAt d (pname p)) in G2'; rewrite G2'.
      2:{ right. exists (Some (Z.of_nat i, decoded d p)), it2, w', r2. split; [reflexivity|]. split; [exact Fd|]. split; [exact Hd1|]. split; [lia|]. exists p. rewrite Nat2Z.id. auto. }
      rewrite E2 in E |- *. destruct (negb (strcmp t name =? 0)).
      + assert (I (r2 ++ (r4 ++ held)) (clean w5)) as I2'.
        { apply (I_perm file u use0 out0 m0 h0 (r4 ++ r2 ++ held)); [rewrite !app_assoc; apply Permutation_app_tail, Permutation_app_comm|exact I2]. }
        destruct (released _ _ Props _ _ Props I2' Hd1 (own Props)) as (it5 & w6 & R3 & I3 & Hi3 & _). rewrite R3 in E. destruct (releaseIn_clean _ _ _ _ _ R3) as (w7 & R3' & <-). rewrite R3'.
        destruct (released _ _ Texts _ _ Props I3 Hd2 Hf) as (it6 & w8 & R4 & I4 & Hi4 & _). rewrite R4 in E. destruct (releaseIn_clean _ _ _ _ _ R4) as (w9 & R4' & <-). rewrite R4'.
        replace (Z.of_nat i + 1) with (Z.of_nat (S i)) in * by lia. exact (IH (S i) held it6 it5 w9 r it1 wc I4 Hp Ht Hi4 Hi3 ltac:(lia) E).
      + destruct (released _ _ Texts _ _ Props I2 Hd2 Hf) as (it6 & w8 & R4 & I4 & Hi4 & _). rewrite R4 in E. destruct (releaseIn_clean _ _ _ _ _ R4) as (w9 & R4' & <-). rewrite R4'.
        injection E as <- <- <-. left. exists w9. auto.
  Qed.
  Lemma by_name_fails : fits_method (meth Props) (collOf Texts) = true -> forall name held it w r it1 wc, I held (clean w) -> srcCount Props held = 0%nat -> srcCount Texts held = 0%nat -> idle it ->
    CallsModel.PropertyGetByName file (fuelOf u) name it (clean w) = Some (r, true, it1, wc) ->
    (exists w1, CallsModel.PropertyGetByName file (fuelOf u) name it w = Some (r, true, it1, w1) /\ clean w1 = wc) \/
    (exists r' it' w' rs, CallsModel.PropertyGetByName file (fuelOf u) name it w = Some (r', false, it', w') /\ failed (rs ++ held) w' /\
       match r' with
       | None => rs = []
       | Some (k, q) => heldBy Props it' rs /\ 0 <= k /\ exists p, nth_error (props d) (Z.to_nat k) = Some p /\ q = decoded d p
       end).
  Proof using D St Op room Hh.
    intros Hf name held it w r it1 wc HI Hp Ht Hi. unfold CallsModel.PropertyGetByName. change (colls (clean w) Props) with (colls w Props).
    pose proof (count_in file u use0 out0 m0 h0 held (clean w) Props HI) as Hc. cbn [clean colls] in Hc. rewrite Hc, (count_props file pl d u D St Op).
    intros E. exact (loop_fails Hf name (length (props d)) 0 held newItem it w r it1 wc HI Hp Ht eq_refl Hi ltac:(lia) E).
  Qed.

  (* ---- searches ---- *)
  Section Search.
    Context (s : src) (cmp : list Z -> world -> option (Z * bool * world)).
    Context (Hk : kindOf s = Fixed) (Hne : s <> Texts).
    Context (Hclean : forall held w b n itm rest, I held (clean w) -> srcCount Texts held = 0%nat -> nth_error (itemsOf d s) n = Some itm -> b = itm ++ rest ->
      exists r wc, cmp b (clean w) = Some (r, true, wc) /\ I held wc /\ ((exists w1, cmp b w = Some (r, true, w1) /\ clean w1 = wc) \/ (exists r' w', cmp b w = Some (r', false, w') /\ failed held w'))).
    Lemma search_fails held : srcCount s held = 0%nat -> srcCount Texts held = 0%nat -> forall n lower upper it w r it1 ob wc, I held (clean w) -> idle it -> 0 <= lower -> upper < Z.of_nat (length (itemsOf d s)) ->
      CallsModel.search file (fuelOf u) s cmp n lower upper it (clean w) = Some (r, true, it1, ob, wc) ->
      (exists w1, CallsModel.search file (fuelOf u) s cmp n lower upper it w = Some (r, true, it1, ob, w1) /\ clean w1 = wc) \/
      (exists it' ob' w' rs, CallsModel.search file (fuelOf u) s cmp n lower upper it w = Some (0, false, it', ob', w') /\ failed (rs ++ held) w' /\ ((rs = [] /\ ob' = None) \/ heldBy s it' rs)).
    Proof using D St Op room Hh Hk Hne Hclean.
      intros Hs Ht. induction n as [|n IH]; intros lower upper it w r it1 ob wc HI Hi H0 H1 E; [discriminate|]. cbn [CallsModel.search] in *.
      destruct (Z.leb_spec lower upper) as [Hlu|Hlu].
      2:{ injection E as <- <- <- <-. left. exists w. auto. }
      set (m := lower + (upper - lower) / 2) in *. assert (lower <= m <= upper) as Hm.
      { unfold m. pose proof (Z.div_pos (upper - lower) 2 ltac:(lia) ltac:(lia)). pose proof (Z.div_le_upper_bound (upper - lower) 2 (upper - lower) ltac:(lia) ltac:(lia)). lia. }
      destruct (item_at (itemsOf d s) (Z.to_nat m) ltac:(lia)) as (itm & N).
      assert (at_ s (Z.to_nat m) = m) as Ea by (rewrite Hk; cbn [position]; lia).
      destruct (get_there (fun _ => Some tt) held (clean w) s _ itm it HI Hi N Hs) as (b & it2 & w2 & r2 & G1 & I1 & Hd1 & C1 & (rest & Eb) & _).
      destruct (get_clean held w s _ itm it b it2 w2 HI Hi N Hs G1) as [(w3 & G1' & <-)|(it' & w' & G1' & Fd)]; rewrite Ea in G1, G1'; rewrite G1 in E; rewrite G1'.
      2:{ right. exists it', None, w', []. split; [reflexivity|]. split; [exact Fd|]. auto. }
      destruct (Hclean (r2 ++ held) w3 b _ itm rest I1 ltac:(rewrite C1 by congruence; exact Ht) N Eb) as (cr & w4 & Ec & I2 & Hor). rewrite Ec in E.
      destruct Hor as [(w5 & Ec' & <-)|(r' & w' & Ec' & Fd)]; rewrite Ec'.
      2:{ right. exists it2, (Some b), w', r2. split; [reflexivity|]. split; [exact Fd|]. auto. }
      destruct (Z.eqb cr 0).
      - injection E as <- <- <- <-. left. exists w5. auto.
      - destruct (released _ _ s _ _ s I2 Hd1 (own s)) as (it3 & w6 & R3 & I3 & Hi3 & _). rewrite R3 in E. destruct (releaseIn_clean _ _ _ _ _ R3) as (w7 & R3' & <-). rewrite R3'.
        destruct (Z.ltb 0 cr).
        + destruct (Z.eqb_spec m 0); (eapply IH; [exact I3|exact Hi3| | |exact E]); try lia. apply Z.mod_pos_bound; lia.
        + eapply IH; [exact I3|exact Hi3| | |exact E]; [apply Z.mod_pos_bound|]; lia.
    Qed.
  End Search.

  (* ---- values ---- *)
  Context (compareOther : list Z -> list Z -> Z).
  Lemma compare_fails name held w b n itm rest : I held (clean w) -> srcCount Texts held = 0%nat -> nth_error (itemsOf d Vals) n = Some itm -> b = itm ++ rest ->
    exists r wc, CallsModel.compareValueByName file (fuelOf u) compareOther name b (clean w) = Some (r, true, wc) /\ I held wc /\
      ((exists w1, CallsModel.compareValueByName file (fuelOf u) compareOther name b w = Some (r, true, w1) /\ clean w1 = wc) \/
       (exists r' w', CallsModel.compareValueByName file (fuelOf u) compareOther name b w = Some (r', false, w') /\ failed held w')).
  Proof using D St Op room Hh.
    intros HI Ht N ->. destruct (valueNames d D n itm rest N) as (v & Nv & E).
    assert (valOK d v) as (L & _) by (pose proof D as (_ & _ & F & _); rewrite Forall_forall in F; apply F; exact (nth_error_In _ _ Nv)).
    destruct (item_at (texts d) (vname v) L) as (t & Nt). destruct (get_text held (clean w) (vname v) t newItem HI eq_refl Nt Ht) as (nb & it2 & w2 & r2 & G2 & I2 & Hd2 & C2 & E2 & P2).
    unfold CallsModel.compareValueByName. rewrite E, G2, E2.
    destruct (released _ _ Texts _ _ Texts I2 Hd2 (own Texts)) as (it4 & w4 & R4 & I4 & _). rewrite R4. eexists _, w4. split; [reflexivity|]. split; [exact I4|].
    destruct (get_clean held w Texts (vname v) _ newItem nb it2 w2 HI eq_refl (text_item d _ _ Nt) Ht G2) as [(w5 & G2' & <-)|(it' & w' & G2' & Fd)]; change (at_ Texts (vname v)) with (textAt d (vname v)) in G2'; rewrite G2'.
    - destruct (releaseIn_clean _ _ _ _ _ R4) as (w7 & R4' & <-). rewrite E2, R4'. left. exists w7. auto.
    - right. exists 0, w'. auto.
  Qed.
  Lemma value_index_fails p name held w r wc : I held (clean w) -> srcCount Vals held = 0%nat -> srcCount Texts held = 0%nat -> 0 <= firstValueIndex p -> lastValueIndex p < Z.of_nat (length (vals d)) ->
    CallsModel.ValueGetIndexByName file (fuelOf u) compareOther p name (clean w) = Some (r, true, wc) ->
    (exists w1, CallsModel.ValueGetIndexByName file (fuelOf u) compareOther p name w = Some (r, true, w1) /\ clean w1 = wc) \/
    (exists w' it' rs, CallsModel.ValueGetIndexByName file (fuelOf u) compareOther p name w = Some (0, false, w') /\ failed (rs ++ held) w' /\ (rs = [] \/ heldBy Vals it' rs)).
  Proof using D St Op room Hh.
    intros HI Hv Ht H0 H1. unfold CallsModel.ValueGetIndexByName.
    pose proof (search_fails Vals (CallsModel.compareValueByName file (fuelOf u) compareOther name) eq_refl ltac:(discriminate) (compare_fails name) held Hv Ht 33%nat (firstValueIndex p) (lastValueIndex p) newItem w) as Q.
    revert Q. generalize 33%nat. intros fu Q.
    destruct (CallsModel.search file (fuelOf u) Vals (CallsModel.compareValueByName file (fuelOf u) compareOther name) fu (firstValueIndex p) (lastValueIndex p) newItem (clean w)) as [((((r1, [|]), it1), ob), w1)|]; [| |discriminate]; [|discriminate].
    intros E. specialize (Q r1 it1 ob w1 HI eq_refl H0). cbn [itemsOf] in Q. rewrite map_length in Q. specialize (Q H1 eq_refl). destruct Q as [(w2 & Q & <-)|(it' & ob' & w' & rs & Q & Fd & Hr)]; rewrite Q.
    - left. destruct (releaseIn Vals it1 (clean w2)) as [(it2, w3)|] eqn:R; [|discriminate]. injection E as <- <-. destruct (releaseIn_clean _ _ _ _ _ R) as (w4 & R' & <-). rewrite R'. eauto.
    - right. exists w', it', rs. split; [reflexivity|]. split; [exact Fd|]. destruct Hr as [(-> & _)|Hr]; auto.
  Qed.
  Lemma value_get_fails p name held it w b it1 wc : I held (clean w) -> srcCount Vals held = 0%nat -> srcCount Texts held = 0%nat -> 0 <= firstValueIndex p -> lastValueIndex p < Z.of_nat (length (vals d)) ->
    CallsModel.ValueGetByName file (fuelOf u) compareOther p name it (clean w) = Some (b, true, it1, wc) ->
    (exists w1, CallsModel.ValueGetByName file (fuelOf u) compareOther p name it w = Some (b, true, it1, w1) /\ clean w1 = wc) \/
    (exists it' w' rs, CallsModel.ValueGetByName file (fuelOf u) compareOther p name it w = Some (None, false, it', w') /\ failed (rs ++ held) w' /\ (rs = [] \/ heldBy Vals it' rs)).
  Proof using D St Op room Hh.
    intros HI Hv Ht H0 H1. unfold CallsModel.ValueGetByName. destruct (Z.eqb (firstValueIndex p) (2 ^ 32 - 1)); [intros E; injection E as <- <- <-; left; eauto|].
    set (it0 := mkItem ItemModel.DataReset (ihandle it) (icoll it)).
    pose proof (search_fails Vals (CallsModel.compareValueByName file (fuelOf u) compareOther name) eq_refl ltac:(discriminate) (compare_fails name) held Hv Ht 33%nat (firstValueIndex p) (lastValueIndex p) it0 w) as Q.
    revert Q. generalize 33%nat. intros fu Q.
    destruct (CallsModel.search file (fuelOf u) Vals (CallsModel.compareValueByName file (fuelOf u) compareOther name) fu (firstValueIndex p) (lastValueIndex p) it0 (clean w)) as [((((r1, ok), it2), ob), w1)|]; [|discriminate].
    destruct ok; [|rewrite andb_false_r; discriminate]. intros E. specialize (Q r1 it2 ob w1 HI eq_refl H0). cbn [itemsOf] in Q. rewrite map_length in Q. specialize (Q H1 eq_refl). destruct Q as [(w2 & Q & <-)|(it' & ob' & w' & rs & Q & Fd & Hr)]; rewrite Q.
    - left. destruct (Z.leb 0 r1 && true); [|injection E as <- <- <-; eauto]. destruct ob; [|discriminate]. injection E as <- <- <-. eauto.
    - right. cbn [Z.leb Z.compare andb]. exists it', w', rs. split; [reflexivity|]. split; [exact Fd|]. destruct Hr as [(-> & _)|Hr]; auto.
  Qed.

  (* ---- profiles ---- *)
  (* file handles may be lost as well *)
  Definition lost (held : list res) (w : world) : Prop := exists use' out' h1, CallsWorld.I file u use' out' m0 h1 held (clean w) /\ (h1 <= h0)%nat.
  Lemma loop_set p v : forall n i use' out' h1 held oi pi w, CallsWorld.I file u use' out' m0 h1 held (clean w) -> (i + n <= length (order d))%nat ->
    (hasCache (collOf Offs) = true -> Z.of_nat (out' Offs + srcCount Offs held + n) < 2 ^ 31 - 1) ->
    exists w' use'' out'' h2, CallsModel.profilesLoop file (fuelOf u) n (Z.of_nat i) false p v oi pi w = Some ([], false, w') /\ CallsWorld.I file u use'' out'' m0 h2 held (clean w') /\ (h2 <= h1)%nat.
  Proof using D St Op room.
    clear Hh. induction n as [|n IH]; intros i use' out' h1 held oi pi w HI L Hb; cbn [CallsModel.profilesLoop]; [exists w, use', out', h1; auto|].
    destruct (item_at (order d) i ltac:(lia)) as (k & Nk).
    destruct (get_set use' out' h1 held w Offs i _ oi HI (offs_item d i k Nk)) as (x & it' & w' & use2 & out2 & h2 & G & I2 & Hh2 & Ho2).
    { intros X. specialize (Hb X). lia. }
    change (at_ Offs i) with (Z.of_nat i) in G. rewrite G. replace (Z.of_nat i + 1) with (Z.of_nat (S i)) by lia.
    destruct (IH (S i) use2 out2 h2 held it' pi w' I2 ltac:(lia)) as (w3 & u3 & o3 & h3 & E3 & I3 & H3).
    { intros X. specialize (Hb X). lia. }
    exists w3, u3, o3, h3. split; [|split; [exact I3|lia]]. destruct x; exact E3.
  Qed.
  Lemma order_few : hasCache (collOf Offs) = true -> Z.of_nat (length (order d)) < 2 ^ 30.
  Proof using D St Op room.
    clear Hh. intros X. destruct (room Offs X) as (_ & H). destruct (source_ok file pl d u D St Op Offs) as (h & HR & _). cbn [itemsOf] in H.
    assert (forall l, length (concat (map (encOffset d) l)) = (8 * length l)%nat) as Hl by (induction l as [|a l IH]; cbn [map concat length]; [reflexivity|]; rewrite app_length, IH, encOffset_length; lia).
    rewrite Hl in H. lia.
  Qed.
  Lemma failed_set p v n i held oi pi w : failed held w -> srcCount Offs held = 0%nat -> (i + n <= length (order d))%nat ->
    exists w', CallsModel.profilesLoop file (fuelOf u) n (Z.of_nat i) false p v oi pi w = Some ([], false, w') /\ lost held w'.
  Proof using D St Op room.
    clear Hh. intros (u1 & o1 & I1 & Ho) Hs L. destruct (loop_set p v n i u1 o1 h0 held oi pi w I1 L) as (w' & u2 & o2 & h2 & E & I2 & H2).
    { intros X. pose proof (order_few X). destruct (room Offs X). pose proof (conc_small Offs X). specialize (Ho Offs). lia. }
    exists w'. split; [exact E|]. exists u2, o2, h2. auto.
  Qed.
  Lemma profiles_fail p v : fits_method (meth Offs) (collOf Profs) = true -> forall n i held oi pi w l wc, I held (clean w) -> srcCount Offs held = 0%nat -> srcCount Profs held = 0%nat -> idle oi -> idle pi ->
    (i + n <= length (order d))%nat -> CallsModel.profilesLoop file (fuelOf u) n (Z.of_nat i) true p v oi pi (clean w) = Some (l, true, wc) ->
    (exists w1, CallsModel.profilesLoop file (fuelOf u) n (Z.of_nat i) true p v oi pi w = Some (l, true, w1) /\ clean w1 = wc) \/
    (exists k w', CallsModel.profilesLoop file (fuelOf u) n (Z.of_nat i) true p v oi pi w = Some (firstn k l, false, w') /\ lost held w').
  Proof using D St Op room Hh.
    intros Hf. induction n as [|n IH]; intros i held oi pi w l wc HI Ho Hp Hi1 Hi2 L E; cbn [CallsModel.profilesLoop] in *; [injection E as <- <-; left; eauto|].
    destruct (item_at (order d) i ltac:(lia)) as (k & Nk). destruct (order_prof d D _ _ Nk) as (f & Nf).
    destruct (get_offs held (clean w) i k f oi HI Hi1 Nk Nf Ho) as (b & it1 & w1 & r1 & G1 & I1 & Hd1 & C1 & E1 & P1). rewrite G1 in E.
    destruct (get_clean held w Offs i _ oi b it1 w1 HI Hi1 (offs_item d i k Nk) Ho G1) as [(w2 & G1' & <-)|(it' & w' & G1' & Fd)]; change (at_ Offs i) with (Z.of_nat i) in G1'; rewrite G1'.
    2:{ right. exists 0%nat. replace (Z.of_nat i + 1) with (Z.of_nat (S i)) by lia. destruct (failed_set p v n (S i) held it' pi w' Fd Ho ltac:(lia)) as (w3 & E3 & L3). exists w3. auto. }
    rewrite E1 in *. cbn [offset] in *.
    assert (srcCount Profs (r1 ++ held) = 0%nat) as Hp2 by (rewrite C1 by discriminate; exact Hp).
    destruct (get_prof (r1 ++ held) (clean w2) k f pi I1 Hi2 Nf Hp2) as (pb & it2 & w3 & r2 & after & G2 & I2 & Hd2 & C2 & E2 & P2). rewrite G2 in E.
    destruct (get_clean (r1 ++ held) w2 Profs k _ pi pb it2 w3 I1 Hi2 (prof_item d k f Nf) Hp2 G2) as [(w4 & G2' & <-)|(it' & w' & G2' & Fd)]; change (at_ Profs k) with (startOf (map encProf (profs d)) k) in G2'; rewrite G2'.
    2:{ right. exists 0%nat. replace (Z.of_nat i + 1) with (Z.of_nat (S i)) by lia.
        destruct (released_failed held w' Offs it1 r1 Offs Fd Hd1 (own Offs)) as (it3 & w5 & R3 & F3). rewrite R3.
        destruct (failed_set p v n (S i) held it3 it' w5 F3 Ho ltac:(lia)) as (w6 & E6 & L6). exists w6. auto. }
    rewrite E2 in *.
    match goal with H : match ?X with Some _ => _ | None => None end = _ |- _ => destruct X as [called|]; [|discriminate] end.
    destruct (released _ _ Profs _ _ Offs I2 Hd2 Hf) as (it3 & w5 & R3 & I3 & Hi3 & _). rewrite R3 in E. destruct (releaseIn_clean _ _ _ _ _ R3) as (w6 & R3' & <-). rewrite R3'.
    destruct (released _ _ Offs _ _ Offs I3 Hd1 (own Offs)) as (it4 & w7 & R4 & I4 & Hi4 & _). rewrite R4 in E. destruct (releaseIn_clean _ _ _ _ _ R4) as (w8 & R4' & <-). rewrite R4'.
    replace (Z.of_nat i + 1) with (Z.of_nat (S i)) in * by lia.
    destruct (CallsModel.profilesLoop file (fuelOf u) n (Z.of_nat (S i)) true p v it4 it3 (clean w8)) as [((l1, ok1), w9)|] eqn:E9; [|discriminate]. injection E as <- -> <-.
    destruct (IH (S i) held it4 it3 w8 l1 w9 I4 Ho Hp Hi4 Hi3 ltac:(lia) E9) as [(w1 & Q & Qc)|(j & w' & Q & Ql)]; rewrite Q.
    - left. exists w1. auto.
    - right. destruct called; [exists (S j)|exists j]; exists w'; auto.
  Qed.
  Lemma iterate_fails propertyName valueName w l wc : fits_method (meth Props) (collOf Texts) = true -> fits_method (meth Offs) (collOf Profs) = true -> I [] (clean w) ->
    (forall k q it1 w1, CallsModel.PropertyGetByName file (fuelOf u) propertyName newItem (clean w) = Some (Some (k, q), true, it1, w1) -> 0 <= firstValueIndex q /\ lastValueIndex q < Z.of_nat (length (vals d)) /\
      (firstValueIndex q <= lastValueIndex q \/ meth Vals = Nothing) /\ ProfileModel.ValueGetIndexByName (plain file u textOf Texts) (plain file u valueNameOffset Vals) compareOther q valueName <> None) ->
    CallsModel.ProfileIterateProfilesForPropertyAndValue file (fuelOf u) compareOther propertyName valueName (clean w) = Some (l, true, wc) ->
    (exists w1, CallsModel.ProfileIterateProfilesForPropertyAndValue file (fuelOf u) compareOther propertyName valueName w = Some (l, true, w1) /\ clean w1 = wc) \/
    (exists k w' rs s it, CallsModel.ProfileIterateProfilesForPropertyAndValue file (fuelOf u) compareOther propertyName valueName w = Some (firstn k l, false, w') /\ lost rs w' /\ (rs = [] \/ heldBy s it rs)).
  Proof using D St Op room Hh.
    intros F1 F2 HI Hv. unfold CallsModel.ProfileIterateProfilesForPropertyAndValue.
    destruct (by_name_refines file pl d u D St Op use0 out0 m0 h0 room Hh F1 propertyName [] newItem (clean w) HI eq_refl eq_refl eq_refl) as (r & it & w1 & rs & t & E1 & I1 & P1 & C1 & Hr). rewrite E1.
    destruct (by_name_fails F1 propertyName [] newItem w r it w1 HI eq_refl eq_refl eq_refl E1) as [(w2 & E2 & <-)|(r' & it' & w' & rs' & E2 & Fd & Hr')]; rewrite E2.
    2:{ intros _. right. rewrite app_nil_r in Fd. exists 0%nat, w', rs', Props, it'. split; [destruct r' as [(? & ?)|]; reflexivity|]. split; [destruct Fd as (u1 & o1 & I2 & _); exists u1, o1, h0; auto|].
        destruct r' as [(? & ?)|]; [right; apply Hr'|left; exact Hr']. }
    destruct r as [(j, q)|]; [|intros E; injection E as <- <-; left; eauto]. destruct (Hv _ _ _ _ E1) as (V1 & V2 & V3 & V4). rewrite app_nil_r in I1, C1.
    destruct (CallsModel.ValueGetIndexByName file (fuelOf u) compareOther q valueName (clean w2)) as [((v, ok), w3)|] eqn:Ev; [|discriminate].
    assert (ok = true -> (exists w4, CallsModel.ValueGetIndexByName file (fuelOf u) compareOther q valueName w2 = Some (v, true, w4) /\ clean w4 = w3) \/
      (exists w' it' rs1, CallsModel.ValueGetIndexByName file (fuelOf u) compareOther q valueName w2 = Some (0, false, w') /\ failed (rs1 ++ rs) w' /\ (rs1 = [] \/ heldBy Vals it' rs1))) as Qv.
    { intros ->. apply value_index_fails; auto; rewrite C1 by discriminate; reflexivity. }
    destruct ok.
    2:{ rewrite andb_false_r. destruct (releaseIn Props it w3) as [(? & ?)|]; discriminate. }
    specialize (Qv eq_refl). intros E. destruct Qv as [(w4 & Ev' & <-)|(w' & it' & rs1 & Ev' & Fd & Hr1)]; rewrite Ev'.
    2:{ right. cbn [Z.leb Z.compare andb]. assert (failed (rs ++ rs1) w') as Fd' by (eapply failed_perm; [apply Permutation_app_comm|exact Fd]).
        destruct (released_failed rs1 w' Props it rs Props Fd' Hr (own Props)) as (it5 & w5 & R5 & F5). rewrite R5. exists 0%nat, w5, rs1, Vals, it'. split; [reflexivity|]. split; [destruct F5 as (u1 & o1 & I2 & _); exists u1, o1, h0; auto|exact Hr1]. }
    assert (I rs (clean w4)) as I4.
    { pose proof (value_index_refines file pl d u D St Op use0 out0 m0 h0 room Hh compareOther q valueName rs (clean w2) I1 ltac:(rewrite C1 by discriminate; reflexivity) ltac:(rewrite C1 by discriminate; reflexivity) V1 V2 V3) as Q.
      destruct (ProfileModel.ValueGetIndexByName _ _ compareOther q valueName) as [(v', ok')|]; [|contradiction]. destruct Q as (_ & w5 & Q & I5). rewrite Ev in Q. injection Q as _ <-. exact I5. }
    rewrite andb_true_r in *. change (colls (clean w4) Offs) with (colls w4 Offs) in E. destruct (Z.leb 0 v).
    - pose proof (count_in file u use0 out0 m0 h0 rs (clean w4) Offs I4) as Hc. cbn [clean colls] in Hc. rewrite Hc, (count_offs file pl d u D St Op) in *.
      change 0 with (Z.of_nat 0) in E at 1. change 0 with (Z.of_nat 0) at 1 2.
      destruct (CallsModel.profilesLoop file (fuelOf u) (length (order d)) (Z.of_nat 0) true q v newItem newItem (clean w4)) as [((l1, ok1), w5)|] eqn:El; [|discriminate].
      destruct (releaseIn Props it w5) as [(it6, w6)|] eqn:R6; [|discriminate]. injection E as <- -> <-.
      destruct (profiles_fail q v F2 (length (order d)) 0 rs newItem newItem w4 l1 w5 I4 ltac:(rewrite C1 by discriminate; reflexivity) ltac:(rewrite C1 by discriminate; reflexivity) eq_refl eq_refl ltac:(lia) El) as [(w7 & Q & <-)|(k & w' & Q & (u1 & o1 & h1 & I7 & H1))]; rewrite Q.
      + left. destruct (releaseIn_clean _ _ _ _ _ R6) as (w8 & R8 & <-). rewrite R8. exists w8. auto.
      + right. rewrite <- (app_nil_r rs) in I7. destruct (CallsProofs.released file pl d u D St Op u1 o1 m0 h1 [] (clean w') Props it rs Props I7 Hr (own Props)) as (it8 & wc8 & R8 & I8 & _).
        destruct (releaseIn_clean _ _ _ _ _ R8) as (w9 & R9 & <-). rewrite R9. exists k, w9, [], Props, it. split; [reflexivity|]. split; [exists u1, o1, h1; auto|auto].
    - left. destruct (releaseIn Props it (clean w4)) as [(it6, w6)|] eqn:R6; [|discriminate]. injection E as <- <-.
      destruct (releaseIn_clean _ _ _ _ _ R6) as (w8 & R8 & <-). rewrite R8. exists w8. auto.
  Qed.
  Lemma by_index_fails held w i k f it b it1 wc : I held (clean w) -> idle it -> nth_error (order d) i = Some k -> nth_error (profs d) k = Some f -> srcCount Offs held = 0%nat -> srcCount Profs held = 0%nat ->
    CallsModel.ProfileGetByIndex file (fuelOf u) (Z.of_nat i) it (clean w) = Some (b, true, it1, wc) ->
    (exists w1, CallsModel.ProfileGetByIndex file (fuelOf u) (Z.of_nat i) it w = Some (b, true, it1, w1) /\ clean w1 = wc) \/
    (exists it' w', CallsModel.ProfileGetByIndex file (fuelOf u) (Z.of_nat i) it w = Some (None, false, it', w') /\ failed held w').
  Proof using D St Op room Hh.
    intros HI Hi Nk Nf Ho Hp E. unfold CallsModel.ProfileGetByIndex in *.
    destruct (get_offs held (clean w) i k f newItem HI eq_refl Nk Nf Ho) as (ob & it2 & w2 & r2 & G1 & I1 & Hd1 & C1 & E1 & P1). rewrite G1 in E.
    destruct (get_clean held w Offs i _ newItem ob it2 w2 HI eq_refl (offs_item d i k Nk) Ho G1) as [(w3 & G1' & <-)|(it' & w' & G1' & Fd)]; change (at_ Offs i) with (Z.of_nat i) in G1'; rewrite G1'.
    2:{ right. exists it, w'. auto. }
    rewrite E1 in *. cbn [offset] in *. assert (srcCount Profs (r2 ++ held) = 0%nat) as Hp2 by (rewrite C1 by discriminate; exact Hp).
    destruct (get_prof (r2 ++ held) (clean w3) k f it I1 Hi Nf Hp2) as (pb & it4 & w4 & r4 & after & G2 & I2 & Hd2 & C2 & E2 & P2). rewrite G2 in E.
    destruct (get_clean (r2 ++ held) w3 Profs k _ it pb it4 w4 I1 Hi (prof_item d k f Nf) Hp2 G2) as [(w5 & G2' & <-)|(it' & w' & G2' & Fd)]; change (at_ Profs k) with (startOf (map encProf (profs d)) k) in G2'; rewrite G2'.
    - destruct (releaseIn Offs it2 (clean w5)) as [(it6, w6)|] eqn:R6; [|discriminate]. injection E as <- <- <-. destruct (releaseIn_clean _ _ _ _ _ R6) as (w8 & R8 & <-). rewrite R8. left. exists w8. auto.
    - right. destruct (released_failed held w' Offs it2 r2 Offs Fd Hd1 (own Offs)) as (it6 & w6 & R6 & F6). rewrite R6. exists it', w6. auto.
  Qed.
  Lemma value_type_fails held w j p t wc : I held (clean w) -> srcCount Props held = 0%nat -> nth_error (props d) j = Some p ->
    CallsModel.PropertyGetValueType file (fuelOf u) (Z.of_nat j) (clean w) = Some (t, true, wc) ->
    (exists w1, CallsModel.PropertyGetValueType file (fuelOf u) (Z.of_nat j) w = Some (t, true, w1) /\ clean w1 = wc) \/
    (exists w', CallsModel.PropertyGetValueType file (fuelOf u) (Z.of_nat j) w = Some (0, false, w') /\ failed held w').
  Proof using D St Op room Hh.
    intros HI Hp Np E. unfold CallsModel.PropertyGetValueType in *. destruct (get_prop held (clean w) j p newItem HI eq_refl Np Hp) as (b & it2 & w2 & r2 & G1 & I1 & Hd1 & C1 & E1 & E2 & P1). rewrite G1 in E.
    destruct (get_clean held w Props j _ newItem b it2 w2 HI eq_refl (prop_item d j p Np) Hp G1) as [(w3 & G1' & <-)|(it' & w' & G1' & Fd)]; cbn [kindOf position] in G1'; rewrite G1'.
    - rewrite E2 in *. destruct (releaseIn Props it2 (clean w3)) as [(it6, w6)|] eqn:R6; [|discriminate]. injection E as <- <-. destruct (releaseIn_clean _ _ _ _ _ R6) as (w8 & R8 & <-). rewrite R8. left. exists w8. auto.
    - right. exists w'. auto.
  Qed.
  Lemma by_id_fails held w id it : meth Offs = Nothing -> I held (clean w) -> idle it -> srcCount Offs held = 0%nat -> srcCount Profs held = 0%nat -> srcCount Texts held = 0%nat -> id <> 0 -> order d <> [] ->
    (forall i j n m f g, (i < j)%nat -> nth_error (order d) i = Some n -> nth_error (order d) j = Some m -> nth_error (profs d) n = Some f -> nth_error (profs d) m = Some g -> prid f < prid g) ->
    forall b it1 wc, CallsModel.ProfileGetByProfileId file (fuelOf u) id it (clean w) = Some (b, true, it1, wc) ->
    (exists w1, CallsModel.ProfileGetByProfileId file (fuelOf u) id it w = Some (b, true, it1, w1) /\ clean w1 = wc) \/
    (exists it' w', CallsModel.ProfileGetByProfileId file (fuelOf u) id it w = Some (None, false, it', w') /\ failed held w').
  Proof using D St Op room Hh.
    intros M HI Hi Ho Hp Ht Hid Hn Hs b it1 wc E. unfold CallsModel.ProfileGetByProfileId in *. destruct (CallsProofs.offset_of_id file pl d u D St Op use0 out0 m0 h0 room Hh id held (clean w) HI Ho Ht Hid Hn Hs) as (r & w1 & Q & I1 & H). rewrite Q in E.
    assert (exists ci bs, colls w Offs = Mem ci bs) as (ci & bs & Ec).
    { pose proof (method_in file u use0 out0 m0 h0 held (clean w) Offs HI) as X. unfold methodIn in X. cbn [clean colls] in X. rewrite M in X. destruct (colls w Offs); try discriminate. eauto. }
    destruct (memory_offset file (fuelOf u) id ci bs w r true w1 Ec Q) as (w2 & Q2 & <-). rewrite Q2. destruct r as [off|].
    - destruct H as (i & n & f & En & Ef & Ei & ->). destruct (get_prof held (clean w2) n f it I1 Hi Ef Hp) as (pb & it2 & w3 & r2 & after & G2 & I2 & Hd2 & C2 & E2 & P2). rewrite G2 in E. injection E as <- <- <-.
      destruct (get_clean held w2 Profs n _ it pb it2 w3 I1 Hi (prof_item d n f Ef) Hp G2) as [(w5 & G2' & <-)|(it' & w' & G2' & Fd)]; change (at_ Profs n) with (startOf (map encProf (profs d)) n) in G2'; rewrite G2'; eauto 10.
    - injection E as <- <- <-. left. eauto.
  Qed.
End Fail.
