(* The collections of a data set under calls: what is held *)
From Coq Require Import Permutation.
From Verif Require Import TreeModel CacheModel CacheSpec CacheRun CollectionModel CollectionSpec CollectionProofs CollectionProps.
From Verif Require ItemModel LifeModel LifeSpec LifeProofs.
From Verif Require Import ProfileModel DbModel DbSpec DbProofs DbFound CallsModel CallsSpec CallsGet.
Local Open Scope Z_scope.

(* something held *)
Inductive res := RNode (s : src) (n : slot) | RBlock (p : nat) (z : Z).
Lemma src_eqb_spec a b : reflect (a = b) (src_eqb a b).
Proof. destruct a, b; cbn; constructor; congruence. Qed.
Definition nodeOf (s : src) (n : slot) (r : res) : nat := match r with RNode s' n' => if src_eqb s s' && slot_eqb n n' then 1 else 0 | RBlock _ _ => 0 end%nat.
Definition ofSource (s : src) (r : res) : nat := match r with RNode s' _ => if src_eqb s s' then 1 else 0 | RBlock _ _ => 0 end%nat.
Definition nodeCount (s : src) (n : slot) (l : list res) : nat := list_sum (map (nodeOf s n) l).
Definition srcCount (s : src) (l : list res) : nat := list_sum (map (ofSource s) l).
Definition blocks (l : list res) : list (nat * Z) := flat_map (fun r => match r with RBlock p z => [(p, z)] | RNode _ _ => [] end) l.

Lemma list_sum_perm (l l' : list nat) : Permutation l l' -> list_sum l = list_sum l'.
Proof. induction 1; cbn [list_sum fold_right] in *; unfold list_sum in *; cbn [fold_right]; lia. Qed.
Lemma nodeCount_perm s n l l' : Permutation l l' -> nodeCount s n l = nodeCount s n l'.
Proof. intros P. apply list_sum_perm. now apply Permutation_map. Qed.
Lemma srcCount_perm s l l' : Permutation l l' -> srcCount s l = srcCount s l'.
Proof. intros P. apply list_sum_perm. now apply Permutation_map. Qed.
Lemma blocks_perm l l' : Permutation l l' -> Permutation (blocks l) (blocks l').
Proof. intros P. unfold blocks. now apply Permutation_flat_map. Qed.

Section World.
  Context (file : list Z) (pl : places) (d : db) (u : uses).
  Context (D : dbOK d) (St : stored file pl d) (Op : allOpened file pl u).
  (* at the start *)
  Context (use0 : src -> slot -> nat) (out0 : src -> nat) (m0 : list (nat * Z)) (h0 : nat).
  Notation collOf s := (ucoll (useOf u s)).
  Context (room : forall s, hasCache (collOf s) = true -> Z.of_nat (out0 s) < concOf (ucfg (useOf u s)) /\ Z.of_nat (length (concat (itemsOf d s))) <= 2 ^ 31).

  Lemma source_ok s : exists h, regionOK file (kindOf s) (itemsOf d s) h /\ configOK (umem (useOf u s)) (ufuel (useOf u s)) (ucfg (useOf u s)) /\
    created file (kindOf s) (umem (useOf u s)) h (ucfg (useOf u s)) (collOf s) /\ (hasCache (collOf s) = true -> 0 < concOf (ucfg (useOf u s)) <= Z.of_nat (slotsOf (ucfg (useOf u s)))).
  Proof using D St Op.
    pose proof D as (T & _ & _ & Pf & _ & S1 & S2 & S3 & S4 & S5). destruct St as (A1 & A2 & A3 & A4 & A5). destruct Op as (O1 & O2 & O3 & O4 & O5).
    assert (G : forall k pos es isCount items v, storedAt file pos isCount items -> small items -> sizesOK k items es isCount -> opened file k pos es isCount v ->
      exists h, regionOK file k items h /\ configOK (umem v) (ufuel v) (ucfg v) /\ created file k (umem v) h (ucfg v) (ucoll v) /\ (hasCache (ucoll v) = true -> 0 < concOf (ucfg v) <= Z.of_nat (slotsOf (ucfg v)))).
    { intros k pos es isCount items v Sa Sm So (h & Eh & HC & Hc & Hr). destruct (region _ _ _ _ _ _ Sa Sm So) as (h' & Eh' & HR & _). rewrite Eh in Eh'. injection Eh' as <-. exists h. auto. }
    destruct s; cbn [kindOf itemsOf useOf].
    - exact (G _ _ _ _ _ _ A1 S1 (texts_ok _ T) O1).
    - exact (G _ _ _ _ _ _ A2 S2 (props_ok pl d D) O2).
    - exact (G _ _ _ _ _ _ A3 S3 (vals_ok pl d) O3).
    - exact (G _ _ _ _ _ _ A4 S4 (profs_ok _ Pf S4) O4).
    - exact (G _ _ _ _ _ _ A5 S5 (offsets_ok pl d) O5).
  Qed.

  Definition execS (s : src) := exec file (kindOf s) (fuelOf u s) (collOf s).
  Record I (held : list res) (w : world) : Prop := mkI {
    i_tr : forall s, exists tr, execS s tr (colls w s) /\ (forall n, holding tr n + leaked tr n = use0 s n + nodeCount s n held)%nat /\
      (forall n, nodeCount s n held <= holding tr n)%nat /\ outstanding tr = (out0 s + srcCount s held)%nat;
    i_heap : LifeProofs.owns m0 (heap w) (blocks held);
    i_handles : handles w = h0;
    i_ios : ios w = [] }.
  Lemma I_perm l l' w : Permutation l l' -> I l w -> I l' w.
  Proof using Type.
    intros P [H1 H2 H3 H4]. constructor; [|exact (LifeProofs.owns_perm _ _ _ _ (blocks_perm _ _ P) H2)|exact H3|exact H4].
    intros s. destruct (H1 s) as (tr & E & A & B & C). exists tr. split; [exact E|]. split; [intros n; now rewrite <- (nodeCount_perm s n _ _ P)|]. split; [intros n; now rewrite <- (nodeCount_perm s n _ _ P)|]. now rewrite <- (srcCount_perm s _ _ P).
  Qed.

  Lemma skel held w s : I held w -> skeleton (colls w s) = skeleton (collOf s).
  Proof using Type. intros [H _ _ _]. destruct (H s) as (tr & E & _). exact (exec_skeleton _ _ _ _ _ _ E). Qed.
  Lemma method_in held w s : I held w -> methodIn w s = methodOf (collOf s).
  Proof using Type. intros H. unfold methodIn. rewrite <- (method_skeleton (colls w s)), (skel _ _ s H). apply method_skeleton. Qed.
  Lemma layers_in held w s : I held w -> layers (colls w s) = layers (collOf s).
  Proof using Type. intros H. rewrite <- (layers_skeleton (colls w s)), (skel _ _ s H). apply layers_skeleton. Qed.
  Lemma count_in held w s : I held w -> CollectionGetCount (colls w s) = CollectionGetCount (collOf s).
  Proof using Type. intros H. rewrite <- (count_skeleton (colls w s)), (skel _ _ s H). apply count_skeleton. Qed.
  Lemma shape s : In (layers (collOf s)) [[Nothing]; [ByFile]; [ByCache]; [ByItem]; [ByItem; ByFile]; [ByItem; ByCache]].
  Proof using D St Op. destruct (source_ok s) as (h & HR & HC & Hc & _). exact (shapes _ _ _ _ _ _ _ _ HR HC Hc _ _ (exec_nil _ _ _ _)). Qed.
  Lemma method_layers c : exists l, layers c = methodOf c :: l.
  Proof using Type. destruct c as [ci b|ci st|ci st cc|ci b [n|]]; cbn [layers methodOf]; eauto. Qed.
  Lemma own_method s : fits_method (methodOf (collOf s)) (collOf s) = true.
  Proof using D St Op.
    pose proof (shape s) as H. destruct (method_layers (collOf s)) as (l & E). unfold fits_method. rewrite E in *. cbn [In] in H.
    destruct H as [H|[H|[H|[H|[H|[H|[]]]]]]]; injection H as <- <-; reflexivity.
  Qed.

  (* an item of the collection s and what it holds *)
  Inductive heldBy (s : src) : item -> list res -> Prop :=
  | hb_mem dt hd : ItemModel.allocated dt = 0 -> layers (collOf s) = [Nothing] -> heldBy s (mkItem dt hd (Some (Some Nothing))) []
  | hb_part l : layers (collOf s) = ByItem :: l -> heldBy s (mkItem ItemModel.DataReset Null (Some (Some ByItem))) []
  | hb_file dt p z : layers (collOf s) = [ByFile] \/ layers (collOf s) = [ByItem; ByFile] -> heldBy s (mkItem dt (Block p) (Some (Some ByFile))) [RBlock p z]
  | hb_node n : layers (collOf s) = [ByCache] \/ layers (collOf s) = [ByItem; ByCache] -> heldBy s (mkItem ItemModel.DataReset (Node s n) (Some (Some ByCache))) [RNode s n].

  Lemma users_small s tr c n : execS s tr c -> (holding tr n + leaked tr n <= outstanding tr)%nat.
  Proof using Type.
    intros E. pose proof (outstanding_sum _ _ _ _ _ _ E [n] ltac:(constructor; [intros []|constructor])) as H. cbn [map list_sum fold_right] in H. unfold list_sum, inUse in H. cbn [fold_right] in H. lia.
  Qed.
  Lemma position_small s n it : nth_error (itemsOf d s) n = Some it -> 0 <= position (kindOf s) (itemsOf d s) n < Z.of_nat (length (concat (itemsOf d s))) /\ position (kindOf s) (itemsOf d s) n < 2 ^ 32.
  Proof using D St Op.
    intros N. destruct (source_ok s) as (h & HR & _). pose proof HR as (Hi & Hl & Hb & _). pose proof (position_bound _ _ _ _ HR _ _ N) as (P1 & P2 & _).
    split; [|lia]. split; [lia|]. pose proof (concat_nth _ _ _ N) as Hc. apply (f_equal (@length Z)) in Hc. rewrite !app_length in Hc.
    assert (n < length (itemsOf d s))%nat as Hlt by (apply nth_error_Some; congruence).
    unfold position. destruct (kindOf s); [|lia]. destruct Hi as (es & He & Hi). pose proof (concat_fixed_len _ _ Hi). nia.
  Qed.

  Lemma serving_layers c i : In (layers c) [[Nothing]; [ByFile]; [ByCache]; [ByItem]; [ByItem; ByFile]; [ByItem; ByCache]] ->
    match serving c i with
    | Mem _ _ => layers c = [Nothing]
    | File _ _ => layers c = [ByFile] \/ layers c = [ByItem; ByFile]
    | Cached _ _ _ => layers c = [ByCache] \/ layers c = [ByItem; ByCache]
    | Partial _ _ _ => exists l, layers c = ByItem :: l
    end.
  Proof using Type.
    destruct c as [ci b|ci st|ci st cc|ci b [n|]]; cbn [layers serving methodOf]; intros H; auto; [|eauto].
    destruct (getMemory ci b i); [eauto|]. destruct n as [ci1 b1|ci1 st1|ci1 st1 cc1|ci1 b1 [n1|]]; cbn [layers serving methodOf In] in *; auto;
      exfalso; destruct H as [H|[H|[H|[H|[H|[H|[]]]]]]]; try discriminate; injection H; intros; try discriminate; destruct n1 as [| | |? ? [|]]; discriminate.
  Qed.
  Lemma cache_layers c : hasCache c = true -> In (layers c) [[Nothing]; [ByFile]; [ByCache]; [ByItem]; [ByItem; ByFile]; [ByItem; ByCache]] -> layers c = [ByCache] \/ layers c = [ByItem; ByCache].
  Proof using Type.
    destruct c as [ci b|ci st|ci st cc|ci b [n|]]; cbn [layers hasCache methodOf]; intros X H; try discriminate; auto.
    destruct n as [ci1 b1|ci1 st1|ci1 st1 cc1|ci1 b1 [n1|]]; cbn [layers hasCache methodOf In] in *; try discriminate; auto.
    exfalso; destruct H as [H|[H|[H|[H|[H|[H|[]]]]]]]; try discriminate; injection H; intros; try discriminate; destruct n1 as [| | |? ? [|]]; discriminate.
  Qed.
  Lemma layers_cache c : layers c = [ByCache] \/ layers c = [ByItem; ByCache] -> hasCache c = true.
  Proof using Type.
    destruct c as [ci b|ci st|ci st cc|ci b [n|]]; cbn [layers hasCache methodOf]; intros [X|X]; try discriminate; auto;
    destruct n as [ci1 b1|ci1 st1|ci1 st1 cc1|ci1 b1 [n1|]]; cbn [layers hasCache methodOf] in *; try discriminate; auto; injection X; intros; try discriminate; destruct n1 as [| | |? ? [|]]; discriminate.
  Qed.

  Lemma colls_set w s c x : colls (setColl w s c) x = if src_eqb x s then c else colls w x.
  Proof using Type. reflexivity. Qed.

  Lemma serving_last c i ci b nx : serving c i = Partial ci b nx -> fromLast c i = true -> layers c = [ByItem] \/ exists l, layers c = ByItem :: ByItem :: l.
  Proof using Type.
    destruct c as [c1 b1|c1 s1|c1 s1 cc|c1 b1 [n1|]]; cbn [serving fromLast layers methodOf]; intros E F; try discriminate; [|auto].
    destruct (getMemory c1 b1 i); [discriminate|]. right. destruct n1 as [c2 b2|c2 s2|c2 s2 cc|c2 b2 [n2|]]; cbn [serving layers methodOf] in *; try discriminate; eauto.
  Qed.
  (* a get of an item that is there, if there is a node left for it *)
  Lemma get_step_room held w s n itm it : I held w -> (0 < h0)%nat -> ItemModel.allocated (idata it) = 0 -> nth_error (itemsOf d s) n = Some itm -> (hasCache (collOf s) = true -> Z.of_nat (out0 s + srcCount s held) < concOf (ucfg (useOf u s))) ->
    exists b it' w' r, get file (fuelOf u) s (position (kindOf s) (itemsOf d s) n) true it w = Some (Some b, true, it', w') /\
      plainBytes file (kindOf s) (collOf s) (position (kindOf s) (itemsOf d s) n) = Some b /\ firstn (length itm) b = itm /\
      I (r ++ held) w' /\ heldBy s it' r /\ (forall x, x <> s -> srcCount x r = 0%nat) /\
      (fromLast (colls w s) (position (kindOf s) (itemsOf d s) n) = true -> r = [] -> layers (collOf s) = [ByItem] \/ layers (collOf s) = [Nothing] /\ ihandle it' = ihandle it).
  Proof using D St Op room.
    intros HI Hh Ha N Hs. destruct (source_ok s) as (h & HR & HC & Hcr & Hconc). pose proof (position_small s n itm N) as (Hp & Hp32). set (i := position (kindOf s) (itemsOf d s) n) in *.
    destruct HI as [H1 H2 H3 H4]. destruct (H1 s) as (tr & E & A & B & C).
    assert (hasCache (colls w s) = hasCache (collOf s)) as Ec by (rewrite <- (cache_skeleton (colls w s)), (exec_skeleton _ _ _ _ _ _ E); apply cache_skeleton).
    assert (hasCache (collOf s) = true -> 0 < concOf (ucfg (useOf u s)) < 2 ^ 16) as Hb.
    { intros X. specialize (Hconc X). destruct (ucfg (useOf u s)) as [|ld cp cn]; cbn [concOf configOK] in *; [lia|]. destruct HC as (_ & _ & Y & _). lia. }
    assert (wellUsed tr (colls w s) (Get i IoOk)) as Hw.
    { split; [lia|]. intros X. rewrite Ec in X. destruct (room s X) as (R1 & R2). specialize (Hs X). split; [lia|]. intros sl. pose proof (users_small s tr _ sl E). specialize (Hb X). lia. }
    destruct (got_item file (kindOf s) (itemsOf d s) h _ _ _ _ HR HC Hcr tr (colls w s) n itm E N Hw) as (b & sl & c' & G & P & F & Q).
    { intros X. split; [exact (Hconc X)|]. destruct (room s X). specialize (Hs X). lia. }
    fold i in G, P, Q.
    assert (P' : plainBytes file (kindOf s) (collOf s) i = Some b) by (rewrite <- P, <- (plain_skeleton file (kindOf s) (colls w s)), (exec_skeleton _ _ _ _ _ _ E); symmetry; apply plain_skeleton).
    assert (L : layers (colls w s) = layers (collOf s)) by (rewrite <- (layers_skeleton (colls w s)), (exec_skeleton _ _ _ _ _ _ E); apply layers_skeleton).
    pose proof (serving_layers (colls w s) i ltac:(rewrite L; apply shape)) as V. rewrite L in V.
    assert (E' : execS s (EGot i b sl :: tr) c') by exact (exec_cons _ _ _ _ _ _ _ _ _ E Hw G).
    assert (nextIo w = IoOk) as Hio by (unfold nextIo; rewrite H3, H4; destruct h0; [lia|reflexivity]).
    (* nothing of a cache *)
    assert (Keep : forall r hp, sl = None -> (forall x, srcCount x r = 0%nat) -> (forall x m, nodeCount x m r = 0%nat) -> LifeProofs.owns m0 hp (blocks (r ++ held)) ->
      forall w', w' = setHeap (setColl (dropIo w) s c') hp -> I (r ++ held) w').
    { intros r hp -> Z1 Z2 Z3 w' ->. constructor; [|exact Z3|exact H3|cbn; rewrite H4; reflexivity]. intros x. cbn [setHeap colls]. rewrite colls_set. cbn [dropIo colls].
      assert (forall m, nodeCount x m (r ++ held) = nodeCount x m held) as Y1 by (intros m; unfold nodeCount at 1; rewrite map_app, list_sum_app; fold (nodeCount x m r); rewrite Z2; reflexivity).
      assert (srcCount x (r ++ held) = srcCount x held) as Y2 by (unfold srcCount at 1; rewrite map_app, list_sum_app; fold (srcCount x r); rewrite Z1; reflexivity).
      destruct (src_eqb_spec x s) as [->|Ne].
      - exists (EGot i b None :: tr). split; [exact E'|]. split; [intros m; rewrite Y1; exact (A m)|]. split; [intros m; rewrite Y1; exact (B m)|]. rewrite Y2. exact C.
      - destruct (H1 x) as (trx & Ex & Ax & Bx & Cx). exists trx. split; [exact Ex|]. split; [intros m; now rewrite Y1|]. split; [intros m; now rewrite Y1|]. now rewrite Y2. }
    unfold get, getClear. rewrite Hio. unfold fuelOf at 1. 
    destruct (serving (colls w s) i) as [ci0 b0|ci0 st0|ci0 st0 cc0|ci0 b0 nx0] eqn:Sv; cbn [gotFrom] in Q.
    - destruct Q as (-> & ->). unfold fuelOf. rewrite G. exists b, (mkItem (idata it) (ihandle it) (Some (Some Nothing))), (setColl (dropIo w) s (colls w s)), [].
      split; [reflexivity|]. split; [exact P'|]. split; [exact F|]. assert (heldBy s (mkItem (idata it) (ihandle it) (Some (Some Nothing))) []) as Hd by now constructor.
      split; [|split; [exact Hd|split; [intros x _; reflexivity|intros _ _; right; split; [exact V|reflexivity]]]].
      apply (Keep [] (heap w) eq_refl); [reflexivity|reflexivity|exact H2|reflexivity].
    - destruct Q as (-> & -> & Wy & Hsz). cbn [io_eqb andb]. unfold fuelOf. rewrite G, Wy. unfold ItemModel.getFile, ItemModel.DataMalloc. cbn [ItemModel.idata]. rewrite Ha. cbn [Z.ltb Z.compare andb]. rewrite Ha. cbn [Z.eqb].
      unfold ItemModel.write at 1. cbn [ItemModel.live ItemModel.sizeOf dropIo heap]. rewrite Nat.eqb_refl, Z.leb_refl. cbn [ItemModel.idata].
      set (p := ItemModel.fresh (heap w)). set (hp := ItemModel.mkMem (S p) ((p, Z.of_nat (length b)) :: ItemModel.live (heap w))).
      exists b, (mkItem (ItemModel.mkData (Some p) (Z.of_nat (length b) mod 2 ^ 32)) (Block p) (Some (Some ByFile))), (setHeap (setColl (dropIo w) s (colls w s)) hp), [RBlock p (Z.of_nat (length b))].
      split; [reflexivity|]. split; [exact P'|]. split; [exact F|].
      assert (heldBy s (mkItem (ItemModel.mkData (Some p) (Z.of_nat (length b) mod 2 ^ 32)) (Block p) (Some (Some ByFile))) [RBlock p (Z.of_nat (length b))]) as Hd by (constructor; exact V).
      split; [|split; [exact Hd|split; [intros x _; reflexivity|discriminate]]].
      apply (Keep [RBlock p (Z.of_nat (length b))] hp eq_refl); [reflexivity|reflexivity| |reflexivity].
      cbn [app blocks flat_map]. exact (LifeProofs.owns_alloc _ _ _ _ _ _ H2 eq_refl).
    - destruct Q as (nd & ->). unfold fuelOf. rewrite G. exists b, (mkItem ItemModel.DataReset (Node s nd) (Some (Some ByCache))), (setColl (dropIo w) s c'), [RNode s nd].
      split; [reflexivity|]. split; [exact P'|]. split; [exact F|]. split; [|split; [constructor; exact V|split; [|discriminate]]].
      + constructor; [|exact H2|exact H3|cbn; rewrite H4; reflexivity]. intros x. rewrite colls_set. cbn [dropIo colls app].
        unfold nodeCount, srcCount in *. cbn [map list_sum fold_right nodeOf ofSource]. destruct (src_eqb_spec x s) as [->|Ne].
        * exists (EGot i b (Some nd) :: tr). split; [exact E'|]. cbn [holding leaked outstanding andb]. unfold list_sum in *. cbn [fold_right].
          split; [intros m; specialize (A m); destruct (slot_eqb m nd); lia|]. split; [intros m; specialize (B m); destruct (slot_eqb m nd); lia|]. lia.
        * destruct (H1 x) as (trx & Ex & Ax & Bx & Cx). exists trx. unfold nodeCount, srcCount, list_sum in *. cbn [fold_right andb]. auto.
      + intros x Ne. unfold srcCount. cbn [map list_sum fold_right ofSource]. destruct (src_eqb_spec x s); [contradiction|reflexivity].
    - destruct Q as (-> & ->). unfold fuelOf. rewrite G. exists b, (mkItem ItemModel.DataReset Null (Some (Some ByItem))), (setColl (dropIo w) s (colls w s)), [].
      destruct V as (l & V). split; [reflexivity|]. split; [exact P'|]. split; [exact F|]. assert (heldBy s (mkItem ItemModel.DataReset Null (Some (Some ByItem))) []) as Hd by (econstructor; exact V).
      split; [|split; [exact Hd|split; [intros x _; reflexivity|intros Fl _; left; destruct (serving_last _ _ _ _ _ Sv Fl) as [X|(l' & X)]; rewrite L in X; [exact X|exfalso; pose proof (shape s) as Sh; rewrite X in Sh; cbn [In] in Sh; destruct Sh as [Sh|[Sh|[Sh|[Sh|[Sh|[Sh|[]]]]]]]; discriminate]]]].
      apply (Keep [] (heap w) eq_refl); [reflexivity|reflexivity|exact H2|reflexivity].
  Qed.

  (* the same if none of the collection is held *)
  Lemma get_step held w s n itm it : I held w -> (0 < h0)%nat -> ItemModel.allocated (idata it) = 0 -> nth_error (itemsOf d s) n = Some itm -> srcCount s held = 0%nat ->
    exists b it' w' r, get file (fuelOf u) s (position (kindOf s) (itemsOf d s) n) true it w = Some (Some b, true, it', w') /\
      plainBytes file (kindOf s) (collOf s) (position (kindOf s) (itemsOf d s) n) = Some b /\ firstn (length itm) b = itm /\
      I (r ++ held) w' /\ heldBy s it' r /\ (forall x, x <> s -> srcCount x r = 0%nat) /\
      (fromLast (colls w s) (position (kindOf s) (itemsOf d s) n) = true -> r = [] -> layers (collOf s) = [ByItem] \/ layers (collOf s) = [Nothing] /\ ihandle it' = ihandle it).
  Proof using D St Op room.
    intros HI Hh Ha N Hs. apply get_step_room; auto. intros X. rewrite Hs. destruct (room s X). lia.
  Qed.

  (* a release of what is held *)
  Lemma release_step held w s it r m : I (r ++ held) w -> heldBy s it r -> fits_method m (collOf s) = true ->
    exists it' w', release m it w = Some (it', w') /\ I held w' /\ ItemModel.allocated (idata it') = 0 /\ (forall w, release m it' w = Some (it', w)).
  Proof using D St Op.
    intros HI Hd Hf. pose proof (shape s) as Sh. unfold fits_method in Hf. destruct Hd as [dt hd Ha L|l L|dt p z L|n L].
    - rewrite L in Hf. cbn [app] in HI. exists (mkItem dt hd (Some (Some Nothing))), w.
      assert (forall w0, release m (mkItem dt hd (Some (Some Nothing))) w0 = Some (mkItem dt hd (Some (Some Nothing)), w0)) as X by (intros w0; destruct m; try discriminate; cbn [release releaseWith ihandle icoll]; [reflexivity|destruct hd; reflexivity]).
      auto.
    - cbn [app] in HI. exists (mkItem ItemModel.DataReset Null (Some (Some ByItem))), w.
      assert (forall w0, release m (mkItem ItemModel.DataReset Null (Some (Some ByItem))) w0 = Some (mkItem ItemModel.DataReset Null (Some (Some ByItem)), w0)) as X by (intros w0; destruct m; reflexivity).
      auto.
    - destruct HI as [H1 H2 H3 H4]. cbn [app blocks flat_map] in H2. destruct (LifeProofs.owns_free _ _ _ _ _ H2) as (hp & Fr & H2').
      exists (mkItem ItemModel.DataReset Null (Some None)), (setHeap w hp).
      split; [|split; [constructor; [exact H1|exact H2'|exact H3|exact H4]|split; [reflexivity|]]].
      + destruct L as [L|L]; rewrite L in Hf; destruct m; try discriminate; cbn [release releaseWith ihandle icoll]; now rewrite Fr.
      + intros w0. destruct L as [L|L]; rewrite L in Hf; destruct m; try discriminate; reflexivity.
    - destruct HI as [H1 H2 H3 H4]. destruct (H1 s) as (tr & E & A & B & C).
      destruct (source_ok s) as (h & HR & HC & Hcr & _).
      assert (0 < holding tr n)%nat as Hp.
      { specialize (B n). unfold nodeCount in B. cbn [app map nodeOf] in B. destruct (src_eqb_spec s s) as [_|]; [|contradiction]. unfold slot_eqb in B. destruct n as (x, y). cbn [fst snd] in B. rewrite !Nat.eqb_refl in B. cbn [andb] in B. unfold list_sum in B. cbn [fold_right] in B. lia. }
      destruct (can_release _ _ _ _ _ _ _ _ HR HC Hcr tr (colls w s) n E (layers_cache _ L) Hp) as (c' & R).
      exists (mkItem ItemModel.DataReset Null (Some (Some ByCache))), (setColl w s c').
      split; [|split; [|split; [reflexivity|]]].
      + destruct L as [L|L]; rewrite L in Hf; destruct m; try discriminate; cbn [release releaseWith ihandle icoll idata]; now rewrite R.
      + constructor; [|exact H2|exact H3|exact H4]. intros x. rewrite colls_set. destruct (src_eqb_spec x s) as [->|Ne].
        * exists (ERel n :: tr). split; [apply (exec_cons _ _ _ _ _ _ (CollectionSpec.Release n) _ _ E Hp); cbn [cstep]; now rewrite R|].
          unfold nodeCount, srcCount, list_sum in *. cbn [app map nodeOf ofSource fold_right] in A, B, C. destruct (src_eqb_spec s s) as [_|]; [|contradiction]. cbn [andb] in A, B. cbn [holding leaked outstanding].
          split; [intros m'; specialize (A m'); specialize (B m'); destruct (slot_eqb_spec m' n); lia|].
          split; [intros m'; specialize (B m'); destruct (slot_eqb_spec m' n); lia|]. lia.
        * destruct (H1 x) as (trx & Ex & Ax & Bx & Cx). exists trx. unfold nodeCount, srcCount, list_sum in *. cbn [app map nodeOf ofSource fold_right] in Ax, Bx, Cx.
          destruct (src_eqb_spec x s) as [|_]; [contradiction|]. cbn [andb] in Ax, Bx. cbn [Nat.add] in *. auto.
      + intros w0. destruct L as [L|L]; rewrite L in Hf; destruct m; try discriminate; reflexivity.
  Qed.

  (* ---- the same as functions ---- *)
  Definition plain {A} (decode : list Z -> option A) (s : src) (i : Z) : option A * bool :=
    match plainBytes file (kindOf s) (collOf s) i with Some b => (decode b, true) | None => (None, true) end.
  Notation gString := (plain textOf Texts).
  Notation gProperty := (plain propertyOf Props).
  Notation gValue := (plain valueNameOffset Vals).
  Notation gOffset := (plain offsetOf Offs).
  Notation gProfile := (plain profileOf Profs).
  Notation at_ s n := (position (kindOf s) (itemsOf d s) n).

  Lemma plain_answers {A} (decode : list Z -> option A) s n itm : nth_error (itemsOf d s) n = Some itm -> answers file (kindOf s) (useOf u s) decode (at_ s n) (plain decode s (at_ s n)).
  Proof using D St Op room.
    intros N. destruct (source_ok s) as (h & HR & HC & Hcr & Hconc). pose proof (position_small s n itm N) as (Hp & Hp32).
    assert (wellUsed [] (collOf s) (Get (at_ s n) IoOk)) as Hw.
    { split; [lia|]. intros X. destruct (room s X) as (R1 & R2). split; [lia|]. intros sl. cbn. lia. }
    exists [], (collOf s). split; [constructor|]. split; [exact Hw|]. split; [intros X; destruct (room s X); cbn [outstanding]; lia|].
    destruct (got_item file (kindOf s) (itemsOf d s) h _ _ _ _ HR HC Hcr [] (collOf s) n itm (exec_nil _ _ _ _) N Hw) as (b & sl & c' & G & P & _).
    { intros X. split; [exact (Hconc X)|]. destruct (room s X). cbn [outstanding]. lia. }
    intros e c1 E. cbn [cstep] in E. rewrite G in E. injection E as <- <-. intros a Da. unfold plain. rewrite P, Da. reflexivity.
  Qed.
  Lemma text_item n t : nth_error (texts d) n = Some t -> nth_error (itemsOf d Texts) n = Some (encText t).
  Proof using Type. intros N. cbn [itemsOf]. now rewrite nth_error_map, N. Qed.
  Lemma prop_item n p : nth_error (props d) n = Some p -> nth_error (itemsOf d Props) n = Some (encProp d p).
  Proof using Type. intros N. cbn [itemsOf]. now rewrite nth_error_map, N. Qed.
  Lemma val_item n p : nth_error (vals d) n = Some p -> nth_error (itemsOf d Vals) n = Some (encVal d p).
  Proof using Type. intros N. cbn [itemsOf]. now rewrite nth_error_map, N. Qed.
  Lemma prof_item n p : nth_error (profs d) n = Some p -> nth_error (itemsOf d Profs) n = Some (encProf p).
  Proof using Type. intros N. cbn [itemsOf]. now rewrite nth_error_map, N. Qed.
  Lemma offs_item n p : nth_error (order d) n = Some p -> nth_error (itemsOf d Offs) n = Some (encOffset d p).
  Proof using Type. intros N. cbn [itemsOf]. now rewrite nth_error_map, N. Qed.
  Lemma item_at {A} (l : list A) n : (n < length l)%nat -> exists a, nth_error l n = Some a.
  Proof using Type. intros H. destruct (nth_error l n) eqn:E; [eauto|]. apply nth_error_None in E. lia. Qed.
  Lemma plain_readers : readers file d u gString gProperty gValue gOffset gProfile.
  Proof using D St Op room.
    split; [|split; [|split; [|split]]]; intros n L; destruct (item_at _ _ L) as (a & N).
    - exact (plain_answers textOf Texts n _ (text_item _ _ N)).
    - exact (plain_answers propertyOf Props n _ (prop_item _ _ N)).
    - exact (plain_answers valueNameOffset Vals n _ (val_item _ _ N)).
    - exact (plain_answers offsetOf Offs n _ (offs_item _ _ N)).
    - exact (plain_answers profileOf Profs n _ (prof_item _ _ N)).
  Qed.
End World.
