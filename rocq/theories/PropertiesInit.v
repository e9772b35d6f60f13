(* C98-C100: the memory of headers, available properties and data sets. *)
From Coq Require Import Permutation.
From Verif Require Import ItemModel HeadersSpec HeadersProofs LifeProofs InitModel InitSpec InitProofs.
From Verif Require LifeModel LifeSpec.
Local Open Scope Z_scope.

(* ---- the examples ---- *)
Definition exHeap : mem := mkMem 7 [(3%nat, 40)].
Lemma exHeap_older : LifeSpec.older exHeap.
Proof. intros p n [E|[]]. injection E as <- <-. cbn. lia. Qed.
Definition fine (c : acall) : bool := true.
Definition acall_eqb (a b : acall) : bool :=
  match a, b with
  | HArray, HArray => true
  | DName i, DName j | DSegs i, DSegs j | SName i, SName j | SSegs i, SSegs j => Nat.eqb i j
  | _, _ => false
  end.
Definition failing (a c : acall) : bool := negb (acall_eqb a c).
(* the names ab, ab 0x1F cd and ef *)
Definition exNames : list (Z * list Z) := [(5, [97; 98]); (6, [97; 98; 31; 99; 100]); (7, [101; 102])].
Lemma word_parts n l : ~ In 31 n -> parts n l -> l = [] /\ n = [] \/ l = [n].
Proof.
  intros N H. induction H as [|s l H IH|w Hw Hn|w s l Hw Hn H IH]; auto.
  - exfalso. apply N. now left.
  - exfalso. apply N, in_or_app. right. now left.
Qed.
Lemma exNames_tidy : tidyNames exNames.
Proof.
  intros e [<-|[<-|[<-|[]]]] w H; cbn [snd] in *.
  - apply word_parts in H as [(E & _)|E]; [discriminate E|congruence|]. intros X. cbn in X. lia.
  - exfalso. remember [97; 98; 31; 99; 100] as n eqn:En. remember [w] as l eqn:El. revert En El.
    destruct H as [|s l H'|w' Hw Hn|w' s l Hw Hn H']; intros En El; try discriminate En.
    + subst w'. apply Hn. cbn. auto.
    + injection El as -> ->. destruct w as [|a [|b [|c w]]]; cbn in En; try discriminate En; try congruence.
      * injection En as _ _ Es. subst s. inversion H'.
      * injection En as _ _ Ec _. subst c. apply Hn. cbn. auto.
  - apply word_parts in H as [(E & _)|E]; [discriminate E|congruence|]. intros X. cbn in X. lia.
Qed.

(* C98.  Creating headers never does anything undefined, whichever allocation
   fails.  Headers created are those of the data set, each with memory of its
   own, and freeing them restores the heap; NULL means that an allocation
   failed, and unless it was for a header of the data set nothing is left. *)
Theorem headers_memory : forall m ok ds, LifeSpec.older m -> tidyNames ds ->
  exists m' r, HeadersCreate m ok ds = Some (m', r) /\
    match r with
    | Some h => HeadersModel.HeadersCreate ds = Headers (map content (hitems h)) /\ housed (live m') (hitems h) /\
                exists m'', HeadersFree m' (Some h) = Some m'' /\ live m'' = live m
    | None => (exists c, ok c = false) /\ (trustedHeaders ok -> live m' = live m)
    end.
Proof.
  intros m ok ds Ho Ht. destruct (HeadersCreate_owns (live m) m ok ds [] Ht (owns_start m Ho)) as (m' & r & lost & E & H & Hr).
  exists m', r. split; [exact E|]. rewrite app_nil_r in H. destruct r as [h|].
  - destruct Hr as (Hp & ->). rewrite app_nil_r in H. split; [exact Hp|]. split.
    + eapply owns_housed; [eapply created_good, Hp|]. exact H.
    + rewrite <- (app_nil_r (hdrsBlocks (Some h) _)) in H. destruct (HeadersFree_owns _ _ _ _ _ H) as (m2 & E2 & H2).
      exists m2. split; [exact E2|]. now apply owns_end.
  - destruct Hr as (Hc & [->|(_ & i & Hi)]); (split; [exact Hc|]); intros T; [now apply owns_end|]. exfalso. eapply trusted_false; eassumption.
Qed.
Print Assumptions headers_memory.
Example headers_memory_case :
  (exists m h, HeadersCreate exHeap fine exNames = Some (m, Some h) /\ length (live m) = 10%nat /\
    map (fun x => name (content x)) (hitems h) = [[97; 98]; [97; 98; 31; 99; 100]; [101; 102]; [99; 100]]) /\
  (exists m, HeadersCreate exHeap (failing (SSegs 3)) exNames = Some (m, None) /\ live m = live exHeap) /\
  (exists m, HeadersCreate exHeap (failing HArray) exNames = Some (m, None) /\ live m = live exHeap).
Proof.
  split; [|split].
  - do 2 eexists. split; [vm_compute; reflexivity|]. split; vm_compute; reflexivity.
  - eexists. split; [vm_compute; reflexivity|]. reflexivity.
  - eexists. split; [vm_compute; reflexivity|]. reflexivity.
Qed.

(* At most the name and the item of one header are lost. *)
Theorem headers_lost : forall m ok ds m', LifeSpec.older m -> tidyNames ds -> HeadersCreate m ok ds = Some (m', None) ->
  exists lost, (length lost <= 2)%nat /\ addsOnly lost (live m) (live m').
Proof.
  intros m ok ds m' Ho Ht E. destruct (HeadersCreate_owns (live m) m ok ds [] Ht (owns_start m Ho)) as (m2 & r & lost & E2 & H & Hr).
  rewrite E in E2. injection E2 as <- <-. destruct Hr as (_ & Hl). cbn [hdrsBlocks app] in H. rewrite app_nil_r in H.
  exists (map fst lost). split; [|now apply owns_adds]. rewrite map_length. destruct Hl as [->|((e & p & l & _ & Hl & ->) & _)]; [cbn; lia|].
  rewrite app_length. destruct Hl as [->|(q & ->)]; cbn; lia.
Qed.
Print Assumptions headers_lost.
Example headers_lost_case : exists m, HeadersCreate exHeap (failing (DSegs 1)) exNames = Some (m, None) /\
  exists p q, live m = [(q, 6); (p, 8); (3%nat, 40)].
Proof. eexists. split; [vm_compute; reflexivity|]. do 2 eexists. reflexivity. Qed.

(* Refuted: that nothing is left when NULL is returned.  The name of a header
   whose segments could not be allocated and the item with it are lost. *)
Theorem headers_refused_refuted : exists m ok ds m', LifeSpec.older m /\ tidyNames ds /\
  HeadersCreate m ok ds = Some (m', None) /\ (length (live m) + 2 = length (live m'))%nat.
Proof.
  exists exHeap, (failing (DSegs 0)), exNames. eexists. split; [apply exHeap_older|]. split; [apply exNames_tidy|].
  split; [vm_compute; reflexivity|]. reflexivity.
Qed.
Print Assumptions headers_refused_refuted.

(* ---- properties ---- *)
Definition exEvid : evid := mkEvid 2 true 2.
Definition exChosen : list (way * evid) := [(Try 9 true true, exEvid); (Try 4 true true, mkEvid 0 true 0)].
Lemma rev_reorders : reorders (@rev pitem).
Proof. intros l. apply Permutation_rev. Qed.
Lemma exChosen_named : Forall named exChosen.
Proof. repeat constructor; [exists 9|exists 4]; (split; [reflexivity|lia]). Qed.

(* C99.  The available properties can be freed whenever they were created, and
   no block is left then.  They are NULL exactly when none of the names in a
   text is known or their own memory is missing.  Undefined is only the use of
   a name that could not be read: of any of several, or of the only one if
   reading it failed after its memory was allocated. *)
Theorem properties_memory : forall m okMem chosen order, LifeSpec.older m ->
  (forall l, chosen = Some l -> Forall LifeSpec.sized (map fst l)) -> reorders order ->
  match PropertiesCreate m okMem chosen order with
  | Some (m', r) => (r = None <-> listed okMem chosen = false) /\ exists m'', PropertiesFree m' r = Some m'' /\ live m'' = live m
  | None => listed okMem chosen = true /\ exists l, chosen = Some l /\ ~ Forall named l /\
              ((2 <= length l)%nat \/ exists w e, l = [(w, e)] /\ ~ clean w)
  end.
Proof.
  intros m okMem chosen order Ho Hs Hr. pose proof (PropertiesCreate_owns (live m) m okMem chosen order [] Hs Hr (owns_start m Ho)) as K.
  destruct (PropertiesCreate m okMem chosen order) as [(m' & r)|].
  - destruct K as (H & Hk & Hx). split.
    + destruct r as [p|]; [|tauto]. destruct Hx as (-> & l & items & -> & _). cbn. split; discriminate.
    + destruct (PropertiesFree_owns _ _ _ _ _ Hk H) as (m2 & E2 & H2). exists m2. split; [exact E2|]. now apply owns_end.
  - destruct K as (-> & l & -> & N). split; [reflexivity|]. exists l. split; [reflexivity|]. unfold usableAll in N. split; [tauto|].
    destruct l as [|(w, e) [|y l]].
    + exfalso. apply N. left. constructor.
    + right. exists w, e. split; [reflexivity|]. intros C. apply N. right. eauto.
    + left. cbn. lia.
Qed.
Print Assumptions properties_memory.
Example properties_memory_case :
  (exists m p, PropertiesCreate exHeap true (Some exChosen) (@rev _) = Some (m, Some p) /\ length (pitems p) = 2%nat /\ length (live m) = 6%nat) /\
  (exists m p, PropertiesCreate exHeap true (Some [(Early, exEvid)]) (@rev _) = Some (m, Some p)) /\
  PropertiesCreate exHeap true (Some [(Early, exEvid); (Try 9 true true, exEvid)]) (@rev _) = None.
Proof.
  split; [|split].
  - do 2 eexists. split; [vm_compute; reflexivity|]. split; reflexivity.
  - do 2 eexists. vm_compute. reflexivity.
  - vm_compute. reflexivity.
Qed.

(* The status of the initialisation if every name can be read: success exactly
   when there are properties and all their evidence properties are there;
   another status always has its reason. *)
Theorem properties_status : forall m d okMem chosen order, LifeSpec.older m ->
  (forall l, chosen = Some l -> Forall named l) -> reorders order ->
  exists m' d' st, DataSetInitProperties m d okMem chosen order = Some (m', d', st) /\
    (st = SUCCESS <-> okMem = true /\ exists l, chosen = Some l /\ l <> [] /\ Forall complete l) /\
    (st = REQ_PROP_NOT_PRESENT <-> listed okMem chosen = false \/ chosen = Some []) /\
    (st = INSUFFICIENT_MEMORY -> exists l x, chosen = Some l /\ In x l /\ okArray (snd x) = false) /\
    (st = COLLECTION_FAILURE -> exists l x, chosen = Some l /\ In x l /\ okArray (snd x) = true /\ needed (snd x) <> given (snd x)) /\
    st <> CORRUPT_DATA.
Proof.
  intros m d okMem chosen order Ho HN Hr.
  assert (forall l, chosen = Some l -> Forall LifeSpec.sized (map fst l)) as Hs by (intros l El; apply named_sized, HN, El).
  pose proof (PropertiesCreate_owns (live m) m okMem chosen order [] Hs Hr (owns_start m Ho)) as K. unfold DataSetInitProperties.
  destruct (PropertiesCreate m okMem chosen order) as [(m' & r)|].
  2:{ destruct K as (_ & l & -> & N). exfalso. apply N. left. now apply HN. }
  destruct K as (_ & _ & Hx). destruct r as [p|].
  2:{ do 3 eexists. split; [reflexivity|]. split.
      - split; [discriminate|]. intros (-> & l & -> & _). discriminate Hx.
      - split; [tauto|]. split; [discriminate|]. split; discriminate. }
  destruct Hx as (-> & l & items & -> & _ & HF & Ep). specialize (HN l eq_refl). specialize (Hr items). rewrite Ep. pose proof (Permutation_length Hr) as El.
  pose proof (Forall2_length _ _ _ _ _ HF) as El2. destruct (Nat.eqb_spec (length (order items)) 0) as [E0|E0].
  - do 3 eexists. split; [reflexivity|]. assert (l = []) as -> by (destruct l; [auto|cbn in El2; lia]). split.
    + split; [discriminate|]. intros (_ & l' & X & N & _). injection X as <-. congruence.
    + split; [tauto|]. split; [discriminate|]. split; discriminate.
  - assert (l <> []) as Nl by (intros ->; cbn in El2; lia).
    assert (existsb (fun x => match ptr (idata (pname x)) with None => true | Some _ => false end) (order items) = false) as ->.
    { destruct (existsb _ _) eqn:Ex; [|reflexivity]. apply existsb_exists in Ex as (y & Hi & Ey). exfalso.
      apply (made_named _ _ HF HN y); [eapply Permutation_in; [apply Permutation_sym, Hr|exact Hi]|]. destruct (ptr _); [discriminate|reflexivity]. }
    do 3 eexists. split; [reflexivity|]. rewrite check_iff.
    assert (Forall pcomplete (order items) <-> Forall complete l) as ->.
    { rewrite <- (made_complete _ _ HF). split; apply Permutation_Forall; [now apply Permutation_sym|exact Hr]. }
    assert (forall y, In y (order items) -> exists x, In x l /\ made x y) as B.
    { intros y Hi. eapply made_back; [exact HF|]. eapply Permutation_in; [apply Permutation_sym, Hr|exact Hi]. }
    pose proof (check_why (order items)) as W. split; [|split; [|split; [|split]]].
    + split; [intros HC; split; [reflexivity|]; eauto|]. intros (_ & l' & X & _ & HC). injection X as <-. exact HC.
    + split; [intros E; rewrite E in W; destruct W|]. intros [X|X]; [discriminate X|]. injection X as ->. congruence.
    + intros E. rewrite E in W. destruct W as (y & Hi & Ey). destruct (B y Hi) as (x & Hx & (_ & He)). rewrite Ey in He. exists l, x. auto.
    + intros E. rewrite E in W. destruct W as (y & q & c & k & Hi & Ey & Nc). destruct (B y Hi) as (x & Hx & (_ & He)). rewrite Ey in He.
      destruct He as (A & -> & ->). exists l, x. auto.
    + intros E. rewrite E in W. exact W.
Qed.
Print Assumptions properties_status.
Example properties_status_case :
  let st chosen := option_map snd (DataSetInitProperties exHeap DataSetReset true chosen (@rev _)) in
  st (Some exChosen) = Some SUCCESS /\ st (Some []) = Some REQ_PROP_NOT_PRESENT /\ st None = Some REQ_PROP_NOT_PRESENT /\
  st (Some ((Try 5 true true, mkEvid 3 false 3) :: exChosen)) = Some INSUFFICIENT_MEMORY /\
  st (Some ((Try 5 true true, mkEvid 3 true 2) :: exChosen)) = Some COLLECTION_FAILURE.
Proof. repeat split; vm_compute; reflexivity. Qed.

(* The only property has a name for which reading did not get as far as its
   memory: this is reported. *)
Theorem properties_unread_one : forall m d w e order, LifeSpec.older m -> LifeSpec.sized w -> clean w -> ~ LifeSpec.readable w -> reorders order ->
  exists m' d', DataSetInitProperties m d true (Some [(w, e)]) order = Some (m', d', COLLECTION_FAILURE).
Proof.
  intros m d w e order Ho Hs Hc Hn Hr.
  assert (forall l, Some [(w, e)] = Some l -> Forall LifeSpec.sized (map fst l)) as Hz by (intros l El; injection El as <-; cbn [map fst]; constructor; [exact Hs|constructor]).
  pose proof (PropertiesCreate_owns (live m) m true _ order [] Hz Hr (owns_start m Ho)) as K. unfold DataSetInitProperties.
  destruct (PropertiesCreate m true (Some [(w, e)]) order) as [(m' & r)|].
  2:{ destruct K as (_ & l & El & N). injection El as <-. exfalso. apply N. right. eauto. }
  destruct K as (_ & _ & Hx). destruct r as [p|]; [|discriminate Hx]. destruct Hx as (_ & l & items & El & _ & HF & ->). injection El as <-.
  inversion HF as [|? y ? items' Hm HF']; subst. inversion HF'; subst. rewrite (Permutation_length_1_inv (Hr [y])). cbn [length Nat.eqb existsb].
  destruct Hm as ((_ & Hu & Hp & _) & _). destruct (Hp Hc) as [-> |E]; [|apply Hu in E; contradiction]. cbn [orb]. do 2 eexists. reflexivity.
Qed.
Print Assumptions properties_unread_one.
Example properties_unread_one_case : clean (Try 9 false true) /\ ~ LifeSpec.readable (Try 9 false true) /\ LifeSpec.sized (Try 9 false true) /\
  option_map snd (DataSetInitProperties exHeap DataSetReset true (Some [(Try 9 false true, exEvid)]) (@rev _)) = Some COLLECTION_FAILURE.
Proof.
  split; [intros b E; discriminate E|]. split; [intros (b & E & _); discriminate E|]. split; [intros b x y E; injection E as <- _ _; lia|].
  vm_compute. reflexivity.
Qed.

(* Refuted: that a name that cannot be read gives COLLECTION_FAILURE.  With one
   property it does; with two the sort uses the NULL name first. *)
Theorem properties_unread_refuted : exists m l,
  LifeSpec.older m /\ Forall LifeSpec.sized (map fst l) /\
  DataSetInitProperties m DataSetReset true (Some l) (@rev _) = None /\
  exists m' d', DataSetInitProperties m DataSetReset true (Some (firstn 1 l)) (@rev _) = Some (m', d', COLLECTION_FAILURE).
Proof.
  exists exHeap, [(Early, exEvid); (Try 9 true true, exEvid)]. split; [apply exHeap_older|]. split.
  - cbn [map fst]. constructor; [|constructor; [|constructor]]; intros b x y E; [discriminate E|]. injection E as <- _ _. lia.
  - split; [vm_compute; reflexivity|]. do 2 eexists. vm_compute. reflexivity.
Qed.
Print Assumptions properties_unread_refuted.
(* Refuted: the same for a single property whose name was being read: the
   pointer to the memory freed is kept and used. *)
Theorem properties_dangling_refuted : exists m w e,
  LifeSpec.older m /\ LifeSpec.sized w /\ DataSetInitProperties m DataSetReset true (Some [(w, e)]) (@rev _) = None.
Proof.
  exists exHeap, (Try 9 true false), exEvid. split; [apply exHeap_older|]. split; [|reflexivity].
  intros b x y E. injection E as <- _ _. lia.
Qed.
Print Assumptions properties_dangling_refuted.
(* Refuted: that missing memory is reported as such. *)
Theorem properties_no_memory_refuted : exists m l m' d', LifeSpec.older m /\ Forall named l /\ Forall complete l /\ l <> [] /\
  DataSetInitProperties m DataSetReset false (Some l) (@rev _) = Some (m', d', REQ_PROP_NOT_PRESENT).
Proof.
  exists exHeap, exChosen. do 2 eexists. split; [apply exHeap_older|]. split; [apply exChosen_named|]. split; [repeat constructor|].
  split; [discriminate|]. vm_compute. reflexivity.
Qed.
Print Assumptions properties_no_memory_refuted.

(* ---- the data set ---- *)
(* C100.  A data set with a configuration can be put through any sequence of
   initialisations and frees that sets each part at most once between frees:
   nothing undefined is done, and a final free restores the heap, deletes the
   temporary file exactly if one is used, and can be repeated. *)
Theorem dataset_freed : forall m t os, LifeSpec.older m -> proper [] os ->
  exists m' d', drun os m (mkDset None None None None (Some t)) = Some (m', d') /\
  exists m'' d'', DataSetFree m' d' = Some (m'', d'', t) /\ live m'' = live m /\ DataSetFree m'' d'' = Some (m'', d'', t).
Proof.
  intros m t os Ho P. assert (goodSet (live m) [] m (mkDset None None None None (Some t)) t) as G.
  { split; [|split; [intros ? X; discriminate X|split; [reflexivity|]]].
    - unfold setIn. cbn. intuition.
    - exists 0, 0, 0, 0. now apply owns_start. }
  destruct (drun_good _ _ _ _ _ _ G P) as (m' & d' & parts & E & _ & Hp & Ht & sh & so & sp & sm & H).
  exists m', d'. split; [exact E|]. rewrite <- (app_nil_r (dBlocks d' sh so sp sm)) in H.
  destruct (DataSetFree_owns _ _ _ _ _ _ _ _ _ Hp Ht H) as (m2 & E2 & H2). exists m2. eexists. split; [exact E2|].
  split; [now apply owns_end|]. reflexivity.
Qed.
Print Assumptions dataset_freed.
Definition exOps : list dop :=
  [DMemory 500; DHeaders fine exNames; DProps true (Some exChosen) (@rev _); DOverrides true 1; DFree;
   DHeaders (failing (SName 3)) exNames; DProps true (Some exChosen) (@rev _); DOverrides false 1].
Example dataset_freed_case : proper [] exOps /\
  exists m d, drun (firstn 4 exOps) exHeap (mkDset None None None None (Some true)) = Some (m, d) /\ length (live m) = 17%nat.
Proof.
  split.
  - cbn [proper exOps].
    split; [intros []|]. split; [cbn; intuition discriminate|]. split; [split; reflexivity|]. split; [apply exNames_tidy|].
    split; [cbn; intuition discriminate|]. split; [intros l E; injection E as <-; apply exChosen_named|]. split; [apply rev_reorders|].
    split; [cbn; intuition discriminate|]. split; [cbn; tauto|].
    split; [cbn; tauto|]. split; [split; reflexivity|]. split; [apply exNames_tidy|].
    split; [cbn; intuition discriminate|]. split; [intros l E; injection E as <-; apply exChosen_named|]. split; [apply rev_reorders|].
    split; [cbn; intuition discriminate|]. split; [cbn; tauto|]. exact I.
  - do 2 eexists. split; [vm_compute; reflexivity|]. reflexivity.
Qed.

(* The headers of a data set: success exactly when they were created. *)
Theorem dataset_headers_status : forall m d t ok ds, LifeSpec.older m -> tidyNames ds -> useTemp d = Some t ->
  exists m' d' st, DataSetInitHeaders m d ok ds = Some (m', d', st) /\
    (st = SUCCESS /\ uniqueHeaders d' <> None \/ st = CORRUPT_DATA /\ uniqueHeaders d' = None /\ exists c, ok c = false) /\
    overridable d' = overridable d /\ available d' = available d /\ memoryToFree d' = memoryToFree d /\ useTemp d' = useTemp d.
Proof.
  intros m d t ok ds Ho Ht Et. destruct (HeadersCreate_owns (live m) m ok ds [] Ht (owns_start m Ho)) as (m' & r & lost & E & _ & Hr).
  unfold DataSetInitHeaders. rewrite Et, E. do 3 eexists. split; [reflexivity|]. cbn. split; [|auto].
  destruct r; [left; split; [reflexivity|discriminate]|right; tauto].
Qed.
Print Assumptions dataset_headers_status.
Example dataset_headers_status_case :
  option_map snd (DataSetInitHeaders exHeap (mkDset None None None None (Some true)) fine exNames) = Some SUCCESS /\
  option_map snd (DataSetInitHeaders exHeap (mkDset None None None None (Some true)) (failing (DName 2)) exNames) = Some CORRUPT_DATA.
Proof. split; vm_compute; reflexivity. Qed.

(* Refuted: that a data set just reset can be freed: it has no configuration. *)
Theorem dataset_reset_freed_refuted : exists m, LifeSpec.older m /\ DataSetFree m DataSetReset = None.
Proof. exists exHeap. split; [apply exHeap_older|]. reflexivity. Qed.
Print Assumptions dataset_reset_freed_refuted.
(* Refuted: that a data set may be initialised again without being freed. *)
Theorem dataset_init_twice_refuted : exists m ds, LifeSpec.older m /\ tidyNames ds /\
  exists m' d', drun [DHeaders fine ds; DHeaders fine ds; DFree] m (mkDset None None None None (Some false)) = Some (m', d') /\
  (length (live m) < length (live m'))%nat.
Proof.
  exists exHeap, exNames. split; [apply exHeap_older|]. split; [apply exNames_tidy|]. do 2 eexists. split; [vm_compute; reflexivity|]. cbn. lia.
Qed.
Print Assumptions dataset_init_twice_refuted.
