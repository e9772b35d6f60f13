(* C32 - C34, C68: the headers of a data set (headers.c) *)
From Verif Require Import HeadersModel HeadersSpec HeadersProofs.
From Coq Require Import Permutation.
From Coq Require Import Ascii String.
Open Scope string_scope.
Definition text (s : string) : list Z := map (fun c => Z.of_nat (nat_of_ascii c)) (list_ascii_of_string s).
Close Scope string_scope.

(* A model: User-Agent twice, a header made of two others, one of which is
   in the data set, and a name of separators only. *)
Definition uach : list Z := text "Sec-CH-UA" ++ [separator] ++ text "sec-ch-ua-mobile".
Definition sample : list (Z * list Z) :=
  [(7%Z, text "User-Agent"); (9%Z, uach); (3%Z, text "USER-AGENT"); (4%Z, [separator; separator]); (5%Z, text "Sec-Ch-Ua")].

(* C32 refuted: a single name with a trailing separator has one slot but two
   entries, itself and its segment. *)
Theorem headers_overflow_refuted : exists dataSet, HeadersCreate dataSet = Overflow.
Proof. exists [(1%Z, text "a" ++ [separator])]. reflexivity. Qed.
Print Assumptions headers_overflow_refuted.

(* C32, what does hold: no overflow, and never NULL while memory lasts, unless a
   name with one part has separators around it. *)
Theorem headers_no_overflow : forall dataSet, (forall e, In e dataSet -> tidy (snd e)) ->
  exists hs, HeadersCreate dataSet = Headers hs.
Proof.
  intros dataSet H. pose proof (create_spec dataSet) as P. destruct (HeadersCreate dataSet) as [| |hs]; [|destruct P|eauto].
  destruct P as (e & Hi & N). destruct (N (H e Hi)).
Qed.
Print Assumptions headers_no_overflow.
Lemma tidy_check n : (match runs [] n with [w] => if list_eq_dec Z.eq_dec n w then true else false | _ => true end) = true -> tidy n.
Proof.
  intros H w P. apply parts_iff in P. rewrite <- P in H. destruct (list_eq_dec Z.eq_dec n w); [assumption|discriminate H].
Qed.
Example headers_no_overflow_example : (forall e, In e sample -> tidy (snd e)) /\
  match HeadersCreate sample with
  | Headers hs => map name hs = [text "User-Agent"; uach; text "Sec-Ch-Ua"; text "sec-ch-ua-mobile"] /\
      map uniqueId hs = [7; 9; 5; 0]%Z /\ map isDataSet hs = [true; true; true; false] /\ countPseudoHeaders hs = 1
  | _ => False
  end.
Proof.
  split; [|vm_compute; repeat split]. intros e [<-|[<-|[<-|[<-|[<-|[]]]]]]; apply tidy_check; reflexivity.
Qed.

(* C33 for every data set whose headers are created (all those with tidy names,
   headers_no_overflow): the array is the data set headers ds followed by the
   added segments.  ds are the data set entries that have a part and whose name
   did not occur before, in their order and with their ids. *)
Theorem headers_exact : forall dataSet hs, HeadersCreate dataSet = Headers hs ->
  exists ds rest, hs = ds ++ rest /\
    distinctTexts (map name hs) /\
    (* data set headers *)
    Forall (fun h => isDataSet h = true) ds /\
    sublist (map (fun h => (uniqueId h, name h)) ds) dataSet /\
    (forall e, In e dataSet -> hasPart (snd e) -> exists h, In h ds /\ sameText (name h) (snd e)) /\
    (forall h, In h ds -> hasPart (name h) /\ exists before after, dataSet = before ++ (uniqueId h, name h) :: after /\
       forall e, In e before -> ~ sameText (snd e) (name h)) /\
    (* segments *)
    Forall (fun h => isDataSet h = false /\ uniqueId h = 0%Z /\ exists d l, In d ds /\ parts (name d) l /\ In (name h) l) rest /\
    (forall d l w, In d ds -> parts (name d) l -> In w l -> exists h, In h hs /\ sameText (name h) w) /\
    Forall (fun h => parts (name h) (map (segText (name h)) (segments h)) /\
                     Forall (fun s => segStart s + segLength s <= List.length (name h)) (segments h)) hs /\
    (* pseudo headers *)
    exists pseudo plain, Permutation hs (pseudo ++ plain) /\ List.length pseudo = countPseudoHeaders hs /\
      Forall (fun h => exists v w l, parts (name h) (v :: w :: l)) pseudo /\
      Forall (fun h => exists w, parts (name h) [w]) plain.
Proof.
  intros dataSet hs E. pose proof (create_spec dataSet) as P. rewrite E in P.
  destruct P as (ds & rest & -> & (D1 & D2 & D3 & D4 & D5 & D6) & (S1 & S2 & S3 & S4)). exists ds, rest.
  split; [reflexivity|]. split; [exact S2|]. split; [exact D2|]. split; [exact D3|]. split; [exact D5|]. split; [exact D6|].
  split.
  { eapply Forall_impl; [|exact S3]. intros h (A & B & d & C & D). repeat split; auto. exists d, (runs [] (name d)).
    repeat split; auto. now apply parts_iff. }
  split.
  { intros d l w Hd Hl Hw. apply parts_iff in Hl. subst l. eauto. }
  split.
  { eapply Forall_impl; [|exact S1]. intros h (A & B & _). split; [apply parts_iff; exact A|exact B]. }
  set (f := fun h => Nat.ltb 1 (List.length (segments h))). exists (filter f (ds ++ rest)), (filter (fun h => negb (f h)) (ds ++ rest)).
  assert (Q : Forall (fun h => (if f h then exists v w l, parts (name h) (v :: w :: l) else exists w, parts (name h) [w])) (ds ++ rest)).
  { apply Forall_forall. intros h Hi. pose proof (proj1 (Forall_forall _ _) S1 h Hi) as (A & B & Nn).
    assert (HP : runs [] (name h) <> []).
    { apply hasPart_runs. apply in_app_or in Hi. destruct Hi as [Hi|Hi]; [apply D6, Hi|].
      destruct (proj1 (Forall_forall _ _) S3 h Hi) as (_ & _ & d & Hd & Hw). 
      (* a part is its own only part *)
      clear - Hw. assert (N : noSep (name h)).
      { revert Hw. assert (G : forall s acc w, noSep acc -> In w (runs acc s) -> noSep w).
        { induction s as [|c s IH]; intros acc w Na Hw; cbn in Hw.
          - destruct acc; [destruct Hw|]. destruct Hw as [<-|[]]. exact Na.
          - destruct (Z.eqb_spec c SEP) as [Ec|Ec].
            + destruct acc; [eapply IH; [apply noSep_nil|exact Hw]|]. destruct Hw as [<-|Hw]; [exact Na|]. eapply IH; [apply noSep_nil|exact Hw].
            + eapply IH; [|exact Hw]. now apply noSep_snoc. }
        apply (G (name d) []). apply noSep_nil. }
      exists (name h), []. constructor; [eapply runs_nonempty; eauto|exact N]. }
    unfold f. assert (LS : List.length (segments h) = List.length (runs [] (name h))) by (rewrite <- A, map_length; reflexivity).
    rewrite LS. destruct (runs [] (name h)) as [|v [|w l]] eqn:R; [congruence| |]; cbn.
    - exists v. apply parts_iff. now symmetry.
    - exists v, w, l. apply parts_iff. now symmetry. }
  split; [|split; [reflexivity|split]].
  - clear. induction (ds ++ rest) as [|h l IH]; [constructor|]. cbn [filter]. destruct (f h); cbn.
    + now constructor.
    + apply Permutation_cons_app. exact IH.
  - apply Forall_forall. intros h Hi. apply filter_In in Hi. destruct Hi as (Hi & Hf). pose proof (proj1 (Forall_forall _ _) Q h Hi) as Qh. cbv beta in Qh. rewrite Hf in Qh. exact Qh.
  - apply Forall_forall. intros h Hi. apply filter_In in Hi. destruct Hi as (Hi & Hf). apply negb_true_iff in Hf. pose proof (proj1 (Forall_forall _ _) Q h Hi) as Qh. cbv beta in Qh. rewrite Hf in Qh. exact Qh.
Qed.
Print Assumptions headers_exact.
Example headers_exact_example : exists hs, HeadersCreate sample = Headers hs /\ List.length hs = 4.
Proof. eexists. split; [vm_compute; reflexivity|reflexivity]. Qed.

(* C34.  The name looked for: what follows HTTP_ (in any case) if prefixes are
   expected and at least two characters follow, else the whole name. *)
Definition http : list Z := text "HTTP_".
Definition prefixed (n rest : list Z) : Prop := exists p, n = p ++ rest /\ sameText p http.
Theorem header_index : forall expect hs n,
  Forall (fun c => c <> 0%Z) n ->
  exists wanted,
    ((expect = true /\ prefixed n wanted /\ 2 <= List.length wanted) \/
     (wanted = n /\ ~ (expect = true /\ exists rest, prefixed n rest /\ 2 <= List.length rest))) /\
    match HeaderGetIndex expect hs (cstr n) (List.length n) with
    | Some i => exists h, nth_error hs i = Some h /\ sameText wanted (name h) /\
        forall i' h', i' < i -> nth_error hs i' = Some h' -> ~ sameText wanted (name h')
    | None => forall h, In h hs -> ~ sameText wanted (name h)
    end.
Proof.
  intros expect hs n Hn. unfold HeaderGetIndex.
  assert (Plain : match getHeaderIndex hs (cstr n) (List.length n) with
    | Some i => exists h, nth_error hs i = Some h /\ sameText n (name h) /\
        forall i' h', i' < i -> nth_error hs i' = Some h' -> ~ sameText n (name h')
    | None => forall h, In h hs -> ~ sameText n (name h)
    end).
  { pose proof (index_spec hs (cstr n) (List.length n)) as HX. unfold cstr in *. rewrite app_length in HX. specialize (HX ltac:(lia)).
    rewrite first_app in HX by reflexivity. exact HX. }
  destruct expect; cbn [andb].
  2: { exists n. split; [right; split; [reflexivity|intros (H & _); discriminate H]|exact Plain]. }
  destruct (Nat.ltb_spec 6 (List.length n)) as [L|L]; cbn [andb].
  2: { exists n. split; [|exact Plain]. right. split; [reflexivity|]. intros (_ & r & (p & E & S) & Lr).
       apply same_length in S. change (List.length http) with 5 in S. rewrite E, app_length in L. lia. }
  destruct (compareLength_some 5 (cstr n) (cstr HTTP_PREFIX_UPPER)) as (d & D1 & D2); [unfold cstr; rewrite app_length; cbn; lia|cbn; lia|].
  rewrite D1. destruct (Z.eqb_spec d 0) as [E0|E0].
  - exists (skipn 5 n). assert (Pf : prefixed n (skipn 5 n)).
    { exists (firstn 5 n). split; [symmetry; apply firstn_skipn|]. apply D2 in E0.
      unfold cstr in E0. rewrite firstn_app in E0. replace (5 - List.length n) with 0 in E0 by lia. rewrite firstn_O, app_nil_r in E0. exact E0. }
    split; [left; split; [reflexivity|]; split; [exact Pf|rewrite skipn_length; lia]|].
    pose proof (index_spec hs (skipn 5 (cstr n)) (List.length n - 5)) as HX. unfold cstr in HX. rewrite skip_app_le in HX by lia.
    rewrite app_length, skipn_length in HX. specialize (HX ltac:(lia)). rewrite first_app in HX by (rewrite skipn_length; lia).
    unfold cstr. rewrite skip_app_le by lia. exact HX.
  - exists n. split; [|exact Plain]. right. split; [reflexivity|]. intros (_ & r & (p & E & S) & Lr).
    apply E0, D2. pose proof (same_length _ _ S) as Lp. change (List.length http) with 5 in Lp.
    unfold cstr. rewrite E, <- app_assoc. rewrite first_app by lia. exact S.
Qed.
Print Assumptions header_index.
Example header_index_example : Forall (fun c => c <> 0%Z) (text "HTTP_user-agent") /\
  match HeadersCreate sample with
  | Headers hs => HeaderGetIndex true hs (cstr (text "HTTP_user-agent")) 15 = Some 0 /\
      HeaderGetIndex false hs (cstr (text "HTTP_user-agent")) 15 = None /\
      HeaderGetIndex false hs (cstr (text "SEC-CH-UA")) 9 = Some 2
  | _ => False
  end.
Proof. split; [repeat constructor; discriminate|vm_compute; repeat split]. Qed.
(* C34 refuted for names of one character: HTTP_X is not found as X. *)
Theorem header_index_short_refuted : exists dataSet hs, HeadersCreate dataSet = Headers hs /\
  HeaderGetIndex true hs (cstr (text "X")) 1 = Some 0 /\ HeaderGetIndex true hs (cstr (text "HTTP_X")) 6 = None.
Proof. exists [(1%Z, text "X")]. eexists. split; [reflexivity|]. split; reflexivity. Qed.
Print Assumptions header_index_short_refuted.

(* C68: the header found for an id.  With distinct ids in the data set every
   data set header is found by its id; an id of no data set header gives NULL
   unless it is 0, the id given to all segments. *)
Theorem header_from_unique_id : forall dataSet hs, HeadersCreate dataSet = Headers hs -> NoDup (map fst dataSet) ->
  (forall h, In h hs -> isDataSet h = true -> HeadersGetHeaderFromUniqueId hs (uniqueId h) = Some h) /\
  (forall id, id <> 0%Z -> ~ In id (map fst dataSet) -> HeadersGetHeaderFromUniqueId hs id = None).
Proof.
  intros dataSet hs E N. destruct (headers_exact dataSet hs E) as (ds & rest & -> & _ & H1 & H2 & _ & H3 & H4 & _).
  split.
  - intros h Hi Hd. apply in_app_or in Hi. destruct Hi as [Hi|Hi].
    2: { destruct (proj1 (Forall_forall _ _) H4 h Hi) as (C & _). congruence. }
    assert (ND : NoDup (map uniqueId ds)).
    { clear - H2 N. revert H2 N. generalize dataSet as e. clear. induction ds as [|h ds IH]; intros e S N; [constructor|].
      cbn. revert N. remember (map (fun h0 => (uniqueId h0, name h0)) (h :: ds)) as k eqn:Ek. 
      assert (Q : forall (k e : list (Z * list Z)), sublist k e -> forall x, In x k -> In x e) by (induction 1; cbn; intros z; tauto || (intros [<-|?]; auto) || auto).
      induction S as [|x l l' S' IHS|x l l' S' IHS]; [discriminate Ek| |].
      - intros N. cbn in Ek. injection Ek as -> ->. cbn in N. inversion N as [|? ? N1 N2]; subst. constructor.
        + intros Hi. apply N1. apply in_map_iff in Hi. destruct Hi as (h' & Eh & Hi). apply in_map_iff. exists (uniqueId h', name h'). split; [exact Eh|].
          eapply Q; [exact S'|]. apply in_map_iff. exists h'. auto.
        + eapply IH; eauto.
      - intros N. inversion N; subst. apply IHS; auto. }
    clear - Hi ND. induction ds as [|d ds IH]; [destruct Hi|]. cbn. destruct Hi as [-> |Hi]; [now rewrite Z.eqb_refl|].
    inversion ND as [|? ? N1 N2]; subst. destruct (Z.eqb_spec (uniqueId d) (uniqueId h)) as [Eq|_]; [|auto].
    destruct N1. rewrite Eq. now apply in_map.
  - intros id N0 Ni. assert (A : Forall (fun h => uniqueId h <> id) (ds ++ rest)).
    { apply Forall_app. split; apply Forall_forall; intros h Hi.
      - intros <-. apply Ni. destruct (H3 h Hi) as (_ & b & a & -> & _). rewrite map_app. apply in_or_app. right. left. reflexivity.
      - destruct (proj1 (Forall_forall _ _) H4 h Hi) as (_ & C & _). congruence. }
    clear E. induction A as [|h l Hh Hl IH]; [reflexivity|]. cbn. destruct (Z.eqb_spec (uniqueId h) id); [congruence|exact IH].
Qed.
Print Assumptions header_from_unique_id.
Example header_from_unique_id_example : NoDup (map fst sample) /\
  match HeadersCreate sample with
  | Headers hs => option_map name (HeadersGetHeaderFromUniqueId hs 5%Z) = Some (text "Sec-Ch-Ua") /\
      HeadersGetHeaderFromUniqueId hs 3%Z = None /\
      (* the id 0 of no data set header finds a segment *)
      option_map name (HeadersGetHeaderFromUniqueId hs 0%Z) = Some (text "sec-ch-ua-mobile")
  | _ => False
  end.
Proof. split; [repeat (constructor; [cbn; lia|]); constructor|vm_compute; repeat split]. Qed.
