(* C35, C36, C37: pseudoheader.c *)
From Coq Require Import String Ascii.
From Verif Require Import PseudoProofs.
Open Scope list_scope.
Definition text (s : string) : list Z := map (fun c => Z.of_nat (nat_of_ascii c)) (list_ascii_of_string s).

(* headers as HeadersCreate makes them *)
Lemma part_noSep s : forall acc w, noSep acc -> In w (runs acc s) -> noSep w.
Proof.
  induction s as [|c s IH]; intros acc w Na Hw; cbn in Hw.
  - destruct acc; [destruct Hw|]. destruct Hw as [<-|[]]. exact Na.
  - destruct (Z.eqb_spec c SEP) as [Ec|Ec].
    + destruct acc; [eapply IH; [apply noSep_nil|exact Hw]|]. destruct Hw as [<-|Hw]; [exact Na|]. eapply IH; [apply noSep_nil|exact Hw].
    + eapply IH; [|exact Hw]. now apply noSep_snoc.
Qed.
Lemma created_good dataSet hs : HeadersCreate dataSet = Headers hs ->
  Forall goodHeader hs /\ Forall (fun h => segments h <> []) hs /\
  Forall (fun h => In (name h) (map snd dataSet) \/ noSep (name h)) hs.
Proof.
  intros E. pose proof (create_spec dataSet) as P. rewrite E in P.
  destruct P as (ds & rest & -> & (D1 & D2 & D3 & D4 & D5 & D6) & (S1 & S2 & S3 & S4)).
  assert (R : forall h, In h rest -> noSep (name h) /\ name h <> []).
  { intros h Hi. destruct (proj1 (Forall_forall _ _) S3 h Hi) as (_ & _ & d & Hd & Hw). split.
    - eapply part_noSep; [apply noSep_nil|exact Hw].
    - eapply runs_nonempty; eauto. }
  split; [exact S1|]. split; apply Forall_forall; intros h Hi.
  - pose proof (proj1 (Forall_forall _ _) S1 h Hi) as (A & B & Nn). intros Es. rewrite Es in A. cbn in A.
    assert (HP : runs [] (name h) <> []).
    { apply hasPart_runs. apply in_app_or in Hi. destruct Hi as [Hi|Hi]; [apply D6, Hi|].
      destruct (R h Hi) as (R1 & R2). exists (name h), []. now constructor. }
    congruence.
  - apply in_app_or in Hi. destruct Hi as [Hi|Hi]; [left|right; apply R, Hi].
    destruct (D6 h Hi) as (_ & bf & af & -> & _). rewrite map_app. apply in_or_app. right. left. reflexivity.
Qed.

(* C35: for every buffer, header with segments, evidence and prefix the
   construction stays inside the buffer, and the text it leaves there ends inside
   it and is the beginning, as long as fits, of the joined values of the first
   segments of the header. *)
Theorem pseudo_construct_inside : forall buffer h ev p, goodHeader h -> segments h <> [] ->
  exists r buffer', constructPseudoEvidence buffer (List.length buffer) h ev p = Some (r, buffer') /\
    List.length buffer' = List.length buffer /\
    (0 < List.length buffer -> exists t tail, buffer' = t ++ 0%Z :: tail /\
       (t = [] \/ exists words more values, parts (name h) (words ++ more) /\ Forall2 (hasValue ev p) words values /\
                    t = firstn (List.length buffer - 1) (join values))).
Proof.
  intros buffer h ev p (G1 & G2 & G3) Hs. destruct buffer as [|c buffer].
  - unfold constructPseudoEvidence. destruct (segments h) as [|s segs]; [congruence|]. cbn [constructLoop List.length].
    destruct (getEvidenceValueForHeader _ _ ev p) as [v|]; [|cbn; eexists; eexists; split; [reflexivity|split; [reflexivity|cbn; lia]]].
    cbn [Nat.eqb negb andb]. destruct (Z.ltb INT_MAX (Z.of_nat (List.length v))); cbn -[Z.leb].
    + eexists; eexists; split; [reflexivity|split; [reflexivity|cbn; lia]].
    + destruct (Z.leb_spec 0 (Z.of_nat (List.length v))); [|lia].
      eexists; eexists; split; [reflexivity|split; [reflexivity|cbn; lia]].
  - set (buf := c :: buffer). destruct (construct_loop (List.length buf) ev p (name h) (segments h) 0 [] buf eq_refl) as (tail & C & LC);
      [cbn; lia|auto|congruence|]. cbn [Nat.eqb negb] in C, LC.
    eexists. eexists. split; [exact C|]. split; [exact LC|]. intros _. eexists. eexists. split; [reflexivity|].
    destruct (pure_content (List.length buf) (vals ev p (name h) (segments h)) false []) as [Q|(values & rest & Q1 & Q2)]; [cbn; lia|left; exact Q|].
    right. cbn [glue app] in Q2.
    (* the values are those of the first segments *)
    assert (W : exists s1 s2, segments h = s1 ++ s2 /\ Forall2 (hasValue ev p) (map (segText (name h)) s1) values).
    { clear -G2 Q1. revert values Q1. induction G2 as [|s segs Hs Hss IH]; intros values Q1.
      - destruct values; [|discriminate Q1]. exists [], []. split; [reflexivity|constructor].
      - destruct values as [|v values]; [exists [], (s :: segs); split; [reflexivity|constructor]|].
        cbn in Q1. injection Q1 as Q Q1. destruct (IH _ Q1) as (s1 & s2 & -> & F). exists (s :: s1), s2. split; [reflexivity|].
        constructor; [|exact F]. now apply get_value. }
    destruct W as (s1 & s2 & W1 & W2). exists (map (segText (name h)) s1), (map (segText (name h)) s2), values.
    split; [rewrite <- map_app, <- W1; now apply parts_iff|]. split; [exact W2|exact Q2].
Qed.
Print Assumptions pseudo_construct_inside.
(* A header of two segments, with evidence that fits, that does not, and with one
   segment missing. *)
Definition AB : list Z := [97; 31; 98]%Z.
Definition sampleHeaders : list Header :=
  match HeadersCreate [(1%Z, AB); (2%Z, text "c")] with Headers hs => hs | _ => [] end.
Definition sampleHeader : Header := hd (mkHeader [] false 0%Z []) sampleHeaders.
Definition pair_ (p : Z) (f v : list Z) : Pair := mkPair p f (Some v) None.
Definition sampleEvidence : list Pair :=
  [pair_ QUERY (text "a") (text "qa"); pair_ HTTP_HEADER_STRING (text "A") (text "xyz"); pair_ HTTP_HEADER_STRING (text "b") (text "w");
   pair_ HTTP_HEADER_STRING (text "b") (text "second")].
Example pseudo_construct_inside_example :
  In sampleHeader sampleHeaders /\ segments sampleHeader = [mkSegment 0 1; mkSegment 2 1] /\
  constructPseudoEvidence (repeat 9%Z 8) 8 sampleHeader sampleEvidence HTTP_HEADER_STRING = Some (5%Z, text "xyz" ++ 31%Z :: text "w" ++ [0; 9; 9]%Z) /\
  constructPseudoEvidence (repeat 9%Z 3) 3 sampleHeader sampleEvidence HTTP_HEADER_STRING = Some (3%Z, text "xy" ++ [0]%Z) /\
  constructPseudoEvidence (repeat 9%Z 8) 8 sampleHeader sampleEvidence QUERY = Some (0%Z, [0; 97; 0; 9; 9; 9; 9; 9]%Z).
Proof. split; [left; reflexivity|]. vm_compute. repeat split. Qed.
Example sampleHeader_good : goodHeader sampleHeader.
Proof.
  destruct (created_good [(1%Z, AB); (2%Z, text "c")] sampleHeaders) as (G & _); [vm_compute; reflexivity|].
  apply (proj1 (Forall_forall _ _) G). left. reflexivity.
Qed.

(* An array of pseudo evidence that is not in use: cap items with buffers of b
   bytes of any content. *)
Definition ready (b cap : nat) (ps : PseudoArray) : Prop :=
  pCount ps = 0 /\ List.length (pItems ps) = cap /\
  Forall (fun x => exists buf, pBuffer x = Some buf /\ List.length buf = b) (pItems ps).
(* evidence whose values are texts *)
Definition texts (ev : list Pair) : Prop :=
  forall q v, In q ev -> originalValue q = Some v -> ~ In 0%Z v.
Lemma texts_evidence ev : texts ev -> textEvidence ev.
Proof.
  intros T. apply Forall_forall. intros q Hq. destruct (originalValue q) as [v|] eqn:E; [|exact I].
  apply Forall_forall. intros c Hc ->. eapply T; eauto.
Qed.
(* the number of headers whose name has a separator *)
Definition pseudoHeaders (hs : list Header) : nat := List.length (filter (fun h => existsb (Z.eqb separator) (name h)) hs).

(* C35: adding pseudo evidence for headers makes no access outside the arrays and
   buffers if the array has an item for each of the headers with a separator in
   its name. *)
Theorem pseudo_add_inside : forall b cap ps dataSet hs ev order,
  0 < b -> ready b cap ps -> HeadersCreate dataSet = Headers hs -> texts ev -> pseudoHeaders hs <= cap ->
  exists ps' st, AddEvidence ev (Some ps) hs b order = Some (Some ps', st) /\
    pCount ps' <= cap /\ List.length (pItems ps') = cap /\
    Forall (fun x => exists buf, pBuffer x = Some buf /\ List.length buf = b) (pItems ps').
Proof.
  intros b cap ps dataSet hs ev order Hb (R1 & R2 & R3) E T L. destruct (created_good _ _ E) as (G & S & _).
  destruct (add_spec ev b order Hb (texts_evidence _ T) hs S ps R3) as (ps' & A & _ & C & D & F).
  - rewrite R1, R2. exact L.
  - exists ps'. eexists. split; [exact A|]. rewrite D, R2 in *. auto.
Qed.
Print Assumptions pseudo_add_inside.
Definition samplePs : PseudoArray := mkPseudoArray 0 [mkPseudo IGNORE None (Some (repeat 9%Z 8)); mkPseudo IGNORE None (Some (repeat 7%Z 8))].
Example pseudo_add_inside_example :
  ready 8 2 samplePs /\ HeadersCreate [(1%Z, AB); (2%Z, text "c")] = Headers sampleHeaders /\ pseudoHeaders sampleHeaders = 1 /\
  texts sampleEvidence.
Proof.
  split; [|split; [vm_compute; reflexivity|split; [vm_compute; reflexivity|]]].
  - split; [reflexivity|]. split; [reflexivity|]. repeat constructor; eexists; split; reflexivity.
  - intros q v Hq Hv. cbn in Hq. destruct Hq as [<-|[<-|[<-|[<-|[]]]]]; injection Hv as <-; vm_compute; intuition discriminate.
Qed.

(* The array needs more items than the count of pseudo headers that
   HeadersCreate reports if a name with one segment has a separator: with the data
   set "a", "a\x1F" the count is 0 and the first item is read behind the array. *)
Theorem pseudo_add_capacity_refuted : exists dataSet hs ps ev order,
  HeadersCreate dataSet = Headers hs /\ ready 8 (countPseudoHeaders hs) ps /\ texts ev /\
  AddEvidence ev (Some ps) hs 8 order = None.
Proof.
  exists [(1%Z, [97%Z]); (2%Z, [97; 31]%Z)]. eexists. exists (mkPseudoArray 0 []), [], [HTTP_HEADER_STRING].
  split; [vm_compute; reflexivity|]. split; [|split; [intros q v []|vm_compute; reflexivity]].
  split; [reflexivity|]. split; [reflexivity|constructor].
Qed.
Print Assumptions pseudo_add_capacity_refuted.
(* Without such names the reported count is enough. *)
Theorem pseudo_count_enough : forall dataSet hs,
  (forall e, In e dataSet -> tidy (snd e)) -> HeadersCreate dataSet = Headers hs -> pseudoHeaders hs = countPseudoHeaders hs.
Proof.
  intros dataSet hs T E. destruct (created_good _ _ E) as (G & S & N). unfold pseudoHeaders, countPseudoHeaders. f_equal.
  apply filter_ext_in. intros h Hi. pose proof (proj1 (Forall_forall _ _) G h Hi) as (G1 & G2 & G3).
  pose proof (proj1 (Forall_forall _ _) S h Hi) as S1. pose proof (proj1 (Forall_forall _ _) N h Hi) as N1. cbv beta in N1, S1.
  assert (L : List.length (segments h) = List.length (runs [] (name h))) by (rewrite <- G1, map_length; reflexivity).
  apply Bool.eq_true_iff_eq. rewrite existsb_exists, Nat.ltb_lt, L. split.
  - intros (x & Hx & Q). apply Z.eqb_eq in Q. subst x. destruct N1 as [N1|N1]; [|contradiction].
    destruct (runs [] (name h)) as [|v [|w l]] eqn:R; [|exfalso|cbn; lia].
    + apply (f_equal (@List.length _)) in G1. rewrite map_length in G1. destruct (segments h); [congruence|discriminate G1].
    + apply in_map_iff in N1. destruct N1 as (e & Ee & He). pose proof (T e He) as Te. rewrite Ee in Te.
      pose proof (tidy_runs _ _ Te R) as <-. assert (NS : noSep (name h)).
      { eapply (part_noSep (name h) []); [apply noSep_nil|]. rewrite R. left. reflexivity. }
      contradiction.
  - intros H. destruct (existsb (Z.eqb separator) (name h)) eqn:X; [apply existsb_exists; exact X|exfalso].
    assert (NS : noSep (name h)).
    { intros I. enough (existsb (Z.eqb separator) (name h) = true) by congruence. apply existsb_exists. exists separator. split; [exact I|reflexivity]. }
    assert (P : parts (name h) [name h]) by (constructor; auto). apply parts_iff in P. rewrite <- P in H. cbn in H. lia.
Qed.
Print Assumptions pseudo_count_enough.
Example pseudo_count_enough_example : tidy AB /\ tidy (text "c") /\ countPseudoHeaders sampleHeaders = 1.
Proof.
  split; [|split; [|vm_compute; reflexivity]].
  - intros w P. apply parts_iff in P. vm_compute in P. discriminate P.
  - intros w P. apply parts_iff in P. vm_compute in P. injection P as ->. reflexivity.
Qed.

(* C36: when the joined values fit the buffer the evidence added is, for the
   headers in order, that of the abstract description: none for headers without a
   separator, headers with supplied evidence and headers some segment of which is
   missing for every prefix, else the joined values for the first prefix in the
   order that has all. *)
Theorem pseudo_add_exact : forall b cap ps dataSet hs ev order,
  0 < b -> (Z.of_nat b <= 2 ^ 31)%Z -> ready b cap ps -> HeadersCreate dataSet = Headers hs -> texts ev -> pseudoHeaders hs <= cap ->
  (forall h p words more values, In h hs -> In p order -> parts (name h) (words ++ more) -> Forall2 (hasValue ev p) words values ->
     List.length (join values) < b) ->
  exists ps' l, AddEvidence ev (Some ps) hs b order = Some (Some ps', NOT_SET) /\
    adds ev order (map name hs) l /\
    map (fun x => (pPrefix x, pField x, option_map cstring (pBuffer x))) (firstn (pCount ps') (pItems ps')) =
    map (fun '(p, n, v) => (p, Some n, Some v)) l.
Proof.
  intros b cap ps dataSet hs ev order Hb Hb2 (R1 & R2 & R3) E T L F. destruct (created_good _ _ E) as (G & S & _).
  destruct (add_spec ev b order Hb (texts_evidence _ T) hs S ps R3) as (ps' & A & B & C & D & K).
  - rewrite R1, R2. exact L.
  - assert (V0 : view ps = []) by (unfold view; rewrite R1; reflexivity). rewrite V0 in A, B.
    destruct (add_adds ev b order Hb2 hs G) with (acc := @nil (Z * option (list Z) * option (list Z))) as (l & A1 & A2).
    { apply Forall_forall. intros h Hi p words more values Hp. apply F with (h := h); auto. }
    exists ps', l. rewrite A2 in A, B. split; [exact A|]. split; [exact A1|]. exact B.
Qed.
Print Assumptions pseudo_add_exact.
Example pseudo_add_exact_example :
  match AddEvidence sampleEvidence (Some samplePs) sampleHeaders 8 [QUERY; HTTP_HEADER_STRING] with
  | Some (Some ps, NOT_SET) => view ps = [(HTTP_HEADER_STRING, Some AB, Some (text "xyz" ++ 31%Z :: text "w"))]
  | _ => False end /\
  match AddEvidence (pair_ QUERY AB (text "own") :: sampleEvidence) (Some samplePs) sampleHeaders 8 [QUERY; HTTP_HEADER_STRING] with
  | Some (Some ps, NOT_SET) => view ps = []
  | _ => False end /\
  match AddEvidence (pair_ QUERY (text "b") [] :: sampleEvidence) (Some samplePs) sampleHeaders 8 [QUERY; HTTP_HEADER_STRING] with
  | Some (Some ps, NOT_SET) => view ps = [(QUERY, Some AB, Some (text "qa" ++ [31%Z]))]
  | _ => False end.
Proof. vm_compute. repeat split. Qed.
(* the description determines the evidence *)
Theorem pseudo_adds_unique : forall ev order names l l', adds ev order names l -> adds ev order names l' -> l = l'.
Proof.
  intros ev order names l l' H. revert l'. induction H as [|n names l N H IH|n names l S H IH|n names l N C H IH|n names l o1 p o2 v N S E F C H IH];
    intros l' H'.
  - inversion H'. reflexivity.
  - inversion H'; subst; auto; contradiction.
  - inversion H'; subst; auto; contradiction.
  - inversion H'; subst; auto. exfalso. eapply C; [|eassumption]. apply in_or_app. right. left. reflexivity.
  - inversion H' as [|? ? ? N'|? ? ? S'|? ? ? N' C'|? ? ? o1' p' o2' v' N' S' E' F' C' H'']; subst; try contradiction.
    + exfalso. eapply C'; [|eassumption]. apply in_or_app. right. left. reflexivity.
    + assert (o1 = o1' /\ p = p') as (<- & <-).
      { clear - F C F' C' E'. revert o1' F' E'. induction o1 as [|x o1 IH]; intros [|y o1'] F' E'; cbn in E'; injection E' as -> E'.
        - auto.
        - exfalso. eapply F'; [left; reflexivity|eassumption].
        - exfalso. eapply F; [left; reflexivity|eassumption].
        - destruct (IH (fun q w Hq => F q w (or_intror Hq)) o1' (fun q w Hq => F' q w (or_intror Hq)) E') as (-> & ->). auto. }
      f_equal; [|apply IH; assumption]. f_equal. destruct C as (ws & vs & P & V & -> & _), C' as (ws' & vs' & P' & V' & -> & _).
      apply parts_iff in P, P'. subst ws ws'. f_equal. eapply forall2_unique; eauto using hasValue_unique.
Qed.
Print Assumptions pseudo_adds_unique.

(* If the values do not fit, evidence is added although a segment is missing: the
   value of the first segment fills the buffer and the second is not looked for. *)
Theorem pseudo_missing_segment_refuted : exists dataSet hs ps ev p ps',
  HeadersCreate dataSet = Headers hs /\ ready 3 1 ps /\ texts ev /\
  (forall v, ~ constructs ev AB p v) /\
  AddEvidence ev (Some ps) hs 3 [p] = Some (Some ps', NOT_SET) /\ view ps' = [(p, Some AB, Some (text "xy"))].
Proof.
  exists [(1%Z, AB)]. eexists. exists (mkPseudoArray 0 [mkPseudo IGNORE None (Some [0; 0; 0]%Z)]), [pair_ HTTP_HEADER_STRING (text "a") (text "xyz")],
    HTTP_HEADER_STRING. eexists. split; [vm_compute; reflexivity|].
  split; [split; [reflexivity|]; split; [reflexivity|]; repeat constructor; eexists; split; reflexivity|].
  split; [intros q v [<-|[]] Hv; injection Hv as <-; vm_compute; intuition discriminate|].
  split; [|vm_compute; split; reflexivity].
  assert (NB : forall v, ~ hasValue [pair_ HTTP_HEADER_STRING (text "a") (text "xyz")] HTTP_HEADER_STRING [98%Z] v).
  { intros v (b & q & a & E & _ & S & _). destruct b as [|x [|y b]]; try discriminate E. injection E as <- _.
    inversion S as [|x y l l' H _]; subst. vm_compute in H. destruct H as [H|[(H & _)|(H & _)]]; [discriminate H| |]; destruct H as (H1 & H2);
      exfalso; (apply H1; reflexivity) || (apply H2; reflexivity). }
  intros v (words & values & P & V & Ev & Nv). apply parts_iff in P. subst words. vm_compute in V.
  inversion V as [|? ? ? ? _ V2]; subst. inversion V2; subst. eapply NB; eauto.
Qed.
Print Assumptions pseudo_missing_segment_refuted.

(* C37: removing sets the count to 0, and the items that were in use have no field
   and cleared buffers; the others are as they were. *)
Theorem pseudo_remove : forall b cap ps,
  pCount ps <= List.length (pItems ps) -> List.length (pItems ps) = cap ->
  Forall (fun x => exists buf, pBuffer x = Some buf /\ List.length buf = b) (pItems ps) ->
  exists ps', RemoveEvidence b ps = Some ps' /\ ready b cap ps' /\
    Forall (fun x => pField x = None /\ pBuffer x = Some (repeat 0%Z b)) (firstn (pCount ps) (pItems ps')) /\
    skipn (pCount ps) (pItems ps') = skipn (pCount ps) (pItems ps).
Proof.
  intros b cap ps L C O. destruct (remove_spec b ps L O) as (ps' & A & B & D & E & F & G).
  exists ps'. split; [exact A|]. split; [|split; [exact F|exact G]]. split; [exact B|]. split; [lia|exact E].
Qed.
Print Assumptions pseudo_remove.
Example pseudo_remove_example :
  RemoveEvidence 4 (mkPseudoArray 1 [mkPseudo QUERY (Some (text "x")) (Some (text "ab" ++ [0; 9]%Z)); mkPseudo IGNORE None (Some [5; 5; 5; 5]%Z)])
  = Some (mkPseudoArray 0 [mkPseudo QUERY None (Some [0; 0; 0; 0]%Z); mkPseudo IGNORE None (Some [5; 5; 5; 5]%Z)]).
Proof. vm_compute. reflexivity. Qed.

(* C37: any number of requests, each adding pseudo evidence and removing it, on
   one array.  What is seen of each: the prefixes, fields and texts added, and the
   status. *)
Definition request : Type := list Pair * list Header * list Z.
Definition seen (ps : PseudoArray) : list (Z * option (list Z) * option (list Z)) :=
  map (fun x => (pPrefix x, pField x, option_map cstring (pBuffer x))) (firstn (pCount ps) (pItems ps)).
Fixpoint rounds (b : nat) (ps : PseudoArray) (reqs : list request) : option (list (list (Z * option (list Z) * option (list Z)) * status) * PseudoArray) :=
  match reqs with
  | [] => Some ([], ps)
  | (ev, hs, order) :: rest =>
    match AddEvidence ev (Some ps) hs b order with
    | Some (Some ps1, st) =>
      match RemoveEvidence b ps1 with
      | Some ps2 => option_map (fun '(outs, ps') => ((seen ps1, st) :: outs, ps')) (rounds b ps2 rest)
      | None => None
      end
    | _ => None
    end
  end.
(* Each request of any history sees what it sees on any unused array. *)
Theorem pseudo_rounds : forall b cap reqs ps, 0 < b -> ready b cap ps ->
  Forall (fun '(ev, hs, order) => texts ev /\ (exists dataSet, HeadersCreate dataSet = Headers hs) /\ pseudoHeaders hs <= cap) reqs ->
  exists outs ps', rounds b ps reqs = Some (outs, ps') /\ ready b cap ps' /\
    Forall2 (fun '(ev, hs, order) '(s, st) => forall fresh, ready b cap fresh ->
               exists fresh', AddEvidence ev (Some fresh) hs b order = Some (Some fresh', st) /\ seen fresh' = s) reqs outs.
Proof.
  intros b cap reqs ps Hb R F. revert ps R. induction F as [|((ev, hs), order) reqs (T & (dataSet & E) & L) F IH]; intros ps R.
  - exists [], ps. repeat split; try apply R. constructor.
  - destruct (created_good _ _ E) as (G & S & _).
    assert (X : forall fresh, ready b cap fresh -> exists fresh', AddEvidence ev (Some fresh) hs b order = Some (Some fresh', snd (addPure ev hs b order [])) /\
      seen fresh' = fst (addPure ev hs b order []) /\ Forall (okItem b) (pItems fresh') /\ List.length (pItems fresh') = cap /\
      pCount fresh' <= List.length (pItems fresh')).
    { intros fresh (R1 & R2 & R3). destruct (add_spec ev b order Hb (texts_evidence _ T) hs S fresh R3) as (ps' & A & B & C & D & K).
      - rewrite R1, R2. exact L.
      - assert (V0 : view fresh = []) by (unfold view; rewrite R1; reflexivity). rewrite V0 in A, B. exists ps'.
        split; [exact A|]. split; [exact B|]. split; [exact C|]. split; [lia|exact K]. }
    destruct (X ps R) as (ps1 & A & B & C & D & K).
    destruct (remove_spec b ps1 K C) as (ps2 & A2 & B2 & C2 & D2 & _).
    destruct (IH ps2) as (outs & ps' & I1 & I2 & I3); [split; [exact B2|split; [lia|exact D2]]|].
    cbn [rounds]. rewrite A, A2, I1. cbn [option_map]. eexists. eexists. split; [reflexivity|]. split; [exact I2|].
    constructor; [|exact I3]. intros fresh Hf. destruct (X fresh Hf) as (fresh' & Y1 & Y2 & _). exists fresh'. split; [exact Y1|]. rewrite Y2. now symmetry.
Qed.
Print Assumptions pseudo_rounds.
Example pseudo_rounds_example :
  option_map fst (rounds 8 samplePs [(sampleEvidence, sampleHeaders, [HTTP_HEADER_STRING]); (sampleEvidence, sampleHeaders, [QUERY]);
    (pair_ QUERY (text "b") (text "0123456789") :: sampleEvidence, sampleHeaders, [QUERY]); (sampleEvidence, sampleHeaders, [HTTP_HEADER_STRING])]) =
  Some [([(HTTP_HEADER_STRING, Some AB, Some (text "xyz" ++ 31%Z :: text "w"))], NOT_SET); ([], NOT_SET);
        ([(QUERY, Some AB, Some (text "qa" ++ 31%Z :: text "0123"))], NOT_SET);
        ([(HTTP_HEADER_STRING, Some AB, Some (text "xyz" ++ 31%Z :: text "w"))], NOT_SET)].
Proof. vm_compute. reflexivity. Qed.
