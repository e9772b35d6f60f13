From Verif Require Export PseudoModel PseudoSpec StringProofs HeadersProofs.

(* looking up the value of a segment *)
Lemma get_value n s (ev : list Pair) p v : segInside n s ->
  getEvidenceValueForHeader (skipn (segStart s) (cstr n)) (segLength s) ev p = Some v <-> hasValue ev p (segText n s) v.
Proof.
  intros I. induction ev as [|q ev IH]; cbn [getEvidenceValueForHeader].
  - split; [discriminate|]. intros (b & q & a & E & _). destruct b; discriminate E.
  - assert (M : (Z.eqb (prefix q) p && (Nat.eqb (length (field q)) (segLength s) &&
        match StringCompareLength (length (field q)) (cstr (field q)) (skipn (segStart s) (cstr n)) with Some d => Z.eqb d 0 | None => false end))%bool = true
      <-> prefix q = p /\ sameText (field q) (segText n s)).
    { rewrite !andb_true_iff, Z.eqb_eq, Nat.eqb_eq. 
      assert (G : length (field q) = segLength s ->
        match StringCompareLength (length (field q)) (cstr (field q)) (skipn (segStart s) (cstr n)) with Some d => Z.eqb d 0 | None => false end = true
        <-> sameText (field q) (segText n s)).
      { intros E. destruct (compareLength_some (length (field q)) (cstr (field q)) (skipn (segStart s) (cstr n))) as (d & D & Hd).
        - unfold cstr. rewrite app_length. cbn. lia.
        - rewrite E, skipn_length. unfold cstr. rewrite app_length. unfold segInside in I. cbn. lia.
        - rewrite D, Z.eqb_eq, Hd. unfold cstr at 1. rewrite (first_app (field q)) by reflexivity.
          rewrite E, segText_mem by exact I. reflexivity. }
      split.
      - intros (A & B & C). split; [exact A|]. now apply G.
      - intros (A & C). assert (length (field q) = segLength s).
        { apply same_length in C. rewrite C. now apply segText_length. }
        repeat split; auto. now apply G. }
    match goal with |- context[if ?b then _ else _] => destruct b eqn:B end.
    + clear B. assert (B := proj1 M eq_refl). split.
      * intros E. exists [], q, ev. repeat split; try apply B; auto.
      * intros (bf & r & a & E & R1 & R2 & R3 & R4). destruct bf as [|z bf].
        -- injection E as -> ->. exact R3.
        -- injection E as -> ->. exfalso. apply (R4 z); [left; reflexivity|exact B].
    + rewrite IH. split.
      * intros (bf & r & a & -> & R1 & R2 & R3 & R4). exists (q :: bf), r, a. repeat split; auto.
        intros z [<-|Hz]; [|now apply R4]. intros Q. apply (proj2 M) in Q. discriminate Q.
      * intros (bf & r & a & E & R1 & R2 & R3 & R4). destruct bf as [|z bf].
        -- injection E as -> ->. exfalso. enough (false = true) by discriminate. apply M. auto.
        -- injection E as -> ->. exists bf, r, a. repeat split; auto. intros y Hy. apply R4. now right.
Qed.
Lemma hasValue_unique ev p w v v' : hasValue ev p w v -> hasValue ev p w v' -> v = v'.
Proof.
  intros (b & q & a & E & P & S & V & N) (b' & q' & a' & E' & P' & S' & V' & N').
  assert (length b = length b') as L.
  { subst ev. destruct (Nat.lt_trichotomy (length b) (length b')) as [L|[L|L]]; [exfalso| exact L|exfalso].
    - apply (N' q); [|auto]. assert (H : nth_error (b ++ q :: a) (length b) = Some q) by (rewrite nth_error_app2, Nat.sub_diag; [reflexivity|lia]).
      rewrite E', nth_error_app1 in H by exact L. eapply nth_error_In; eauto.
    - apply (N q'); [|auto]. assert (H : nth_error (b' ++ q' :: a') (length b') = Some q') by (rewrite nth_error_app2, Nat.sub_diag; [reflexivity|lia]).
      rewrite <- E', nth_error_app1 in H by exact L. eapply nth_error_In; eauto. }
  subst ev. assert (H : nth_error (b ++ q :: a) (length b) = Some q) by (rewrite nth_error_app2, Nat.sub_diag; [reflexivity|lia]).
  rewrite E', L, nth_error_app2, Nat.sub_diag in H by lia. injection H as <-. congruence.
Qed.

(* writing *)
Lemma write_app (a w rest : list Z) : length w <= length rest ->
  write (a ++ rest) (length a) w = Some (a ++ w ++ skipn (length w) rest).
Proof.
  intros L. unfold write. destruct (Nat.leb_spec (length a + length w) (length (a ++ rest))) as [_|H]; [|rewrite app_length in H; lia].
  rewrite first_app by reflexivity. do 3 f_equal.
  rewrite skipn_app. rewrite skipn_all2 by lia. cbn. f_equal. lia.
Qed.
Lemma write_all (buf : list Z) z : write buf 0 (repeat z (length buf)) = Some (repeat z (length buf)).
Proof.
  pose proof (write_app [] (repeat z (length buf)) buf) as W. cbn in W. rewrite W by (rewrite repeat_length; lia).
  rewrite repeat_length, skipn_all, app_nil_r. reflexivity.
Qed.

Lemma toInt_id z : (0 <= z < 2147483648)%Z -> toInt z = z.
Proof. intros H. unfold toInt. rewrite Z.mod_small; lia. Qed.

(* the loop without the buffer: the returned number and the text in the buffer *)
Section Pure.
  Variable b : nat.
  Fixpoint pure (vals : list (option (list Z))) (more : bool) (acc : list Z) : Z * list Z :=
    match vals with
    | [] => (toInt (Z.of_nat (length acc)), acc)
    | None :: _ => (0%Z, [])
    | Some v :: rest =>
      let acc1 := if (more && Nat.ltb (S (length acc)) b)%bool then acc ++ [SEP] else acc in
      if Z.ltb INT_MAX (Z.of_nat (length v)) then ((-1)%Z, [])
      else if Nat.leb b (length acc1 + length v) then (toInt (Z.of_nat (length acc1 + length v)), firstn (b - 1) (acc1 ++ v))
      else pure rest true (acc1 ++ v)
    end.
  Definition vals (ev : list Pair) (p : Z) (n : list Z) (segs : list Segment) : list (option (list Z)) :=
    map (fun s => getEvidenceValueForHeader (skipn (segStart s) (cstr n)) (segLength s) ev p) segs.

  Lemma construct_loop ev p n segs : forall i acc (buf : list Z), length buf = b -> length acc < b ->
    (i = 0 -> acc = [] /\ segs <> []) -> (i <> 0 -> exists tail, buf = acc ++ 0%Z :: tail) ->
    exists tail, constructLoop ev p b n segs i (length acc) buf =
        Some (fst (pure (vals ev p n segs) (negb (Nat.eqb i 0)) acc), snd (pure (vals ev p n segs) (negb (Nat.eqb i 0)) acc) ++ 0%Z :: tail) /\
      length (snd (pure (vals ev p n segs) (negb (Nat.eqb i 0)) acc) ++ 0%Z :: tail) = b.
  Proof.
    induction segs as [|s segs IH]; intros i acc buf Lb La H0 H1; cbn [constructLoop vals map pure].
    - destruct (Nat.eq_dec i 0) as [->|N]; [exfalso; now apply (proj2 (H0 eq_refl))|].
      destruct (H1 N) as (tail & ->). exists tail. cbn. split; [reflexivity|exact Lb].
    - destruct (getEvidenceValueForHeader (skipn (segStart s) (cstr n)) (segLength s) ev p) as [v|].
      2:{ destruct (Nat.ltb_spec 0 b); [|lia]. pose proof (write_app [] [0%Z] buf) as W. cbn in W. rewrite W by lia. cbn.
          eexists. split; [reflexivity|]. destruct buf; cbn in *; lia. }
      (* the separator *)
      set (more := negb (Nat.eqb i 0)). set (acc1 := if (more && Nat.ltb (S (length acc)) b)%bool then acc ++ [SEP] else acc).
      assert (Pre : exists rest, buf = acc ++ rest /\ length rest = b - length acc).
      { destruct (Nat.eq_dec i 0) as [E|N].
        - destruct (H0 E) as (-> & _). exists buf. cbn. split; [reflexivity|lia].
        - destruct (H1 N) as (tail & ->). exists (0%Z :: tail). rewrite app_length in Lb. split; [reflexivity|]. lia. }
      destruct Pre as (rest & Eb & Lr).
      assert (Step : exists rest1, (if (more && Z.ltb (Z.of_nat (length acc)) (Z.of_nat b - 1))%bool
             then option_map (fun b' => (length acc + 1, b')) (write buf (length acc) [SEP])
             else Some (length acc, buf)) = Some (length acc1, acc1 ++ rest1) /\ length rest1 = b - length acc1 /\ length acc1 < b).
      { assert (E : Z.ltb (Z.of_nat (length acc)) (Z.of_nat b - 1) = Nat.ltb (S (length acc)) b).
        { apply Bool.eq_true_iff_eq. rewrite Z.ltb_lt, Nat.ltb_lt. lia. }
        rewrite E. subst acc1. destruct (more && Nat.ltb (S (length acc)) b)%bool eqn:B.
        - apply andb_true_iff in B. destruct B as (_ & B). apply Nat.ltb_lt in B. subst buf.
          rewrite write_app by (cbn; lia). exists (skipn 1 rest). cbn [option_map]. rewrite app_length. split; [|rewrite skipn_length; cbn; lia].
          f_equal. f_equal. now rewrite <- app_assoc.
        - exists rest. subst buf. repeat split; auto. }
      destruct Step as (rest1 & Step & Lr1 & La1). rewrite Step. clear Step. cbn zeta.
      destruct (Z.ltb_spec INT_MAX (Z.of_nat (length v))) as [Big|Small].
      { assert (Lt : length (acc1 ++ rest1) = b) by (rewrite app_length; lia).
        pose proof (write_all (acc1 ++ rest1) 0) as WA. rewrite Lt in WA. rewrite WA. cbn [fst snd app]. exists (repeat 0%Z (b - 1)).
        assert (Eb' : repeat 0%Z b = 0%Z :: repeat 0%Z (b - 1)) by (replace b with (S (b - 1)) at 1 by lia; reflexivity).
        rewrite Eb'. split; [reflexivity|cbn; rewrite repeat_length; lia]. }
      unfold snprintf. destruct (Nat.eqb_spec (b - length acc1) 0) as [Z0|_]; [lia|].
      set (w := firstn (b - length acc1 - 1) v).
      assert (Lw : length w <= b - length acc1 - 1) by (subst w; rewrite firstn_length; lia).
      rewrite write_app by (rewrite app_length; cbn; lia).
      assert (C : Z.leb (Z.of_nat b - Z.of_nat (length acc1)) (Z.of_nat (length v)) = Nat.leb b (length acc1 + length v)).
      { apply Bool.eq_true_iff_eq. rewrite Z.leb_le, Nat.leb_le. lia. }
      rewrite C. destruct (Nat.leb_spec b (length acc1 + length v)) as [T|F].
      + exists (skipn (length (w ++ [0%Z])) rest1). cbn [fst snd].
        assert (EW : firstn (b - 1) (acc1 ++ v) = acc1 ++ w).
        { rewrite firstn_app. rewrite firstn_all2 by lia. f_equal. subst w. f_equal. lia. }
        rewrite EW. split; [do 2 f_equal; rewrite <- !app_assoc; reflexivity|].
        rewrite !app_length. cbn [length]. rewrite skipn_length, ?app_length. cbn [length]. assert (length w = b - length acc1 - 1) by (subst w; rewrite firstn_length; lia). lia.
      + assert (w = v) as -> by (subst w; rewrite firstn_all2 by lia; reflexivity).
        destruct (IH (S i) (acc1 ++ v) (acc1 ++ (v ++ [0%Z]) ++ skipn (length (v ++ [0%Z])) rest1)) as (tail & T1 & T2).
        * rewrite !app_length, skipn_length, ?app_length. cbn [length]. lia.
        * rewrite app_length. lia.
        * discriminate.
        * intros _. exists (skipn (length (v ++ [0%Z])) rest1). rewrite <- !app_assoc. reflexivity.
        * exists tail. rewrite app_length in T1. cbn [negb Nat.eqb] in T1, T2. split; [exact T1|exact T2].
  Qed.

  (* what the text is *)
  Definition tailJoin (values : list (list Z)) : list Z := concat (map (fun v => SEP :: v) values).
  Lemma join_cons v values : join (v :: values) = v ++ tailJoin values.
  Proof.
    revert v. induction values as [|w values IH]; intros v; [cbn; now rewrite app_nil_r|].
    change (join (v :: w :: values)) with (v ++ separator :: join (w :: values)). rewrite IH. reflexivity.
  Qed.
  Definition glue (more : bool) (acc : list Z) (values : list (list Z)) : list Z :=
    if more then acc ++ tailJoin values else acc ++ join values.
  Lemma glue_cons (more : bool) acc v values :
    glue more acc (v :: values) = glue true ((if more then acc ++ [SEP] else acc) ++ v) values.
  Proof.
    destruct more; cbn [glue]; [|rewrite join_cons, <- app_assoc; reflexivity].
    unfold tailJoin. cbn. rewrite <- !app_assoc. reflexivity.
  Qed.
  Lemma glue_nil more acc : glue more acc [] = acc.
  Proof. destruct more; cbn; apply app_nil_r. Qed.
  Lemma glue_prefix (more : bool) acc values : exists r, glue more acc values = acc ++ r.
  Proof. destruct more; eexists; reflexivity. Qed.

  Lemma pure_fits values : forall more acc, length (glue more acc values) < b -> (Z.of_nat b <= 2147483648)%Z ->
    pure (map Some values) more acc = (Z.of_nat (length (glue more acc values)), glue more acc values).
  Proof.
    induction values as [|v values IH]; intros more acc L I.
    - rewrite glue_nil in *. cbn. rewrite toInt_id by lia. reflexivity.
    - cbn [map pure]. rewrite glue_cons in *. destruct (glue_prefix true ((if more then acc ++ [SEP] else acc) ++ v) values) as (r & R).
      pose proof L as L'. rewrite R, !app_length in L'.
      assert (E : (if (more && Nat.ltb (S (length acc)) b)%bool then acc ++ [SEP] else acc) = (if more then acc ++ [SEP] else acc)).
      { destruct more; [|reflexivity]. cbn [andb]. destruct (Nat.ltb_spec (S (length acc)) b); [reflexivity|]. rewrite app_length in L'. cbn in L'. lia. }
      cbn zeta. rewrite E. destruct (Z.ltb_spec INT_MAX (Z.of_nat (length v))) as [Big|_]; [unfold INT_MAX in Big; lia|].
      destruct (Nat.leb_spec b (length (if more then acc ++ [SEP] else acc) + length v)); [lia|]. now apply IH.
  Qed.
  Lemma pure_missing values rest : forall more acc, length (glue more acc values) < b -> (Z.of_nat b <= 2147483648)%Z ->
    pure (map Some values ++ None :: rest) more acc = (0%Z, []).
  Proof.
    induction values as [|v values IH]; intros more acc L I; [reflexivity|].
    cbn [map pure app]. rewrite glue_cons in *. destruct (glue_prefix true ((if more then acc ++ [SEP] else acc) ++ v) values) as (r & R).
    pose proof L as L'. rewrite R, !app_length in L'.
    assert (E : (if (more && Nat.ltb (S (length acc)) b)%bool then acc ++ [SEP] else acc) = (if more then acc ++ [SEP] else acc)).
    { destruct more; [|reflexivity]. cbn [andb]. destruct (Nat.ltb_spec (S (length acc)) b); [reflexivity|]. rewrite app_length in L'. cbn in L'. lia. }
    cbn zeta. rewrite E. destruct (Z.ltb_spec INT_MAX (Z.of_nat (length v))) as [Big|_]; [unfold INT_MAX in Big; lia|].
    destruct (Nat.leb_spec b (length (if more then acc ++ [SEP] else acc) + length v)); [lia|]. now apply IH.
  Qed.
  (* in all cases the text is the beginning of the joined values of the first
     segments *)
  Lemma pure_full vs : forall acc, S (length acc) = b -> snd (pure vs true acc) = [] \/ snd (pure vs true acc) = acc.
  Proof.
    induction vs as [|[v|] vs IH]; intros acc La; [right; reflexivity| |left; reflexivity].
    cbn [pure]. destruct (Nat.ltb_spec (S (length acc)) b); [lia|]. cbn [andb]. cbn zeta.
    destruct (Z.ltb_spec INT_MAX (Z.of_nat (length v))); [left; reflexivity|].
    destruct (Nat.leb_spec b (length acc + length v)) as [T|F].
    - right. cbn [snd]. rewrite first_app; [reflexivity|lia].
    - assert (v = []) as -> by (destruct v; [reflexivity|cbn in F; lia]). rewrite app_nil_r. apply IH, La.
  Qed.
  Lemma pure_content vs : forall more acc, length acc < b ->
    snd (pure vs more acc) = [] \/
    exists values rest, vs = map Some values ++ rest /\ snd (pure vs more acc) = firstn (b - 1) (glue more acc values).
  Proof.
    induction vs as [|[v|] vs IH]; intros more acc La.
    - right. exists [], []. split; [reflexivity|]. rewrite glue_nil, firstn_all2 by lia. reflexivity.
    - destruct (more && negb (Nat.ltb (S (length acc)) b))%bool eqn:Q.
      + apply andb_true_iff in Q. destruct Q as (-> & Q). apply negb_true_iff, Nat.ltb_ge in Q.
        destruct (pure_full (Some v :: vs) acc) as [E|E]; [lia|left; exact E|right]. exists [], (Some v :: vs).
        split; [reflexivity|]. rewrite E, glue_nil, firstn_all2 by lia. reflexivity.
      + cbn [pure]. assert (E : (if (more && Nat.ltb (S (length acc)) b)%bool then acc ++ [SEP] else acc) = (if more then acc ++ [SEP] else acc)).
        { destruct more; [|reflexivity]. cbn in Q |- *. apply negb_false_iff in Q. rewrite Q. reflexivity. }
        rewrite E. set (acc1 := if more then acc ++ [SEP] else acc). cbn zeta.
        destruct (Z.ltb_spec INT_MAX (Z.of_nat (length v))) as [Big|Small]; [left; reflexivity|].
        destruct (Nat.leb_spec b (length acc1 + length v)) as [T|F].
        * right. exists [v], vs. split; [reflexivity|]. rewrite glue_cons, glue_nil. reflexivity.
        * destruct (IH true (acc1 ++ v)) as [I|(values & rest & I1 & I2)]; [rewrite app_length; lia|left; exact I|right].
          exists (v :: values), rest. split; [cbn; f_equal; exact I1|]. rewrite glue_cons. exact I2.
    - left. reflexivity.
  Qed.
  Lemma pure_length vs : forall more acc, length acc < b -> length (snd (pure vs more acc)) < b.
  Proof.
    intros more acc La. destruct (pure_content vs more acc La) as [->|(values & rest & _ & ->)]; [cbn; lia|]. rewrite firstn_length. lia.
  Qed.
  (* the text has no zero in it *)
  Lemma pure_nonzero vs : Forall (fun o => match o with Some v => Forall (fun c => c <> 0%Z) v | None => True end) vs ->
    forall more acc, Forall (fun c => c <> 0%Z) acc -> Forall (fun c => c <> 0%Z) (snd (pure vs more acc)).
  Proof.
    induction 1 as [|[v|] vs Hv Hvs IH]; intros more acc Ha; [exact Ha| |constructor].
    cbn [pure]. set (acc1 := if (more && Nat.ltb (S (length acc)) b)%bool then acc ++ [SEP] else acc).
    assert (H1 : Forall (fun c => c <> 0%Z) (acc1 ++ v)).
    { apply Forall_app. split; [|exact Hv]. subst acc1. destruct (more && _)%bool; [|exact Ha]. apply Forall_app. split; [exact Ha|].
      constructor; [discriminate|constructor]. }
    cbn zeta. destruct (Z.ltb_spec INT_MAX (Z.of_nat (length v))); [constructor|].
    destruct (Nat.leb_spec b (length acc1 + length v)); [|now apply IH]. cbn [snd].
    rewrite <- (firstn_skipn (b - 1) (acc1 ++ v)) in H1. apply Forall_app in H1. apply H1.
  Qed.
End Pure.

Lemma cstring_app c tail : Forall (fun x => x <> 0%Z) c -> cstring (c ++ 0%Z :: tail) = c.
Proof. induction 1 as [|x c Hx Hc IH]; cbn; [reflexivity|]. destruct (Z.eqb_spec x 0); [contradiction|]. now rewrite IH. Qed.
Definition view (ps : PseudoArray) : list (Z * option (list Z) * option (list Z)) :=
  map (fun x => (pPrefix x, pField x, option_map cstring (pBuffer x))) (firstn (pCount ps) (pItems ps)).

Definition okItem (b : nat) (x : PseudoItem) : Prop := exists buf, pBuffer x = Some buf /\ length buf = b.
Definition textEvidence (ev : list Pair) : Prop :=
  Forall (fun q => match originalValue q with Some v => Forall (fun c => c <> 0%Z) v | None => True end) ev.
Lemma get_nonzero ev p seg len v : textEvidence ev -> getEvidenceValueForHeader seg len ev p = Some v -> Forall (fun c => c <> 0%Z) v.
Proof.
  induction 1 as [|q ev Hq Hev IH]; cbn; [discriminate|]. destruct (_ && _)%bool; [|exact IH]. intros E. rewrite E in Hq. exact Hq.
Qed.
Lemma vals_nonzero ev p n segs : textEvidence ev ->
  Forall (fun o => match o with Some v => Forall (fun c => c <> 0%Z) v | None => True end) (vals ev p n segs).
Proof.
  intros T. unfold vals. apply Forall_forall. intros o Ho. apply in_map_iff in Ho. destruct Ho as (s & <- & _).
  destruct (getEvidenceValueForHeader _ _ ev p) eqn:E; [|exact I]. eapply get_nonzero; eauto.
Qed.

Inductive tryResult := TTaken (p : Z) (c : list Z) | TNothing | TFailed.
Fixpoint tryPure (b : nat) (order : list Z) (h : Header) (ev : list Pair) : tryResult :=
  match order with
  | [] => TNothing
  | p :: rest =>
    let rc := pure b (vals ev p (name h) (segments h)) false [] in
    if Z.ltb 0 (fst rc) then TTaken p (snd rc) else if Z.ltb (fst rc) 0 then TFailed else tryPure b rest h ev
  end.
Lemma try_spec b order h ev : 0 < b -> segments h <> [] -> forall buf : list Z, length buf = b ->
  match tryPure b order h ev with
  | TTaken p c => In p order /\ c = snd (pure b (vals ev p (name h) (segments h)) false []) /\
      exists tail, tryPrefixes order buf b h ev = Some (Taken p (c ++ 0%Z :: tail)) /\ length (c ++ 0%Z :: tail) = b
  | TNothing => exists buf', tryPrefixes order buf b h ev = Some (Nothing buf') /\ length buf' = b
  | TFailed => exists buf', tryPrefixes order buf b h ev = Some (Failed buf') /\ length buf' = b
  end.
Proof.
  intros Hb Hs. induction order as [|p order IH]; intros buf L; cbn [tryPure tryPrefixes]; [eauto|].
  destruct (construct_loop b ev p (name h) (segments h) 0 [] buf L) as (tail & C & LC); [cbn; lia|auto|congruence|].
  cbn [Nat.eqb negb length] in C, LC. unfold constructPseudoEvidence. rewrite C. cbn zeta.
  set (rc := pure b (vals ev p (name h) (segments h)) false []) in *.
  destruct (Z.ltb_spec 0 (fst rc)).
  - split; [left; reflexivity|]. split; [reflexivity|]. eauto.
  - destruct (Z.ltb_spec (fst rc) 0); [eauto|]. specialize (IH _ LC).
    destruct (tryPure b order h ev) as [q c| |]; [|exact IH|exact IH]. destruct IH as (A & B & D). split; [right; exact A|]. split; [exact B|exact D].
Qed.

Definition wanted (ev : list Pair) (order : list Z) (h : Header) : bool :=
  (HeadersIsPseudo (name h) && negb (isEvidencePresentForHeader ev h order))%bool.
Fixpoint addPure (ev : list Pair) (hs : list Header) (b : nat) (order : list Z) (acc : list (Z * option (list Z) * option (list Z)))
  : list (Z * option (list Z) * option (list Z)) * status :=
  match hs with
  | [] => (acc, NOT_SET)
  | h :: rest =>
    if wanted ev order h then
      match tryPure b order h ev with
      | TTaken p c => addPure ev rest b order (acc ++ [(p, Some (name h), Some c)])
      | TNothing => addPure ev rest b order acc
      | TFailed => ([], ENCODING_ERROR)
      end
    else addPure ev rest b order acc
  end.
Definition pseudoNames (hs : list Header) : nat := length (filter (fun h => HeadersIsPseudo (name h)) hs).

Lemma setItem_length l i x : i < length l -> length (setItem l i x) = length l.
Proof. intros H. unfold setItem. rewrite app_length, firstn_length. cbn [length]. rewrite skipn_length. lia. Qed.
Lemma forall_firstn {A} (P : A -> Prop) l i : Forall P l -> Forall P (firstn i l).
Proof. intros H. rewrite <- (firstn_skipn i l) in H. apply Forall_app in H. apply H. Qed.
Lemma forall_skipn {A} (P : A -> Prop) l i : Forall P l -> Forall P (skipn i l).
Proof. intros H. rewrite <- (firstn_skipn i l) in H. apply Forall_app in H. apply H. Qed.
Lemma setItem_ok b l i x : Forall (okItem b) l -> okItem b x -> Forall (okItem b) (setItem l i x).
Proof.
  intros H Hx. unfold setItem. apply Forall_app. split; [now apply forall_firstn|]. constructor; [exact Hx|now apply forall_skipn].
Qed.
Lemma firstn_setItem l i x : i < length l -> firstn i (setItem l i x) = firstn i l.
Proof. intros H. unfold setItem. rewrite first_app; [reflexivity|rewrite firstn_length; lia]. Qed.
Lemma firstn_S_setItem l i x : i < length l -> firstn (S i) (setItem l i x) = firstn i l ++ [x].
Proof.
  intros H. unfold setItem. change (x :: skipn (S i) l) with ([x] ++ skipn (S i) l). rewrite app_assoc.
  rewrite first_app; [reflexivity|rewrite app_length, firstn_length; cbn; lia].
Qed.

Lemma remove_loop b : forall count l, count <= length l -> Forall (okItem b) l ->
  exists l', removeLoop b count l = Some l' /\ length l' = length l /\ Forall (okItem b) l' /\
    Forall (fun x => pField x = None /\ pBuffer x = Some (repeat 0%Z b)) (firstn count l') /\ skipn count l' = skipn count l.
Proof.
  induction count as [|n IH]; intros l Hc Ho.
  - exists l. cbn. repeat split; auto.
  - destruct l as [|x l]; [cbn in Hc; lia|]. apply Forall_cons_iff in Ho. destruct Ho as ((buf & Hx & Lx) & Ho).
    destruct (IH l) as (l' & E & L & O & F & K); [cbn in Hc; lia|exact Ho|].
    cbn [removeLoop]. rewrite Hx. pose proof (write_all buf 0) as W. rewrite Lx in W. rewrite W, E.
    eexists. split; [reflexivity|]. cbn [length firstn skipn]. split; [lia|]. split; [|split; [|exact K]].
    + constructor; [|exact O]. exists (repeat 0%Z b). split; [reflexivity|apply repeat_length].
    + constructor; [split; reflexivity|exact F].
Qed.

Lemma add_spec ev b order : 0 < b -> textEvidence ev -> forall hs, Forall (fun h => segments h <> []) hs -> forall ps,
  Forall (okItem b) (pItems ps) -> pCount ps + pseudoNames hs <= length (pItems ps) ->
  exists ps', addLoop ev hs b order (Some ps) = Some (Some ps', snd (addPure ev hs b order (view ps))) /\
    view ps' = fst (addPure ev hs b order (view ps)) /\
    Forall (okItem b) (pItems ps') /\ length (pItems ps') = length (pItems ps) /\ pCount ps' <= length (pItems ps').
Proof.
  intros Hb Ht hs. induction 1 as [|h hs Hh Hhs IH]; intros ps Ho Hc; cbn [addLoop addPure].
  - exists ps. cbn. cbn in Hc. repeat split; auto. lia.
  - fold (wanted ev order h). destruct (wanted ev order h) eqn:W.
    2:{ apply IH; auto. unfold pseudoNames in *. cbn in Hc. destruct (HeadersIsPseudo (name h)); cbn in Hc; lia. }
    unfold wanted in W. apply andb_true_iff in W. destruct W as (W & _).
    assert (Hc' : pCount ps + S (pseudoNames hs) <= length (pItems ps)) by (unfold pseudoNames in *; cbn in Hc; rewrite W in Hc; exact Hc).
    destruct (nth_error (pItems ps) (pCount ps)) as [x|] eqn:N; [|apply nth_error_None in N; lia].
    pose proof (proj1 (Forall_forall _ _) Ho x (nth_error_In _ _ N)) as (buf & Hx & Lx). rewrite Hx.
    pose proof (try_spec b order h ev Hb Hh buf Lx) as T.
    destruct (tryPure b order h ev) as [p c| |].
    + destruct T as (_ & Ec & tail & T & LT). rewrite T.
      assert (Cz : Forall (fun c => c <> 0%Z) c) by (subst c; apply pure_nonzero; [now apply vals_nonzero|constructor]).
      set (it := mkPseudo p (Some (name h)) (Some (c ++ 0%Z :: tail))).
      destruct (IH (mkPseudoArray (S (pCount ps)) (setItem (pItems ps) (pCount ps) it))) as (ps' & A & B & C & D & E).
      * cbn. apply setItem_ok; [exact Ho|]. eexists. split; [reflexivity|exact LT].
      * cbn. rewrite setItem_length by lia. lia.
      * assert (V : view (mkPseudoArray (S (pCount ps)) (setItem (pItems ps) (pCount ps) it)) = view ps ++ [(p, Some (name h), Some c)]).
        { unfold view. cbn [pCount pItems]. rewrite firstn_S_setItem by lia. rewrite map_app. f_equal. cbn. now rewrite cstring_app. }
        rewrite V in A, B. exists ps'. cbn in D. rewrite setItem_length in D by lia. auto.
    + destruct T as (buf' & T & LT). rewrite T. set (it := mkPseudo (pPrefix x) (pField x) (Some buf')).
      destruct (IH (mkPseudoArray (pCount ps) (setItem (pItems ps) (pCount ps) it))) as (ps' & A & B & C & D & E).
      * cbn. apply setItem_ok; [exact Ho|]. eexists. split; [reflexivity|exact LT].
      * cbn. rewrite setItem_length by lia. lia.
      * assert (V : view (mkPseudoArray (pCount ps) (setItem (pItems ps) (pCount ps) it)) = view ps).
        { unfold view. cbn [pCount pItems]. rewrite firstn_setItem by lia. reflexivity. }
        rewrite V in A, B. exists ps'. cbn in D. rewrite setItem_length in D by lia. auto.
    + destruct T as (buf' & T & LT). rewrite T. set (it := mkPseudo (pPrefix x) (pField x) (Some buf')).
      destruct (remove_loop b (pCount ps) (setItem (pItems ps) (pCount ps) it)) as (l' & A & B & C & D & E).
      * rewrite setItem_length; lia.
      * apply setItem_ok; [exact Ho|]. eexists. split; [reflexivity|exact LT].
      * unfold RemoveEvidence. cbn [pCount pItems]. rewrite A. cbn. eexists. split; [reflexivity|]. cbn.
        rewrite setItem_length in B by lia. repeat split; auto. lia.
Qed.
Lemma remove_spec b ps : pCount ps <= length (pItems ps) -> Forall (okItem b) (pItems ps) ->
  exists ps', RemoveEvidence b ps = Some ps' /\ pCount ps' = 0 /\ length (pItems ps') = length (pItems ps) /\
    Forall (okItem b) (pItems ps') /\
    Forall (fun x => pField x = None /\ pBuffer x = Some (repeat 0%Z b)) (firstn (pCount ps) (pItems ps')) /\
    skipn (pCount ps) (pItems ps') = skipn (pCount ps) (pItems ps).
Proof.
  intros L O. destruct (remove_loop b (pCount ps) (pItems ps) L O) as (l' & A & B & C & D & E).
  unfold RemoveEvidence. rewrite A. cbn. eexists. split; [reflexivity|]. cbn. auto.
Qed.

(* the abstract description *)
Lemma present_spec ev h order : isEvidencePresentForHeader ev h order = true <-> supplied ev order (name h).
Proof.
  unfold isEvidencePresentForHeader, supplied. rewrite existsb_exists. split.
  - intros (q & Hq & E). apply andb_true_iff in E. destruct E as (E1 & E). apply andb_true_iff in E. destruct E as (_ & E2).
    apply existsb_exists in E1. destruct E1 as (p & Hp & E1). apply Z.eqb_eq in E1, E2. apply compare_zero in E2. subst p.
    exists q. repeat split; auto. now apply same_sym.
  - intros (q & Hq & Hp & S). exists q. split; [exact Hq|]. apply andb_true_iff. split.
    + apply existsb_exists. exists (prefix q). split; [exact Hp|apply Z.eqb_refl].
    + apply andb_true_iff. split; [apply Nat.eqb_eq; now apply same_length|]. apply Z.eqb_eq, compare_zero. now apply same_sym.
Qed.
Lemma vals_cases ev p n segs : Forall (segInside n) segs ->
  (exists values, vals ev p n segs = map Some values /\ Forall2 (hasValue ev p) (map (segText n) segs) values) \/
  (exists segs1 s segs2 values rest, segs = segs1 ++ s :: segs2 /\ vals ev p n segs = map Some values ++ None :: rest /\
     Forall2 (hasValue ev p) (map (segText n) segs1) values /\ forall v, ~ hasValue ev p (segText n s) v).
Proof.
  induction 1 as [|s segs Hs Hss IH]; [left; exists []; split; [reflexivity|constructor]|].
  cbn [vals map]. destruct (getEvidenceValueForHeader (skipn (segStart s) (cstr n)) (segLength s) ev p) as [v|] eqn:E.
  - apply get_value in E; [|exact Hs]. destruct IH as [(values & A & B)|(segs1 & s' & segs2 & values & rest & -> & A & B & C)].
    + left. exists (v :: values). split; [cbn; f_equal; exact A|]. constructor; auto.
    + right. exists (s :: segs1), s', segs2, (v :: values), rest. split; [reflexivity|]. split; [cbn; f_equal; exact A|].
      split; [constructor; auto|exact C].
  - right. exists [], s, segs, [], (vals ev p n segs). repeat split; auto; [constructor|].
    intros v Hv. apply (get_value n s ev p v Hs) in Hv. congruence.
Qed.
Lemma forall2_unique {A B} (P : A -> B -> Prop) : (forall x y y', P x y -> P x y' -> y = y') ->
  forall l m m', Forall2 P l m -> Forall2 P l m' -> m = m'.
Proof.
  intros U. induction l as [|x l IH]; intros m m' H H'; inversion H; inversion H'; subst; [reflexivity|]. f_equal; [eapply U; eauto|now apply IH].
Qed.

Definition fits (ev : list Pair) (order : list Z) (b : nat) (n : list Z) : Prop :=
  forall p words more values, In p order -> parts n (words ++ more) -> Forall2 (hasValue ev p) words values -> length (join values) < b.
Lemma pure_constructs ev p h b order : goodHeader h -> (Z.of_nat b <= 2147483648)%Z -> fits ev order b (name h) -> In p order ->
  let rc := pure b (vals ev p (name h) (segments h)) false [] in
  (0 <= fst rc)%Z /\ (forall v, constructs ev (name h) p v <-> (0 < fst rc)%Z /\ v = snd rc).
Proof.
  intros (G1 & G2 & G3) Hb F Hp. cbn zeta. destruct (vals_cases ev p (name h) (segments h) G2) as [(values & A & B)|(s1 & s & s2 & values & rest & E & A & B & C)].
  - assert (L : length (join values) < b).
    { eapply (F p (map (segText (name h)) (segments h)) []); eauto. rewrite app_nil_r. now apply parts_iff. }
    rewrite A, pure_fits by (cbn; auto). cbn [fst snd glue app]. split; [lia|]. intros v. split.
    + intros (words & values' & W1 & W2 & -> & W4). apply parts_iff in W1. rewrite <- G1 in W1. subst words.
      assert (values' = values) as -> by (eapply forall2_unique; eauto using hasValue_unique).
      split; [|reflexivity]. destruct (join values); [congruence|cbn; lia].
    + intros (H & ->). exists (map (segText (name h)) (segments h)), values. split; [now apply parts_iff|]. split; [exact B|]. split; [reflexivity|].
      intros Q. rewrite Q in H. cbn in H. lia.
  - assert (L : length (join values) < b).
    { eapply (F p (map (segText (name h)) s1) (map (segText (name h)) (s :: s2))); eauto. rewrite <- map_app, <- E. now apply parts_iff. }
    rewrite A, pure_missing by (cbn; auto). cbn [fst snd]. split; [lia|]. intros v. split; [|lia].
    intros (words & values' & W1 & W2 & _ & _). exfalso. apply parts_iff in W1. rewrite <- G1 in W1. subst words. rewrite E, map_app in W2.
    apply Forall2_app_inv_l in W2. destruct W2 as (v1 & v2 & _ & W2 & _). cbn in W2. inversion W2. subst. eapply C; eauto.
Qed.
Lemma try_constructs ev h b : goodHeader h -> (Z.of_nat b <= 2147483648)%Z -> forall order, fits ev order b (name h) ->
  match tryPure b order h ev with
  | TTaken p c => exists o1 o2, order = o1 ++ p :: o2 /\ (forall q w, In q o1 -> ~ constructs ev (name h) q w) /\ constructs ev (name h) p c
  | TNothing => forall p v, In p order -> ~ constructs ev (name h) p v
  | TFailed => False
  end.
Proof.
  intros G Hb order. induction order as [|p order IH]; intros F; cbn [tryPure]; [intros p v []|].
  destruct (pure_constructs ev p h b (p :: order) G Hb F (or_introl eq_refl)) as (P1 & P2). cbn zeta in P1, P2 |- *.
  set (rc := pure b (vals ev p (name h) (segments h)) false []) in *.
  destruct (Z.ltb_spec 0 (fst rc)) as [L|L].
  - exists [], order. repeat split; auto. now apply P2.
  - assert (fst rc = 0%Z) as Z0 by lia. rewrite Z0. cbn.
    assert (Np : forall v, ~ constructs ev (name h) p v) by (intros v H; apply P2 in H; lia).
    assert (F' : fits ev order b (name h)) by (intros q words more values Hq; apply F; now right).
    specialize (IH F'). destruct (tryPure b order h ev) as [q c| |]; [|intros q v [<-|Hq]; [apply Np|now apply IH]|exact IH].
    destruct IH as (o1 & o2 & -> & I1 & I2). exists (p :: o1), o2. split; [reflexivity|]. split; [|exact I2].
    intros r w [<-|Hr]; [apply Np|now apply I1].
Qed.
Definition entry (e : Z * list Z * list Z) : Z * option (list Z) * option (list Z) := let '(p, n, v) := e in (p, Some n, Some v).
Lemma add_adds ev b order : (Z.of_nat b <= 2147483648)%Z -> forall hs, Forall goodHeader hs -> Forall (fun h => fits ev order b (name h)) hs ->
  forall acc, exists l, adds ev order (map name hs) l /\ addPure ev hs b order acc = (acc ++ map entry l, NOT_SET).
Proof.
  intros Hb hs. induction 1 as [|h hs G Gs IH]; intros F acc.
  - exists []. cbn. rewrite app_nil_r. split; [constructor|reflexivity].
  - apply Forall_cons_iff in F. destruct F as (Fh & F). cbn [addPure map].
    assert (Sep : HeadersIsPseudo (name h) = true <-> In separator (name h)).
    { unfold HeadersIsPseudo. rewrite existsb_exists. split; [intros (x & Hx & E); apply Z.eqb_eq in E; subst x; exact Hx|].
      intros H. exists separator. split; [exact H|reflexivity]. }
    destruct (wanted ev order h) eqn:W; unfold wanted in W.
    + apply andb_true_iff in W. destruct W as (W1 & W2). apply Sep in W1. apply negb_true_iff in W2.
      assert (NS : ~ supplied ev order (name h)) by (intros S; apply present_spec in S; congruence).
      pose proof (try_constructs ev h b G Hb order Fh) as T. destruct (tryPure b order h ev) as [p c| |]; [| |destruct T].
      * destruct T as (o1 & o2 & E & T1 & T2). destruct (IH F (acc ++ [(p, Some (name h), Some c)])) as (l & A & B).
        exists ((p, name h, c) :: l). split; [eapply adds_new; eauto|]. rewrite B, <- app_assoc. reflexivity.
      * destruct (IH F acc) as (l & A & B). exists l. split; [|exact B]. now apply adds_missing.
    + destruct (IH F acc) as (l & A & B). exists l. split; [|exact B]. apply andb_false_iff in W. destruct W as [W|W].
      * apply adds_plain; [|exact A]. intros S. apply Sep in S. congruence.
      * apply negb_false_iff in W. apply adds_supplied; [|exact A]. now apply present_spec.
Qed.
