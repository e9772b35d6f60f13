(* Proofs about textfile.c. *)
From Verif Require Export TextFileModel TextFileSpec.

Lemma isEol_iff c : isEol c = true <-> eol c.
Proof. unfold isEol, eol. rewrite orb_true_iff, !Z.eqb_eq. reflexivity. Qed.
Lemma isEol_false c : isEol c = false <-> ~ eol c.
Proof. rewrite <- isEol_iff. destruct (isEol c); intuition congruence. Qed.

(* ---- the lines as a function ---- *)
Definition consNE (h : list Z) (t : list (list Z)) := match h with [] => t | _ => h :: t end.
Fixpoint split (l : list Z) : list Z * list (list Z) :=
  match l with
  | [] => ([], [])
  | c :: r => let '(h, t) := split r in if isEol c then ([], consNE h t) else (c :: h, t)
  end.
Definition lines (l : list Z) : list (list Z) := let '(h, t) := split l in consNE h t.
Lemma split_line line rest : Forall (fun c => ~ eol c) line -> split (line ++ rest) = (line ++ fst (split rest), snd (split rest)).
Proof.
  induction 1 as [|c line Hc _ IH]; cbn; [now destruct (split rest)|]. rewrite IH. apply isEol_false in Hc. now rewrite Hc.
Qed.
Lemma lines_eol_cons c text : eol c -> lines (c :: text) = lines text.
Proof. intros H. apply isEol_iff in H. unfold lines. cbn. rewrite H. now destruct (split text). Qed.
Lemma lines_line line c text : Forall (fun c => ~ eol c) line -> eol c -> lines (line ++ c :: text) = consNE line (lines text).
Proof.
  intros H E. unfold lines at 1. rewrite (split_line line (c :: text) H). apply isEol_iff in E. cbn. unfold lines. destruct (split text) as (h, t). cbn. rewrite E. cbn. now rewrite app_nil_r.
Qed.
Lemma lines_single line : Forall (fun c => ~ eol c) line -> line <> [] -> lines line = [line].
Proof.
  intros H N. unfold lines. pose proof (split_line line [] H) as E. rewrite app_nil_r in E. rewrite E. cbn. rewrite app_nil_r. destruct line; [contradiction|reflexivity].
Qed.
Lemma lines_addEol text : lines (text ++ [10%Z]) = lines text.
Proof. unfold lines. replace (split (text ++ [10%Z])) with (split text); [reflexivity|]. induction text as [|c text IH]; cbn; [reflexivity|]. now rewrite <- IH. Qed.
Lemma linesOf_lines text l : linesOf text l -> l = lines text.
Proof.
  induction 1 as [|c text l E _ IH|line N F|line c text l N F E _ IH]; [reflexivity| | |].
  - now rewrite lines_eol_cons.
  - now rewrite lines_single.
  - rewrite lines_line by assumption. subst. destruct line; [contradiction|reflexivity].
Qed.
(* up to the first end of line *)
Lemma first_line text : (Forall (fun c => ~ eol c) text) \/ exists line c rest, text = line ++ c :: rest /\ Forall (fun c => ~ eol c) line /\ eol c.
Proof.
  induction text as [|x text IH]; [left; constructor|]. destruct (isEol x) eqn:E.
  - right. exists [], x, text. split; [reflexivity|]. split; [constructor|now apply isEol_iff].
  - apply isEol_false in E. destruct IH as [F|(line & c & rest & -> & F & C)]; [left; now constructor|]. right. exists (x :: line), c, rest. split; [reflexivity|]. split; [now constructor|exact C].
Qed.
Lemma lines_linesOf text : linesOf text (lines text).
Proof.
  remember (length text) as n eqn:Hn. assert (L : length text <= n) by lia. clear Hn. revert text L. induction n as [|n IH]; intros text L.
  - destruct text; [constructor|cbn in L; lia].
  - destruct (first_line text) as [F|(line & c & rest & -> & F & C)].
    + destruct text as [|x text]; [constructor|]. rewrite lines_single by (auto; discriminate). now apply lines_last.
    + rewrite lines_line by assumption. rewrite app_length in L. cbn in L. destruct line as [|x line]; [apply lines_eol; [exact C|apply IH; cbn in L; lia]|].
      apply lines_more; auto; [discriminate|]. apply IH. lia.
Qed.

(* ---- lists ---- *)
Fixpoint dropEol (l : list Z) : list Z := match l with [] => [] | c :: r => if isEol c then dropEol r else l end.
Lemma dropEol_eols T : exists E, T = E ++ dropEol T /\ Forall eol E.
Proof.
  induction T as [|c T (E & A & B)]; [exists []; now split|]. cbn. destruct (isEol c) eqn:X.
  - exists (c :: E). split; [cbn; now rewrite <- A|]. constructor; [now apply isEol_iff|exact B].
  - exists []. now split.
Qed.
Lemma lines_eols E x : Forall eol E -> lines (E ++ x) = lines x.
Proof. induction 1 as [|c E H _ IH]; [reflexivity|]. cbn. now rewrite lines_eol_cons. Qed.
Lemma nth_app_at (A W : list Z) i d : nth (length A + i) (A ++ W) d = nth i W d.
Proof. rewrite app_nth2 by lia. f_equal. lia. Qed.
Lemma toEol_app A line rest Z n : Forall (fun c => ~ eol c) line -> n = length line + length rest -> (rest = [] \/ exists c r, rest = c :: r /\ eol c) ->
  toEol (A ++ (line ++ rest) ++ Z) (length A) n = length A + length line.
Proof.
  intros F Hn H. revert A n Hn. induction F as [|c line Hc F IH]; intros A n Hn.
  - cbn in Hn |- *. destruct H as [-> | (c & r & -> & C)].
    + cbn in Hn. subst n. cbn. lia.
    + cbn in Hn. subst n. cbn [toEol]. replace (length A) with (length A + 0) at 1 by lia. rewrite nth_app_at. cbn. apply isEol_iff in C. rewrite C. lia.
  - cbn in Hn. subst n. cbn [toEol]. replace (length A) with (length A + 0) at 1 by lia. rewrite nth_app_at. cbn [nth app]. apply isEol_false in Hc. rewrite Hc.
    specialize (IH (A ++ [c]) (length line + length rest) eq_refl). rewrite app_length in IH. cbn in IH. rewrite <- app_assoc in IH. cbn in IH.
    rewrite Nat.add_1_r in IH. rewrite IH. cbn. lia.
Qed.
Lemma skipEol_app A W Z n : n = length W -> skipEol (A ++ W ++ Z) (length A) n = length A + (length W - length (dropEol W)).
Proof.
  intros ->. revert A. induction W as [|c W IH]; intros A; cbn [length skipEol dropEol]; [lia|].
  replace (length A) with (length A + 0) at 1 by lia. rewrite nth_app_at. cbn [nth app]. destruct (isEol c) eqn:E; [|cbn; lia].
  specialize (IH (A ++ [c])). rewrite app_length, <- app_assoc in IH. cbn in IH. rewrite Nat.add_1_r in IH. rewrite IH.
  pose proof (dropEol_eols W) as (E' & H & _). apply (f_equal (@length BinNums.Z)) in H. rewrite app_length in H. lia.
Qed.
Lemma setAt_app A c Z x : setAt (A ++ c :: Z) (length A) x = A ++ x :: Z.
Proof.
  unfold setAt. rewrite firstn_app, Nat.sub_diag, firstn_all. cbn [firstn]. rewrite app_nil_r. f_equal. f_equal.
  rewrite skipn_app. rewrite skipn_all2 by lia. replace (S (length A) - length A) with 1 by lia. reflexivity.
Qed.
Lemma skipn_app_exact {A} (a b : list A) : skipn (length a) (a ++ b) = b.
Proof. rewrite skipn_app, skipn_all, Nat.sub_diag. reflexivity. Qed.
Lemma firstn_app_exact {A} (a b : list A) : firstn (length a) (a ++ b) = a.
Proof. rewrite firstn_app, firstn_all, Nat.sub_diag. cbn. apply app_nil_r. Qed.
Lemma cstring_app line rest : ~ In 0%Z line -> cstring (line ++ 0%Z :: rest) = Some line.
Proof.
  induction line as [|c line IH]; intros N; [reflexivity|]. cbn. destruct (Z.eqb_spec c 0) as [->|_]; [exfalso; apply N; now left|].
  rewrite IH; [reflexivity|]. intros H. apply N. now right.
Qed.

(* one line *)
Lemma returnNextLine_ok A line c T Z : Forall (fun c => ~ eol c) line -> eol c -> ~ In 0%Z line ->
  exists A', returnNextLine (A ++ (line ++ c :: T) ++ Z) (length A) (length A + length (line ++ c :: T)) (length A) =
    Some (A' ++ dropEol T ++ Z, length A', [line]) /\ length A' + length (dropEol T) = length A + length (line ++ c :: T).
Proof.
  intros F C N. unfold returnNextLine. rewrite (toEol_app A line (c :: T) Z); [|exact F|rewrite app_length; lia|right; eauto].
  assert (L : Nat.ltb (length A + length line) (length A + length (line ++ c :: T)) = true) by (apply Nat.ltb_lt; rewrite app_length; cbn; lia). rewrite L.
  replace (A ++ (line ++ c :: T) ++ Z) with ((A ++ line) ++ c :: T ++ Z) by (now rewrite <- !app_assoc). rewrite <- app_length. rewrite setAt_app.
  rewrite <- app_assoc. rewrite skipn_app_exact. rewrite cstring_app by exact N.
  destruct (dropEol_eols T) as (E & HT & _). set (A' := A ++ line ++ 0%Z :: E).
  exists A'. assert (HA : length A' + length (dropEol T) = length A + length (line ++ c :: T)).
  { unfold A'. apply (f_equal (@length BinNums.Z)) in HT. rewrite !app_length in *. cbn [length]. lia. }
  split; [|exact HA]. f_equal. f_equal. f_equal.
  - unfold A'. rewrite <- !app_assoc. cbn [app]. do 3 f_equal. rewrite HT at 1. now rewrite <- app_assoc.
  - replace (A ++ line ++ 0%Z :: T ++ Z) with ((A ++ line ++ [0%Z]) ++ T ++ Z) by (rewrite <- !app_assoc; reflexivity).
    replace (S (length (A ++ line))) with (length (A ++ line ++ [0%Z])) by (rewrite !app_length; cbn; lia).
    rewrite skipEol_app by (rewrite !app_length; cbn; lia).
    unfold A'. apply (f_equal (@length BinNums.Z)) in HT. rewrite !app_length in *. cbn [length]. lia.
Qed.

(* ---- what is delivered ---- *)
Inductive fin : list Z -> list (list Z) -> Prop :=
| fin_nil : fin [] []
| fin_line line c T out : Forall (fun c => ~ eol c) line -> eol c -> fin (dropEol T) out -> fin (line ++ c :: T) (line :: out).
Inductive deliv (len : nat) : list Z -> list Z -> list (list Z) -> Prop :=
| d_full P R line c T out : len <= length (P ++ R) -> firstn len (P ++ R) = line ++ c :: T -> Forall (fun c => ~ eol c) line -> eol c ->
    deliv len (dropEol T) (skipn len (P ++ R)) out -> deliv len P R (line :: out)
| d_eol P R out : length (P ++ R) < len -> R <> [] -> endsInEol (P ++ R) -> fin (P ++ R) out -> deliv len P R out
| d_noeol P R out : length (P ++ R) < len -> P ++ R <> [] -> ~ endsInEol (P ++ R) -> fin ((P ++ R) ++ [10%Z]) out -> deliv len P R out.

Definition limited (limit : Z) (counter : nat) (l : list (list Z)) : list (list Z) :=
  if Z.ltb limit 0 then l else firstn (Z.to_nat limit - counter) l.
Lemma limited_no limit counter l : more limit counter = false -> limited limit counter l = [].
Proof. unfold more, limited. intros H. apply orb_false_iff in H. destruct H as (-> & H). apply Z.ltb_ge in H. replace (Z.to_nat limit - counter) with 0 by lia. reflexivity. Qed.
Lemma limited_cons limit counter x l : more limit counter = true -> limited limit counter (x :: l) = x :: limited limit (S counter) l.
Proof.
  unfold more, limited. intros H. destruct (Z.ltb limit 0); [reflexivity|]. cbn in H. apply Z.ltb_lt in H.
  replace (Z.to_nat limit - counter) with (S (Z.to_nat limit - S counter)) by lia. reflexivity.
Qed.
Lemma limited_nil limit counter : limited limit counter [] = [].
Proof. unfold limited. destruct (Z.ltb limit 0); [reflexivity|]. apply firstn_nil. Qed.

Lemma lastLoop_ok D out : fin D out -> forall A Z fuel counter limit acc current, ~ In 0%Z D -> length D < fuel ->
  (D <> [] -> current < length A + length D) -> (D = [] -> length A <= current) ->
  lastLoop fuel (A ++ D ++ Z) (length A) (length A + length D) current counter limit acc = Some (acc ++ limited limit counter out).
Proof.
  induction 1 as [|line c T out F C H IH]; intros A Z fuel counter limit acc current N Hf Hc Hd.
  - rewrite limited_nil, app_nil_r. destruct fuel; [cbn in Hf; lia|]. cbn [lastLoop length]. specialize (Hd eq_refl). destruct (Nat.ltb_spec current (length A + 0)); [lia|]. reflexivity.
  - destruct fuel; [lia|]. cbn [lastLoop]. assert (X : Nat.ltb current (length A + length (line ++ c :: T)) = true) by (apply Nat.ltb_lt, Hc; destruct line; discriminate).
    rewrite X. cbn [andb]. destruct (more limit counter) eqn:M; [|now rewrite (limited_no _ _ _ M), app_nil_r].
    rewrite (limited_cons _ _ _ _ M).
    assert (N1 : ~ In 0%Z line) by (intros I; apply N, in_or_app; now left).
    destruct (returnNextLine_ok A line c T Z F C N1) as (A' & -> & L).
    destruct (dropEol_eols T) as (E & HT & _). rewrite <- L. rewrite IH.
    + now rewrite <- app_assoc.
    + intros I. apply N, in_or_app. right. right. rewrite HT. apply in_or_app. now right.
    + rewrite app_length in Hf. apply (f_equal (@length BinNums.Z)) in HT. rewrite app_length in HT. cbn in Hf. lia.
    + intros Q. destruct (dropEol T); [contradiction|cbn; lia].
    + lia.
Qed.

(* what follows the first loop *)
Definition finish (len : nat) (limit : Z) (r : option (list Z * nat * nat * nat * list (list Z))) : option (list (list Z)) :=
  match r with
  | None => None
  | Some (buf1, current, bufferRead, counter, out) =>
    let end1 := current + bufferRead in
    if more limit counter then
      match end1 with
      | O => None
      | S e =>
        let '(buf2, end2) := if isEol (nth e buf1 0%Z) then (buf1, end1) else (setAt buf1 end1 10, S end1) in
        if Nat.leb end2 len then lastLoop (S end2) buf2 0 end2 current counter limit out else None
      end
    else Some out
  end.
Lemma fread_ok P Q n file : fread (P ++ Q) (length P) n file = (P ++ firstn n file ++ skipn (length (firstn n file)) Q, skipn n file, length (firstn n file)).
Proof.
  unfold fread. rewrite firstn_app_exact. do 4 f_equal. rewrite skipn_app. rewrite skipn_all2 by lia. cbn. f_equal. lia.
Qed.
Lemma list_last (l : list Z) : l <> [] -> exists a c, l = a ++ [c].
Proof. intros H. exists (removelast l), (last l 0%Z). now apply app_removelast_last. Qed.
Lemma readLoop_ok len : forall fuel P R ds, deliv len P R ds -> forall Q br counter limit acc, length (P ++ Q) = len -> length P < len ->
  ~ In 0%Z (P ++ R) -> length R < fuel ->
  finish len limit (readLoop fuel (P ++ Q) len (length P) br counter limit R acc) = Some (acc ++ limited limit counter ds).
Proof.
  induction fuel as [|fuel IH]; intros P R ds Hd Q br counter limit acc HQ HP N Hf; [lia|].
  cbn [readLoop]. destruct (more limit counter) eqn:M; [|cbn [finish]; rewrite M, (limited_no _ _ _ M), app_nil_r; reflexivity].
  rewrite fread_ok. destruct Hd as [P R line c T out Hl W F C H|P R out Hl HR HE H|P R out Hl HD HE H].
  - assert (LR : len - length P <= length R) by (rewrite app_length in Hl; lia).
    assert (L1 : length (firstn (len - length P) R) = len - length P) by (rewrite firstn_length; lia).
    rewrite L1, Nat.eqb_refl. replace (skipn (len - length P) Q) with (@nil BinNums.Z) by (symmetry; apply skipn_all2; rewrite app_length in HQ; lia).
    rewrite app_nil_r. assert (W' : P ++ firstn (len - length P) R = line ++ c :: T).
    { rewrite <- W. rewrite firstn_app. rewrite (firstn_all2 P) by lia. reflexivity. }
    rewrite W'. assert (Lw : length (line ++ c :: T) = len) by (rewrite <- W, firstn_length; lia).
    assert (N1 : ~ In 0%Z (line ++ c :: T)).
    { rewrite <- W. intros I. apply N. rewrite <- (firstn_skipn len (P ++ R)). apply in_or_app. now left. }
    destruct (returnNextLine_ok [] line c T [] F C) as (A' & E & L); [intros I; apply N1, in_or_app; now left|].
    cbn [app length Nat.add] in E, L. rewrite !app_nil_r in E. rewrite Lw in E, L. rewrite E.
    replace (len - length A') with (length (dropEol T)) by lia.
    unfold shiftLeft. rewrite skipn_app_exact, firstn_all.
    replace (skipn (len - length P) R) with (skipn len (P ++ R)) by (rewrite skipn_app, skipn_all2 by lia; reflexivity).
    destruct (dropEol_eols T) as (Es & HT & _).
    rewrite IH with (ds := out); auto.
    + rewrite <- app_assoc. now rewrite (limited_cons _ _ _ _ M).
    + rewrite app_length, skipn_length, app_length. lia.
    + apply (f_equal (@length BinNums.Z)) in HT. rewrite app_length in HT, Lw. cbn in Lw. lia.
    + intros I. apply in_app_or in I. destruct I as [I|I].
      * apply N1. apply in_or_app. right. right. rewrite HT. apply in_or_app. now right.
      * apply N. rewrite <- (firstn_skipn len (P ++ R)). apply in_or_app. now right.
    + rewrite skipn_length, app_length. lia.
  - rewrite app_length in Hl. rewrite (firstn_all2 R) by lia. destruct (Nat.eqb_spec (length R) (len - length P)) as [X|_]; [lia|].
    cbn [finish]. rewrite M. rewrite <- app_length. rewrite app_assoc.
    destruct HE as (a & c & E & C). rewrite E at 1. rewrite app_length, Nat.add_1_r. rewrite E at 1.
    rewrite <- app_assoc. replace (length a) with (length a + 0) at 1 by lia. rewrite nth_app_at. cbn [nth app]. apply isEol_iff in C. rewrite C.
    replace (S (length a)) with (length (P ++ R)) by (rewrite E, app_length, Nat.add_1_r; reflexivity).
    rewrite app_length at 1. destruct (Nat.leb_spec (length P + length R) len); [|lia].
    change 0 with (length (@nil BinNums.Z)) at 1. apply (lastLoop_ok (P ++ R) out H [] (skipn (length R) Q)); auto.
    + intros _. rewrite app_length. destruct R; [contradiction|cbn; lia].
    + cbn. lia.
  - rewrite app_length in Hl. rewrite (firstn_all2 R) by lia. destruct (Nat.eqb_spec (length R) (len - length P)) as [X|_]; [lia|].
    cbn [finish]. rewrite M. rewrite <- app_length. rewrite app_assoc.
    destruct (list_last (P ++ R) HD) as (a & c & E).
    assert (NC : isEol c = false) by (apply isEol_false; intros C; apply HE; exists a, c; auto).
    rewrite E at 1. rewrite app_length, Nat.add_1_r. rewrite E at 1.
    rewrite <- app_assoc. replace (length a) with (length a + 0) at 1 by lia. rewrite nth_app_at. cbn [nth app]. rewrite NC.
    replace (S (length a)) with (length (P ++ R)) by (rewrite E, app_length, Nat.add_1_r; reflexivity).
    assert (LQ : length (skipn (length R) Q) = len - length P - length R) by (rewrite skipn_length; rewrite app_length in HQ; lia).
    destruct (skipn (length R) Q) as [|q Q'] eqn:EQ; [cbn in LQ; lia|].
    rewrite setAt_app. destruct (Nat.leb_spec (S (length (P ++ R))) len) as [_|X]; [|rewrite app_length in X; lia].
    replace ((P ++ R) ++ 10%Z :: Q') with ([] ++ ((P ++ R) ++ [10%Z]) ++ Q') by (rewrite <- app_assoc; reflexivity).
    replace (S (length (P ++ R))) with (length (@nil BinNums.Z) + length ((P ++ R) ++ [10%Z])) by (rewrite app_length; cbn; lia).
    apply (lastLoop_ok _ out H); auto.
    + intros I. apply in_app_or in I. destruct I as [I|[I|[]]]; [contradiction|discriminate].
    + intros _. rewrite !app_length. cbn. lia.
    + intros Q0. destruct (P ++ R); discriminate.
Qed.

(* ---- everything is delivered ---- *)
Lemma dropEol_length T : length (dropEol T) <= length T.
Proof. destruct (dropEol_eols T) as (E & H & _). rewrite H at 2. rewrite app_length. lia. Qed.
Lemma endsInEol_app a b : b <> [] -> endsInEol (a ++ b) <-> endsInEol b.
Proof.
  intros N. split.
  - intros (x & c & E & C). destruct (list_last b N) as (y & d & ->). rewrite app_assoc in E. apply app_inj_tail in E. destruct E as (_ & ->). now exists y, c.
  - intros (x & c & -> & C). exists (a ++ x), c. split; [now rewrite app_assoc|exact C].
Qed.
Lemma endsInEol_fwd a b : b <> [] -> endsInEol (a ++ b) -> endsInEol b.
Proof. intros N. exact (proj1 (endsInEol_app a b N)). Qed.
Lemma endsInEol_bwd a b : b <> [] -> endsInEol b -> endsInEol (a ++ b).
Proof. intros N. exact (proj2 (endsInEol_app a b N)). Qed.
Lemma dropEol_eol T : endsInEol T -> dropEol T = [] \/ endsInEol (dropEol T).
Proof.
  intros H. destruct (dropEol_eols T) as (E & HT & _). destruct (dropEol T) as [|x d] eqn:X; [now left|]. right. rewrite HT in H. refine (endsInEol_fwd E _ _ H). discriminate.
Qed.
Lemma dropEol_noeol T : T <> [] -> ~ endsInEol T -> dropEol T <> [] /\ ~ endsInEol (dropEol T).
Proof.
  intros N H. destruct (dropEol_eols T) as (E & HT & FE). assert (X : dropEol T <> []).
  { intros X. rewrite X, app_nil_r in HT. destruct (list_last T N) as (a & c & ->). apply H. exists a, c. split; [reflexivity|]. rewrite <- HT in FE.
    apply Forall_app in FE. destruct FE as (_ & FE). now inversion FE. }
  split; [exact X|]. intros Y. apply H. rewrite HT. exact (endsInEol_bwd E _ X Y).
Qed.
Lemma endsInEol_dec l : endsInEol l \/ ~ endsInEol l.
Proof.
  destruct l as [|x l]; [right; intros (a & c & E & _); now destruct a|]. destruct (list_last (x :: l)) as (a & c & ->); [discriminate|].
  destruct (isEol c) eqn:E; [left; exists a, c; split; [reflexivity|now apply isEol_iff]|right].
  intros (a' & c' & E' & C). apply app_inj_tail in E'. destruct E' as (_ & <-). apply isEol_iff in C. congruence.
Qed.
Lemma fin_exists n : forall D, length D <= n -> (D = [] \/ endsInEol D) -> exists out, fin D out /\ nonEmpty out = lines D.
Proof.
  induction n as [|n IH]; intros D L H.
  - destruct D; [|cbn in L; lia]. exists []. split; [constructor|reflexivity].
  - destruct H as [-> | H]; [exists []; split; [constructor|reflexivity]|]. destruct (first_line D) as [F|(line & c & T & -> & F & C)].
    + destruct H as (a & c & -> & C). apply Forall_app in F. destruct F as (_ & F). inversion F; contradiction.
    + rewrite app_length in L. cbn in L. destruct (IH (dropEol T)) as (out & O & E).
      * pose proof (dropEol_length T). lia.
      * destruct T as [|x T]; [now left|]. apply dropEol_eol. refine (endsInEol_fwd (line ++ [c]) _ _ _); [discriminate|]. rewrite <- app_assoc. exact H.
      * exists (line :: out). split; [now constructor|]. rewrite lines_line by assumption. destruct (dropEol_eols T) as (Es & HT & FE).
        rewrite HT at 1. rewrite lines_eols by exact FE. rewrite <- E. destruct line; reflexivity.
Qed.
Lemma fits_suffix n a b : fits n (a ++ b) -> fits n b.
Proof. intros H x line y E F. apply (H (a ++ x) line y); [rewrite E; now rewrite <- app_assoc|exact F]. Qed.
Lemma deliv_exists len file : fits len file -> (unaligned len file \/ ~ endsInEol file) ->
  forall n a P R, length R <= n -> file = a ++ P ++ R -> (a = [] \/ exists a' c, a = a' ++ [c] /\ eol c) -> length P < len ->
    P ++ R <> [] -> (R = [] -> ~ endsInEol (P ++ R)) ->
    exists ds, deliv len P R ds /\ nonEmpty ds = lines (P ++ R).
Proof.
  intros Hfit Hu. induction n as [|n IH]; intros a P R L E Ha HP HD HR.
  - destruct R; [|cbn in L; lia]. rewrite app_nil_r in *. specialize (HR eq_refl).
    destruct (fin_exists (length (P ++ [10%Z])) (P ++ [10%Z]) ltac:(lia)) as (out & O & Q); [right; exists P, 10%Z; split; [reflexivity|now right]|].
    exists out. split; [|rewrite Q; apply lines_addEol]. apply d_noeol; rewrite ?app_nil_r; auto.
  - destruct (Nat.lt_ge_cases (length (P ++ R)) len) as [Hl|Hl].
    + destruct (endsInEol_dec (P ++ R)) as [X|X].
      * destruct (fin_exists (length (P ++ R)) (P ++ R) ltac:(lia)) as (out & O & Q); [now right|]. exists out. split; [|exact Q]. apply d_eol; auto. intros ->. now apply HR.
      * destruct (fin_exists (length ((P ++ R) ++ [10%Z])) ((P ++ R) ++ [10%Z]) ltac:(lia)) as (out & O & Q); [right; exists (P ++ R), 10%Z; split; [reflexivity|now right]|].
        exists out. split; [|rewrite Q; apply lines_addEol]. now apply d_noeol.
    + assert (Lw : length (firstn len (P ++ R)) = len) by (rewrite firstn_length; lia).
      destruct (first_line (firstn len (P ++ R))) as [F|(line & c & T & W & F & C)].
      { exfalso. pose proof (Hfit a (firstn len (P ++ R)) (skipn len (P ++ R))) as X. rewrite firstn_skipn in X. specialize (X E F). lia. }
      destruct (dropEol_eols T) as (Es & HT & FE).
      assert (ED : P ++ R = line ++ c :: Es ++ dropEol T ++ skipn len (P ++ R)).
      { rewrite <- (firstn_skipn len (P ++ R)) at 1. rewrite W. rewrite HT at 1. rewrite <- !app_assoc. cbn. now rewrite <- app_assoc. }
      assert (LR : skipn len (P ++ R) = [] -> ~ endsInEol (P ++ R) /\ T <> []).
      { intros X. assert (LL : length (P ++ R) = len) by (apply (f_equal (@length BinNums.Z)) in X; rewrite skipn_length in X; cbn in X; lia).
        destruct Hu as [Hu|Hu]; [exfalso; exact (Hu a (P ++ R) E Ha LL)|].
        assert (Y : ~ endsInEol (P ++ R)) by (intros Y; apply Hu; rewrite E; exact (endsInEol_bwd a _ HD Y)). split; [exact Y|].
        intros ->. apply Y. exists line, c. split; [|exact C]. rewrite <- (firstn_skipn len (P ++ R)), X, W. now rewrite app_nil_r. }
      assert (Y : skipn len (P ++ R) = [] -> dropEol T <> [] /\ ~ endsInEol (dropEol T)).
      { intros X. destruct (LR X) as (A & B). apply dropEol_noeol; [exact B|]. intros HE. apply A. rewrite <- (firstn_skipn len (P ++ R)), X, W, app_nil_r.
        apply endsInEol_bwd; [discriminate|]. exact (endsInEol_bwd [c] T B HE). }
      destruct (IH (a ++ line ++ c :: Es) (dropEol T) (skipn len (P ++ R))) as (ds & Hd & Q).
      * rewrite skipn_length, app_length. lia.
      * rewrite E. rewrite ED at 1. rewrite <- !app_assoc. cbn. reflexivity.
      * right. destruct (list_last (c :: Es)) as (y & d & EE); [discriminate|]. exists (a ++ line ++ y), d. split; [rewrite EE; now rewrite <- !app_assoc|].
        assert (FF : Forall eol (c :: Es)) by now constructor. rewrite EE in FF. apply Forall_app in FF. destruct FF as (_ & FF). now inversion FF.
      * pose proof (dropEol_length T). rewrite W, app_length in Lw. cbn in Lw. lia.
      * intros X. apply app_eq_nil in X. destruct X as (X1 & X2). exact (proj1 (Y X2) X1).
      * intros X. rewrite X, app_nil_r. exact (proj2 (Y X)).
      * exists (line :: ds). split; [eapply d_full; eassumption|]. rewrite ED, lines_line by assumption. rewrite lines_eols by exact FE. rewrite <- Q. destruct line; reflexivity.
Qed.

(* without empty lines *)
Lemma single_suffix a c T : singleEols (a ++ c :: T) -> eol c -> singleEols T /\ dropEol T = T.
Proof.
  intros (H1 & H2) C. assert (S : singleEols T).
  { split; [|intros x d e y E; apply (H2 (a ++ c :: x) d e y); rewrite E, <- app_assoc; reflexivity].
    intros d b -> D. exact (H2 a c d b eq_refl C D). }
  split; [exact S|]. destruct T as [|d T]; [reflexivity|]. cbn. destruct (isEol d) eqn:X; [|reflexivity]. apply isEol_iff in X. exfalso. exact (proj1 S d T eq_refl X).
Qed.
Lemma fin_single D out : fin D out -> singleEols D -> nonEmpty out = out.
Proof.
  induction 1 as [|line c T out F C H IH]; intros S; [reflexivity|]. destruct (single_suffix line c T S C) as (S' & E). rewrite E in IH.
  destruct line as [|x line]; [exfalso; exact (proj1 S c T eq_refl C)|]. change (nonEmpty ((x :: line) :: out)) with ((x :: line) :: nonEmpty out). now rewrite IH.
Qed.
Lemma single_addEol D : singleEols D -> ~ endsInEol D -> D <> [] -> singleEols (D ++ [10%Z]).
Proof.
  intros (H1 & H2) N ND. split.
  - intros c b E. destruct D as [|x D]; [contradiction|]. cbn in E. injection E as -> _. now apply (H1 c D).
  - intros a c d b E C. destruct b as [|y b].
    + replace (a ++ [c; d]) with ((a ++ [c]) ++ [d]) in E by (rewrite <- app_assoc; reflexivity). apply app_inj_tail in E. destruct E as (E & _). exfalso. apply N. now exists a, c.
    + destruct (list_last (y :: b)) as (z & e & E2); [discriminate|]. rewrite E2 in E.
      replace (a ++ c :: d :: z ++ [e]) with ((a ++ c :: d :: z) ++ [e]) in E by (rewrite <- app_assoc; reflexivity). apply app_inj_tail in E. destruct E as (E & _). exact (H2 a c d z E C).
Qed.
Lemma deliv_single len P R ds : deliv len P R ds -> singleEols (P ++ R) -> nonEmpty ds = ds.
Proof.
  induction 1 as [P R line c T out Hl W F C H IH|P R out Hl HR HE H|P R out Hl HD HE H]; intros S.
  - assert (E : P ++ R = line ++ c :: T ++ skipn len (P ++ R)) by (rewrite <- (firstn_skipn len (P ++ R)) at 1; rewrite W, <- app_assoc; reflexivity).
    rewrite E in S. destruct (single_suffix _ _ _ S C) as (S' & E2).
    assert (ET : dropEol T = T). { destruct T as [|d T]; [reflexivity|]. cbn in E2 |- *. destruct (isEol d) eqn:X; [|reflexivity]. apply isEol_iff in X. exfalso. exact (proj1 S' d _ eq_refl X). }
    rewrite ET in IH. destruct line as [|x line]; [exfalso; exact (proj1 S c _ eq_refl C)|]. change (nonEmpty ((x :: line) :: out)) with ((x :: line) :: nonEmpty out). now rewrite (IH S').
  - now apply (fin_single (P ++ R)).
  - eapply fin_single; [exact H|]. now apply single_addEol.
Qed.
