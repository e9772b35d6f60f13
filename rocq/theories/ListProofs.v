(* Proofs about list.c and data.c *)
From Verif Require Export ListSpec.

Lemma set_nth {A} (l : list A) : forall i x j, nth_error (set i x l) j = if Nat.eqb i j then (if Nat.ltb i (length l) then Some x else None) else nth_error l j.
Proof.
  induction l as [|y l IH]; intros i x j; cbn [set length].
  - destruct (Nat.eqb_spec i j) as [->|]; [|destruct i; reflexivity]. destruct j; reflexivity.
  - destruct i as [|i]; destruct j as [|j]; cbn [nth_error Nat.eqb]; try reflexivity.
    change (S i <? S (length l)) with (i <? length l). apply IH.
Qed.
Lemma set_len {A} (l : list A) : forall i x, length (set i x l) = length l.
Proof. induction l as [|y l IH]; intros [|i] x; cbn; auto. Qed.
Lemma set_set {A} (l : list A) : forall i x y, set i x (set i y l) = set i x l.
Proof. induction l as [|z l IH]; intros [|i] x y; cbn; auto. now rewrite IH. Qed.
Lemma set_app_mid {A} (a : list A) x y b : set (length a) x (a ++ y :: b) = a ++ x :: b.
Proof. induction a as [|z a IH]; cbn; [reflexivity|now rewrite IH]. Qed.
Lemma set_last {A} (a : list A) x y : set (length a) x (a ++ [y]) = a ++ [x].
Proof. apply set_app_mid. Qed.

Lemma live_app {A} (a b : list (option A)) : liveBlocks (a ++ b) = liveBlocks a ++ liveBlocks b.
Proof. apply flat_map_app. Qed.

(* the model stands for the abstract list *)
Definition stands (s : state) (w : World) : Prop :=
  match s with
  | Closed => items (list_ w) = None /\ count (list_ w) = 0%Z /\ liveBlocks (blocks w) = []
  | Open c held =>
    exists b cells rest, items (list_ w) = Some b /\ nth_error (blocks w) b = Some (Some cells) /\ cells = map Some held ++ rest /\
      length cells = Z.to_nat c /\ capacity (list_ w) = c /\ (0 <= c < 2 ^ 32)%Z /\ count (list_ w) = Z.of_nat (length held) /\ liveBlocks (set b None (blocks w)) = [] /\
      Forall (fun x => collection x <> None) held
  end.

Lemma array_open w b cells : items (list_ w) = Some b -> nth_error (blocks w) b = Some (Some cells) -> array w = Some (b, cells).
Proof. intros E N. unfold array. now rewrite E, N. Qed.

Lemma nth_lt {A} (l : list A) i x : nth_error l i = Some x -> (i <? length l)%nat = true.
Proof. intros E. apply Nat.ltb_lt. apply nth_error_Some. congruence. Qed.

Lemma releaseLoop_ok held : forall w b front rest, items (list_ w) = Some b -> nth_error (blocks w) b = Some (Some (front ++ map Some held ++ rest)) ->
  Forall (fun x => collection x <> None) held ->
  exists cells, releaseLoop (length held) (length front) w = Some (mkWorld (list_ w) (set b (Some cells) (blocks w)) (released w ++ held)) /\ length cells = length (front ++ map Some held ++ rest).
Proof.
  induction held as [|x held IH]; intros w b front rest E N F.
  - exists (front ++ rest). cbn. rewrite app_nil_r. split; [|reflexivity]. destruct w as [l bs r]. cbn in *. f_equal. f_equal.
    clear -N. revert b N. induction bs as [|y bs IH]; intros [|b] N; cbn in *; try discriminate N. { now injection N as ->. } f_equal. now apply IH.
  - inversion_clear F as [|? ? C F']. cbn [length releaseLoop]. rewrite (array_open w b _ E N).
    rewrite nth_error_app2 by lia. rewrite Nat.sub_diag. cbn [map app nth_error]. destruct (collection x) as [cx|]; [|congruence].
    rewrite set_app_mid.
    set (w1 := mkWorld _ _ _). destruct (IH w1 b (front ++ [None]) rest) as (cells & R & L).
    + exact E.
    + unfold w1. cbn [blocks]. rewrite set_nth, Nat.eqb_refl, (nth_lt _ _ _ N). f_equal. f_equal. rewrite <- app_assoc. reflexivity.
    + exact F'.
    + rewrite app_length in R. cbn [length] in R. rewrite Nat.add_1_r in R. exists cells. rewrite R. unfold w1. cbn [list_ blocks released]. rewrite set_set, <- app_assoc. split; [reflexivity|].
      rewrite L. rewrite !app_length. cbn. rewrite !app_length. lia.
Qed.

Lemma release_open w c held : stands (Open c held) w -> exists w', ListRelease w = Some w' /\ released w' = released w ++ held /\ stands (Open c []) w'.
Proof.
  intros (b & cells & rest & E & N & EC & L & K & C & T & V & F). unfold ListRelease. rewrite T, Nat2Z.id. subst cells.
  destruct (releaseLoop_ok held w b [] rest E N F) as (cells & R & L2). cbn [length app] in *. rewrite R. cbn [option_map list_ blocks released items capacity count].
  eexists. split; [reflexivity|]. split; [reflexivity|]. exists b, cells, cells. cbn [list_ items capacity count blocks length map app].
  split; [exact E|]. split. { rewrite set_nth, Nat.eqb_refl, (nth_lt _ _ _ N). reflexivity. }
  split; [reflexivity|]. split; [rewrite L2; exact L|]. split; [exact K|]. split; [exact C|]. split; [reflexivity|]. split; [rewrite set_set; exact V|constructor].
Qed.

Lemma step_ok s o s1 rel res w : uses s o s1 rel res -> stands s w ->
  exists w', perform o w = Some (res, w') /\ released w' = released w ++ rel /\ stands s1 w'.
Proof.
  intros U ST. destruct U as [c C|c held x C K|c held i x I N| | |c held| |c held].
  - destruct ST as (E & T & V). cbn [perform ListInit]. eexists. split; [reflexivity|]. split; [cbn; now rewrite app_nil_r|].
    exists (length (blocks w)), (repeat None (Z.to_nat c)), (repeat None (Z.to_nat c)). cbn [list_ items capacity count blocks].
    split; [reflexivity|]. split. { rewrite nth_error_app2 by lia. now rewrite Nat.sub_diag. }
    split; [reflexivity|]. split; [apply repeat_length|]. split; [reflexivity|]. split; [exact C|]. split; [reflexivity|]. split; [|constructor].
    rewrite set_last, live_app, V. reflexivity.
  - destruct ST as (b & cells & rest & E & N & EC & L & Cp & Cr & T & V & F). cbn [perform]. unfold ListAdd. rewrite T, Cp.
    destruct (Z.ltb_spec (Z.of_nat (length held)) c) as [Hc|]; [|lia]. destruct (collection x) as [cx|] eqn:CX; [|congruence].
    rewrite (array_open w b _ E N), Nat2Z.id. assert (LT : length held < length cells) by (rewrite L; lia).
    apply Nat.ltb_lt in LT as LTb. rewrite LTb. cbn [option_map]. eexists. split; [reflexivity|]. cbn [released]. split; [now rewrite app_nil_r|].
    destruct rest as [|r rest]. { rewrite EC, app_nil_r, map_length in LT. lia. }
    exists b, (map Some (held ++ [x]) ++ rest), rest. cbn [list_ items capacity count blocks].
    split; [exact E|]. split.
    { rewrite set_nth, Nat.eqb_refl, (nth_lt _ _ _ N), EC. f_equal. f_equal. rewrite <- (map_length Some held) at 1. rewrite set_app_mid, map_app, <- app_assoc. reflexivity. }
    split; [reflexivity|]. split. { rewrite <- L, EC, !app_length, !map_length, app_length. cbn. lia. }
    split; [reflexivity|]. split; [exact Cr|]. split. { rewrite app_length. cbn [length]. rewrite Z.mod_small by lia. lia. }
    split; [rewrite set_set; exact V|]. apply Forall_app. split; [exact F|]. constructor; [congruence|constructor].
  - cbn [perform]. destruct ST as (b & cells & rest & E & N' & EC & L & Cp & Cr & T & V & F). unfold ListGetAsString.
    rewrite (array_open w b _ E N'). destruct (Z.ltb_spec i 0); [lia|]. rewrite EC, nth_error_app1.
    + rewrite (map_nth_error Some _ _ N). cbn [option_map]. eexists. split; [reflexivity|]. split; [now rewrite app_nil_r|].
      exists b, cells, rest. repeat (split; try assumption).
    + rewrite map_length. apply nth_error_Some. congruence.
  - destruct ST as (E & T & V). cbn [perform]. eexists. split; [reflexivity|]. split; [cbn; now rewrite app_nil_r|]. cbn. auto.
  - destruct ST as (E & T & V). cbn [perform]. unfold ListRelease. rewrite T. cbn. eexists. split; [reflexivity|]. split; [cbn; now rewrite app_nil_r|]. cbn. auto.
  - destruct (release_open w c held ST) as (w' & R & RL & ST'). cbn [perform]. rewrite R. cbn. eexists. split; [reflexivity|]. split; assumption.
  - destruct ST as (E & T & V). cbn [perform]. unfold ListFree, ListRelease. rewrite T. cbn. rewrite E. cbn. eexists. split; [reflexivity|]. split; [cbn; now rewrite app_nil_r|]. cbn. auto.
  - destruct (release_open w c held ST) as (w' & R & RL & ST'). cbn [perform]. unfold ListFree. rewrite R.
    destruct ST' as (b & cells & rest & E & N & EC & L & Cp & Cr & T & V & F). rewrite E, N. cbn. eexists. split; [reflexivity|]. split; [exact RL|]. cbn. auto.
Qed.

Lemma steps_ok s ops s1 rels ress : usesAll s ops s1 rels ress -> forall w, stands s w ->
  exists w', performAll ops w = Some (ress, w') /\ released w' = released w ++ rels /\ stands s1 w'.
Proof.
  induction 1 as [s|s o s1 rel res ops s2 rels ress U R IH]; intros w ST.
  - exists w. cbn. rewrite app_nil_r. auto.
  - destruct (step_ok _ _ _ _ _ _ U ST) as (w1 & P & R1 & S1). destruct (IH w1 S1) as (w2 & P2 & R2 & S2).
    exists w2. cbn [performAll]. rewrite P, P2. split; [reflexivity|]. split; [rewrite R2, R1, app_assoc; reflexivity|exact S2].
Qed.

Lemma uses_added s ops s1 rels ress : usesAll s ops s1 rels ress -> rels ++ heldBy s1 = heldBy s ++ added ops.
Proof.
  induction 1 as [s|s o s1 rel res ops s2 rels ress U R IH].
  - cbn. now rewrite app_nil_r.
  - rewrite <- app_assoc, IH. unfold added. cbn [flat_map]. destruct U; cbn [heldBy app]; rewrite ?app_nil_r, <- ?app_assoc; reflexivity.
Qed.

(* data *)
Definition owns (s : Data * list (option Z)) : Prop :=
  (allocated (fst s) = 0%Z /\ ptr (fst s) = None /\ liveBlocks (snd s) = []) \/
  (exists b, (0 < allocated (fst s))%Z /\ ptr (fst s) = Some b /\ nth_error (snd s) b = Some (Some (allocated (fst s))) /\ liveBlocks (set b None (snd s)) = []).

Lemma live_one (l : list (option Z)) : forall b n, nth_error l b = Some (Some n) -> liveBlocks (set b None l) = [] -> liveBlocks l = [n].
Proof.
  induction l as [|y l IH]; intros [|b] n N V; cbn in *; try discriminate N.
  - injection N as ->. cbn. unfold liveBlocks in V. cbn in V. now rewrite V.
  - unfold liveBlocks in V |- *. cbn in V |- *. destruct y; [discriminate V|]. exact (IH b n N V).
Qed.

Lemma malloc_ok ok n s : owns s -> (0 < n < 2 ^ 32)%Z ->
  exists p s', DataMalloc ok n s = Some (p, s') /\ owns s' /\
    match p with
    | Some b => exists size, nth_error (snd s') b = Some (Some size) /\ (n <= size)%Z /\ liveBlocks (snd s') = [size] /\ ptr (fst s') = Some b
    | None => ok = false /\ liveBlocks (snd s') = []
    end.
Proof.
  destruct s as (d, bl). intros O Hn. unfold DataMalloc.
  assert (Fresh : forall bl' u, liveBlocks bl' = [] ->
    exists p s', (if ok then Some (Some (length bl'), (mkData (Some (length bl')) (n mod 2 ^ 32) u, bl' ++ [Some n])) else Some (None, (mkData None 0 u, bl'))) = Some (p, s') /\ owns s' /\
    match p with
    | Some b => exists size, nth_error (snd s') b = Some (Some size) /\ (n <= size)%Z /\ liveBlocks (snd s') = [size] /\ ptr (fst s') = Some b
    | None => ok = false /\ liveBlocks (snd s') = []
    end).
  { intros bl' u V. rewrite Z.mod_small by lia. destruct ok.
    - do 2 eexists. split; [reflexivity|]. cbn [fst snd ptr allocated]. split.
      + right. exists (length bl'). cbn [fst snd ptr allocated]. split; [lia|]. split; [reflexivity|]. split; [rewrite nth_error_app2, Nat.sub_diag by lia; reflexivity|].
        rewrite set_last, live_app, V. reflexivity.
      + exists n. split; [rewrite nth_error_app2, Nat.sub_diag by lia; reflexivity|]. split; [lia|]. split; [|reflexivity]. rewrite live_app, V. reflexivity.
    - do 2 eexists. split; [reflexivity|]. cbn [fst snd ptr allocated]. split; [|auto]. left. auto. }
  destruct O as [(A & P & V)|(b & A & P & N & V)]; cbn [fst snd] in *.
  - rewrite A. cbn [andb Z.ltb Z.compare Z.eqb]. rewrite A. cbn [Z.eqb]. apply Fresh. exact V.
  - destruct (Z.ltb_spec 0 (allocated d)); [|lia]. cbn [andb]. destruct (Z.ltb_spec (allocated d) n) as [Lt|Ge].
    + rewrite P. cbn [Free]. rewrite N. cbn [option_map allocated Z.eqb used]. apply Fresh. exact V.
    + destruct (Z.eqb_spec (allocated d) 0); [lia|]. do 2 eexists. split; [reflexivity|]. split; [right; exists b; auto|]. rewrite P.
      exists (allocated d). cbn [fst snd]. split; [exact N|]. split; [exact Ge|]. split; [|exact P]. exact (live_one _ _ _ N V).
Qed.
