(* Gets that overlap have the effects of gets that do not *)
From Verif Require Import TreeModel CacheModel CacheSpec CollectionModel CollectionSpec ProfileModel DbModel DbSpec.
From Verif Require ItemModel.
From Verif Require Import CallsModel CallsSpec.
From Verif Require Import ThreadsModel ThreadsSpec ThreadsProofs OverlapModel OverlapSpec.
Local Open Scope Z_scope.

(* a world with more free file handles *)
Definition more (r : nat) (w : world) : world := mkWorld (colls w) (heap w) (r + handles w) (ios w).
Definition moreIn (r : nat) (st : state) : state := mkState (more r (shared st)) (threads st).
(* the state in which the gets that read have not begun *)
Definition before (os : ostate) : state := moreIn (length (reading os)) (inner os).

Lemma more_drop r w : dropIo (more r w) = more r (dropIo w).
Proof. reflexivity. Qed.
Lemma more_io r w : (0 < handles w)%nat -> nextIo (more r w) = nextIo w.
Proof. unfold nextIo, more. cbn [handles ios]. intros H. destruct (handles w) as [|h]; [lia|]. now rewrite Nat.add_succ_r. Qed.
Lemma more_lose r b w : (0 < handles w)%nat -> loseHandle b (more r w) = more r (loseHandle b w).
Proof. intros H. unfold loseHandle, more. cbn [colls heap handles ios]. destruct b; [|reflexivity]. f_equal. lia. Qed.
Definition liftGet (r : nat) (x : option (option (list Z) * bool * item * world)) : option (option (list Z) * bool * item * world) :=
  match x with Some (b, ok, it, w) => Some (b, ok, it, more r w) | None => None end.
Lemma get_more file fuel r s i okay it w : (0 < handles w)%nat -> CallsModel.get file fuel s i okay it (more r w) = liftGet r (CallsModel.get file fuel s i okay it w).
Proof.
  intros H. unfold CallsModel.get. destruct okay.
  - unfold getClear. rewrite (more_io r w H), more_drop. change (colls (more r w) s) with (colls w s).
    destruct (serving (colls w s) i) as [ci b|ci st|ci st cc|ci b nx].
    + destruct (collGet file (kindOf s) (fuel s) (colls w s) (nextIo w) i) as [(e, c')|]; [|reflexivity]. destruct e as [? ? ?|? ? ?|?]; reflexivity.
    + change (heap (more r (dropIo w))) with (heap (dropIo w)).
      set (f := if io_eqb (nextIo w) IoMemory && _ then IoOk else nextIo w).
      destruct (collGet file (kindOf s) (fuel s) (colls w s) f i) as [(e, c')|]; [|reflexivity].
      destruct (ItemModel.getFile (heap (dropIo w)) (ItemModel.mkItem (idata it) None) (wayOf file (kindOf s) st ci f i)) as [((m, it'), [p|])|]; destruct e as [? ? ?|? ? ?|?]; reflexivity.
    + destruct (collGet file (kindOf s) (fuel s) (colls w s) (nextIo w) i) as [(e, c')|]; [|reflexivity].
      destruct e as [? ? [n|]|? [st1|] [n|]|?]; reflexivity.
    + destruct (collGet file (kindOf s) (fuel s) (colls w s) (nextIo w) i) as [(e, c')|]; [|reflexivity]. destruct e as [? ? ?|? ? ?|?]; reflexivity.
  - unfold getSet. rewrite more_drop. change (colls (more r w) s) with (colls w s).
    assert (0 < handles (dropIo w))%nat as Hd by exact H.
    destruct (serving (colls w s) i) as [ci b|ci st|ci st cc|ci b nx].
    + destruct (getMemory ci b i); reflexivity.
    + cbn [liftGet]. now rewrite (more_lose r _ (dropIo w) Hd).
    + destruct (getFailing (kindOf s) (fuel s) (colls w s) i) as [(lost, c')|]; [|reflexivity]. cbn [liftGet]. rewrite <- (more_lose r lost (setColl (dropIo w) s c') Hd). reflexivity.
    + destruct (getMemory ci b i); reflexivity.
Qed.
Definition liftRelease (r : nat) (x : option (item * world)) : option (item * world) := match x with Some (it, w) => Some (it, more r w) | None => None end.
Lemma with_more m it r w : releaseWith m it (more r w) = liftRelease r (releaseWith m it w).
Proof.
  unfold releaseWith. destruct m, (ihandle it) as [| |p|x n]; try reflexivity.
  - change (heap (more r w)) with (heap w). destruct (ItemModel.free (heap w) p); reflexivity.
  - change (colls (more r w) x) with (colls w x). destruct (collRelease (colls w x) n); reflexivity.
Qed.
Lemma release_more r s it w : releaseIn s it (more r w) = liftRelease r (releaseIn s it w).
Proof.
  unfold releaseIn. change (methodIn (more r w) s) with (methodIn w s). unfold release. destruct (methodIn w s); try apply with_more.
  destruct (ihandle it), (icoll it) as [[[]|]|]; try reflexivity; apply with_more.
Qed.
Definition liftStep (r : nat) (x : option (state * list event)) : option (state * list event) := match x with Some (st, e) => Some (moreIn r st, e) | None => None end.
(* the thread is at a get *)
Definition getting (st : state) (t : nat) : bool :=
  match nth_error (threads st) t with Some th => match running th with Some (_, GetIt _ _ _ _ _) => true | _ => false end | None => false end.
Lemma step_more file fuel cmp r t a st : (getting st t = true -> 0 < handles (shared st))%nat -> step file fuel cmp t a (moreIn r st) = liftStep r (step file fuel cmp t a st).
Proof.
  unfold getting, step. change (threads (moreIn r st)) with (threads st). change (shared (moreIn r st)) with (more r (shared st)).
  destruct (nth_error (threads st) t) as [th|]; [|reflexivity]. intros H.
  destruct a as [q| |k]; destruct (running th) as [(q', p)|]; try reflexivity.
  - destruct p as [x| |s i okay it kk|s it kk|s kk]; try reflexivity; cbn [stepProg].
    + rewrite (get_more file fuel r s i okay it (shared st) (H eq_refl)). destruct (CallsModel.get file fuel s i okay it (shared st)) as [(((b, ok), it'), w')|]; reflexivity.
    + rewrite (release_more r s it (shared st)). destruct (releaseIn s it (shared st)) as [(it', w')|]; reflexivity.
  - destruct (nth_error (items th) k) as [(s, it)|]; [|reflexivity]. rewrite (release_more r s it (shared st)). destruct (releaseIn s it (shared st)) as [(it', w')|]; reflexivity.
Qed.

(* ---- lists of threads ---- *)
Lemma reading_in t r : isReading t r = true <-> In t (map fst r).
Proof.
  unfold isReading. rewrite existsb_exists, in_map_iff. split; intros (x & A & B).
  - apply Nat.eqb_eq in B. eauto.
  - exists x. split; [exact B|]. now apply Nat.eqb_eq.
Qed.
Lemma finished_in t r x : In x (finished t r) <-> In x r /\ fst x <> t.
Proof. unfold finished. rewrite filter_In. split; intros (A & B); split; auto; [apply Bool.negb_true_iff, Nat.eqb_neq in B; exact B|now apply Bool.negb_true_iff, Nat.eqb_neq]. Qed.
Lemma finished_none t r : ~ In t (map fst r) -> finished t r = r.
Proof.
  unfold finished. induction r as [|(x, l) r IH]; intros H; [reflexivity|]. cbn [filter map fst In] in *. destruct (Nat.eqb_spec x t) as [E|E]; [exfalso; auto|]. cbn [negb]. f_equal. apply IH. auto.
Qed.
Lemma finished_length t r : NoDup (map fst r) -> In t (map fst r) -> length r = S (length (finished t r)).
Proof.
  induction r as [|(x, l) r IH]; intros N H; [destruct H|]. cbn [map fst] in *. inversion N; subst. unfold finished. cbn [filter fst]. destruct (Nat.eqb_spec x t) as [E|E]; cbn [negb length].
  - subst. fold (finished t r). now rewrite finished_none.
  - fold (finished t r). f_equal. apply IH; [assumption|]. destruct H; [contradiction|assumption].
Qed.
Lemma finished_nodup t r : NoDup (map fst r) -> NoDup (map fst (finished t r)).
Proof.
  induction r as [|(x, l) r IH]; intros N; [constructor|]. cbn [map fst] in N. inversion N; subst. unfold finished. cbn [filter fst]. destruct (Nat.eqb_spec x t) as [E|E]; cbn [negb map fst]; [apply IH; assumption|].
  constructor; [|apply IH; assumption]. intros X. apply in_map_iff in X. destruct X as (y & <- & Y). apply finished_in in Y. apply H1. apply in_map. apply Y.
Qed.
Lemma held_in l r : isHeld l r = true <-> exists m t, l = Some m /\ In (t, Some m) r.
Proof.
  unfold isHeld. destruct l as [m|].
  - rewrite existsb_exists. split.
    + intros ((t, [n|]) & A & B); [|discriminate]. exists m, t. split; [reflexivity|]. cbn [snd] in B. unfold lock_eqb in B. apply Bool.andb_true_iff in B. destruct B as (B1 & B2). apply Nat.eqb_eq in B2. destruct m as (a, b), n as (c, e). cbn [fst snd] in *. subst. destruct a, c; try discriminate; exact A.
    + intros (x & t & E & H). injection E as <-. exists (t, Some m). split; [exact H|]. cbn [snd]. unfold lock_eqb. rewrite Nat.eqb_refl. destruct m as ([], b); reflexivity.
  - split; [discriminate|]. intros (m & t & E & _). discriminate.
Qed.
Definition active (th : thread) : nat := match running th with Some _ => 1%nat | None => O end.
Lemma calls_ge (ths : list thread) : forall l, NoDup l -> (forall t, In t l -> exists th, nth_error ths t = Some th /\ running th <> None) -> (length l <= list_sum (map active ths))%nat.
Proof.
  intros l N H. assert (length (filter (fun t => match nth_error ths t with Some th => Nat.eqb (active th) 1 | None => false end) (seq 0 (length ths))) = list_sum (map active ths)) as E.
  { clear. induction ths as [|th ths IH] using rev_ind; [reflexivity|]. rewrite app_length. cbn [length]. rewrite Nat.add_1_r, seq_S, filter_app, app_length, map_app, list_sum_app. cbn [map list_sum fold_right]. rewrite <- IH. f_equal.
    - f_equal. apply filter_ext_in. intros t Ht. apply in_seq in Ht. rewrite nth_error_app1 by lia. reflexivity.
    - cbn [filter]. rewrite Nat.add_0_l. rewrite nth_error_app2, Nat.sub_diag by lia. cbn [nth_error]. unfold active, list_sum. cbn [fold_right]. destruct (running th); reflexivity. }
  rewrite <- E. apply NoDup_incl_length; [exact N|]. intros t Ht. destruct (H t Ht) as (th & E1 & E2). apply filter_In. split.
  - apply in_seq. assert (t < length ths)%nat by (apply nth_error_Some; congruence). lia.
  - rewrite E1. unfold active. destruct (running th); [reflexivity|congruence].
Qed.

Section Run.
  Context (file : list Z) (d : db) (u : uses) (cmp : list Z -> list Z -> Z) (cap limit count : nat) (w0 : world).
  Notation ostep := (ostep file (fuelOf u) cmp).
  Notation step := (step file (fuelOf u) cmp).
  Notation exec := (ThreadsSpec.exec file d u cmp cap count w0).
  Notation oexec := (oexec file d u cmp cap limit count w0).

  (* who reads is at a get, with its mutex *)
  Record OI (os : ostate) : Prop := mkOI {
    oi_nodup : NoDup (map fst (reading os));
    oi_get : forall t l, In (t, l) (reading os) -> getting (inner os) t = true;
    oi_calls : (inCalls (inner os) <= handles w0)%nat;
    oi_all : (length (reading os) + handles (shared (inner os)) = handles w0)%nat }.
  Lemma getting_running st t : getting st t = true -> exists th, nth_error (threads st) t = Some th /\ running th <> None.
  Proof using Type. unfold getting. destruct (nth_error (threads st) t) as [th|]; [|discriminate]. intros H. exists th. split; [reflexivity|]. destruct (running th); [discriminate|discriminate H]. Qed.
  (* a thread that is to begin a get finds a handle *)
  Lemma handle_there os t : OI os -> getting (inner os) t = true -> ~ In t (map fst (reading os)) -> (0 < handles (shared (inner os)))%nat.
  Proof using Type.
    intros [N G C A] H X. assert (length (t :: map fst (reading os)) <= inCalls (inner os))%nat as L.
    { unfold inCalls. apply (calls_ge (threads (inner os))); [now constructor|]. intros x [<-|Hx]; [exact (getting_running _ _ H)|]. apply in_map_iff in Hx. destruct Hx as ((y, l) & E & Hy). cbn [fst] in E. subst. exact (getting_running _ _ (G _ _ Hy)). }
    cbn [length] in L. rewrite map_length in L. lia.
  Qed.
  Lemma before_give os t : OI os -> In t (map fst (reading os)) -> before os = moreIn (length (finished t (reading os))) (mkState (giveHandle (shared (inner os))) (threads (inner os))).
  Proof using Type.
    intros H X. unfold before, moreIn, more, giveHandle. cbn [shared threads colls heap handles ios]. rewrite (finished_length t (reading os) (oi_nodup _ H) X). f_equal. f_equal. lia.
  Qed.

  Lemma step_calls t a st st' e : step t a st = Some (st', e) -> (inCalls st' <= inCalls st + match a with Call _ => 1 | _ => 0 end)%nat.
  Proof using Type.
    unfold ThreadsModel.step. destruct (nth_error (threads st) t) as [th|] eqn:E; [|discriminate].
    assert (forall w x, (active x <= active th + match a with Call _ => 1 | _ => 0 end)%nat -> (inCalls (mkState w (setThread t x (threads st))) <= inCalls st + match a with Call _ => 1 | _ => 0 end)%nat) as X.
    { intros w x Hx. unfold inCalls, setThread. cbn [threads]. fold active. rewrite (split_at t (threads st) th E) at 3. rewrite !map_app, !list_sum_app. cbn [map]. unfold list_sum. cbn [fold_right]. fold (active x). fold (active th). lia. }
    unfold active in X. destruct a as [q| |k]; destruct (running th) as [(q', p)|] eqn:Er; try discriminate.
    - intros H. injection H as <- _. apply X. cbn [running]. lia.
    - destruct p as [r| |s i okay it kk|s it kk|s kk]; cbn [stepProg]; try discriminate; [intros H; injection H as <- _; apply X; cbn [running]; lia|..].
      + destruct (CallsModel.get file (fuelOf u) s i okay it (shared st)) as [(((b, ok), it'), w)|]; [|discriminate]. intros H; injection H as <- _; apply X; cbn [running]; lia.
      + destruct (releaseIn s it (shared st)) as [(it', w)|]; [|discriminate]. intros H; injection H as <- _; apply X; cbn [running]; lia.
      + intros H; injection H as <- _; apply X; cbn [running]; lia.
    - destruct (nth_error (items th) k) as [(s, it)|]; [|discriminate]. destruct (releaseIn s it (shared st)) as [(it', w)|]; [|discriminate]. intros H; injection H as <- _; apply X; cbn [running]; lia.
  Qed.
  Lemma step_others t a st st' e x : step t a st = Some (st', e) -> x <> t -> nth_error (threads st') x = nth_error (threads st) x.
  Proof using Type.
    unfold ThreadsModel.step. destruct (nth_error (threads st) t) as [th|] eqn:E; [|discriminate]. assert (t < length (threads st))%nat as Lt by (apply nth_error_Some; congruence). intros H Hx.
    assert (forall w y, nth_error (threads (mkState w (setThread t y (threads st)))) x = nth_error (threads st) x) as X.
    { intros w y. cbn [threads]. change setThread with (@setAt thread). rewrite (setAt_nth t y (threads st) x Lt). destruct (Nat.eqb_spec x t); [contradiction|reflexivity]. }
    destruct a as [q| |k]; destruct (running th) as [(q', p)|] eqn:Er; try discriminate.
    - injection H as <- _. apply X.
    - destruct p as [r| |s i okay it kk|s it kk|s kk]; cbn [stepProg] in H; try discriminate; [injection H as <- _; apply X|..].
      + destruct (CallsModel.get file (fuelOf u) s i okay it (shared st)) as [(((b, ok), it'), w)|]; [|discriminate]. injection H as <- _; apply X.
      + destruct (releaseIn s it (shared st)) as [(it', w)|]; [|discriminate]. injection H as <- _; apply X.
      + injection H as <- _; apply X.
    - destruct (nth_error (items th) k) as [(s, it)|]; [|discriminate]. destruct (releaseIn s it (shared st)) as [(it', w)|]; [|discriminate]. injection H as <- _; apply X.
  Qed.
  Lemma getting_same st st' t : nth_error (threads st') t = nth_error (threads st) t -> getting st' t = getting st t.
  Proof using Type. unfold getting. now intros ->. Qed.

  (* a step is the start of a read, or one of ThreadsModel.v *)
  Inductive kindOfStep (t : nat) (a : action) (os os' : ostate) (e : list event) : Prop :=
  | begins l : a = Go -> e = [] -> ~ In t (map fst (reading os)) -> getting (inner os) t = true -> (0 < handles (shared (inner os)))%nat ->
      (exists s i, atGet os t s i /\ l = lockOfGet (shared (inner os)) s i /\ isHeld l (reading os) = false /\ willRead (kindOf s) (fuelOf u s) (colls (shared (inner os)) s) i = true) ->
      os' = mkO (mkState (takeHandle (shared (inner os))) (threads (inner os))) ((t, l) :: reading os) -> kindOfStep t a os os' e
  | ends st' : a = Go -> In t (map fst (reading os)) -> step t a (mkState (giveHandle (shared (inner os))) (threads (inner os))) = Some (st', e) -> os' = mkO st' (finished t (reading os)) -> kindOfStep t a os os' e
  | once st' : (getting (inner os) t = true -> ~ In t (map fst (reading os)) \/ a <> Go) -> step t a (inner os) = Some (st', e) -> os' = mkO st' (reading os) -> kindOfStep t a os os' e.
  Lemma kind_step t a os os' e : ostep t a os = Some (os', e) -> kindOfStep t a os os' e.
  Proof using Type.
    unfold OverlapModel.ostep, plainStep. destruct (nth_error (threads (inner os)) t) as [th|] eqn:E; [|discriminate].
    assert (forall b, (getting (inner os) t = true -> b = Go -> False) -> match step t b (inner os) with Some (st', e) => Some (mkO st' (reading os), e) | None => None end = Some (os', e) -> a = b -> kindOfStep t a os os' e) as Plain.
    { intros b Hb H ->. destruct (step t b (inner os)) as [(st', e')|] eqn:Es; [|discriminate]. injection H as <- <-. eapply once; [|exact Es|reflexivity]. intros G. right. intros ->. exact (Hb G eq_refl). }
    assert (forall th', nth_error (threads (inner os)) t = Some th' -> th' = th) as Eth by (intros; congruence).
    destruct a as [q| |k].
    - intros H. apply (Plain (Call q)); [discriminate| |reflexivity]. destruct (running th); exact H.
    - destruct (running th) as [(q, p)|] eqn:Er; [|intros H; apply (Plain Go); [unfold getting; rewrite E, Er; discriminate|exact H|reflexivity]].
      destruct p as [r| |s i okay it kk|s it kk|s kk]; try (intros H; apply (Plain Go); [unfold getting; rewrite E, Er; discriminate|exact H|reflexivity]).
      + destruct (isReading t (reading os)) eqn:Ei.
        * intros H. destruct (step t Go (mkState (giveHandle (shared (inner os))) (threads (inner os)))) as [(st', e')|] eqn:Es; [|discriminate]. injection H as <- <-. eapply ends; [reflexivity|now apply reading_in|exact Es|reflexivity].
        * assert (~ In t (map fst (reading os))) as No by (intros X; apply reading_in in X; congruence).
          destruct (isHeld (lockOfGet (shared (inner os)) s i) (reading os)) eqn:Eh; [discriminate|].
          destruct (okay && willRead (kindOf s) (fuelOf u s) (colls (shared (inner os)) s) i && negb (io_eqb (nextIo (shared (inner os))) IoHandle))%bool eqn:Ew.
          -- intros H. injection H as <- <-. apply Bool.andb_true_iff in Ew. destruct Ew as (Ew & Eio). apply Bool.andb_true_iff in Ew. destruct Ew as (_ & Ew).
             eapply begins; [reflexivity|reflexivity|exact No|unfold getting; rewrite E, Er; reflexivity| | |reflexivity].
             ++ unfold nextIo in Eio. destruct (handles (shared (inner os))); [discriminate Eio|lia].
             ++ exists s, i. split; [exists th, q, okay, it, kk; auto|]. auto.
          -- intros H. destruct (step t Go (inner os)) as [(st', e')|] eqn:Es; [|discriminate]. injection H as <- <-. eapply once; [|exact Es|reflexivity]. intros _. left. exact No.
      + destruct (isHeld (lockOfRelease (shared (inner os)) s it) (reading os)); [discriminate|]. intros H. apply (Plain Go); [unfold getting; rewrite E, Er; discriminate|exact H|reflexivity].
    - destruct (running th) as [(q, p)|] eqn:Er; [intros H; apply (Plain (GiveBack k)); [discriminate|exact H|reflexivity]|].
      destruct (nth_error (items th) k) as [(s, it)|]; [|discriminate]. destruct (isHeld (lockOfRelease (shared (inner os)) s it) (reading os)); [discriminate|]. intros H. apply (Plain (GiveBack k)); [discriminate|exact H|reflexivity].
  Qed.
  (* what a step is in the state where the reads have not begun *)
  Lemma kind_before t a os os' e : OI os -> kindOfStep t a os os' e ->
    (a = Go /\ e = [] /\ before os' = before os /\ In t (map fst (reading os')) /\ ~ In t (map fst (reading os)) /\ inner os' = mkState (takeHandle (shared (inner os))) (threads (inner os))) \/
    (step t a (before os) = Some (before os', e) /\ (forall x, In x (map fst (reading os')) <-> In x (map fst (reading os)) /\ (x <> t)) ).
  Proof using Type.
    intros H [l -> -> No G Hh _ ->|st' -> X Es ->|st' X Es ->].
    - left. split; [reflexivity|]. split; [reflexivity|]. split.
      + unfold before, moreIn, more, takeHandle. cbn [reading inner shared threads colls heap handles ios length]. f_equal. f_equal. lia.
      + split; [left; reflexivity|]. auto.
    - right. split.
      + rewrite (before_give os t H X), step_more by (intros _; cbn; lia). rewrite Es. reflexivity.
      + intros x. rewrite !in_map_iff. cbn [reading]. split.
        * intros (y & <- & Y). apply finished_in in Y. destruct Y as (Y1 & Y2). split; [exists y; auto|exact Y2].
        * intros ((y & <- & Y) & Ne). exists y. split; [reflexivity|]. now apply finished_in.
    - right. assert (~ In t (map fst (reading os))) as No.
      { intros Y. pose proof Y as Y'. apply in_map_iff in Y. destruct Y as ((z, l) & E & Y). cbn [fst] in E. subst z. pose proof (oi_get _ H _ _ Y) as G. destruct (X G) as [Z|Z]; [exact (Z Y')|].
        unfold ThreadsModel.step in Es. unfold getting in G. destruct (nth_error (threads (inner os)) t) as [th|]; [|discriminate]. destruct (running th) as [(q, p)|]; [|discriminate]. destruct a; try discriminate; contradiction. }
      split.
      + unfold before. rewrite step_more; [rewrite Es; reflexivity|]. intros G. exact (handle_there os t H G No).
      + intros x. cbn [reading]. split; [intros Y; split; [exact Y|intros ->; exact (No Y)]|intros (Y & _); exact Y].
  Qed.
  Lemma busy_before os : busy (before os) = busy (inner os).
  Proof using Type. reflexivity. Qed.

  Context (lim : (limit <= handles w0)%nat).
  (* no get loses a handle: C118 *)
  Context (kept : forall tr n st, exec tr n st -> handles (shared st) = handles w0).
  (* every execution is one of ThreadsModel.v *)
  Lemma serial tr n os : oexec tr n os -> OI os /\ exists n', exec tr n' (before os) /\ (forall t, n t <= 2 * n' t + (if isReading t (reading os) then 1 else 0))%nat.
  Proof using lim kept.
    induction 1 as [|tr n os t a os' e E (HI & n' & X & Hn) Ha Hs].
    - split.
      + constructor; cbn [ostart reading inner shared map length].
        * constructor.
        * intros t l [].
        * unfold inCalls. cbn [threads]. clear. induction count as [|c IH]; [cbn; lia|exact IH].
        * reflexivity.
      + exists (fun _ => O). split; [|intros; lia].
        assert (before (ostart count w0) = mkState w0 (repeat (mkThread None []) count)) as -> by (unfold before, moreIn, more, ostart; cbn [reading inner length shared threads]; destruct w0; reflexivity). constructor.
    - pose proof (kind_step _ _ _ _ _ Hs) as K. pose proof (kind_before _ _ _ _ _ HI K) as B.
      assert (handles (shared (before os')) = handles w0 /\ exists n'', exec (e ++ tr) n'' (before os') /\ (forall x, counted t a n x <= 2 * n'' x + (if isReading x (reading os') then 1 else 0))%nat) as (Hh & R).
      { destruct B as [(-> & -> & B & I1 & I2 & _)|(B & I1)].
        - rewrite B. split; [exact (kept _ _ _ X)|]. exists n'. split; [exact X|]. intros x. unfold counted. specialize (Hn x). destruct (Nat.eqb_spec x t) as [->|Ne].
          + apply reading_in in I1. rewrite I1. destruct (isReading t (reading os)) eqn:Y; [apply reading_in in Y; contradiction|]. lia.
          + destruct (isReading x (reading os)) eqn:Y; [|destruct (isReading x (reading os')); lia]. apply reading_in in Y. assert (isReading x (reading os') = true) as ->; [|lia].
            apply reading_in. destruct K as [l _ _ _ _ _ _ ->|st' _ Z _ ->|st' _ _ ->]; cbn [reading map fst In] in *; [right; exact Y| |exact Y]. contradiction.
        - assert (admissible d u cap (before os) a) as Ad by (destruct a as [q| |k]; cbn [admissible oadmissible] in *; auto; destruct Ha as (A1 & A2 & _); split; [exact A1|exact A2]).
          pose proof (exec_step _ _ _ _ _ _ _ _ _ _ _ _ _ _ X Ad B) as X'. split; [exact (kept _ _ _ X')|]. exists (counted t a n'). split; [exact X'|].
          intros x. unfold counted. specialize (Hn x). destruct (Nat.eqb_spec x t) as [->|Ne].
          + destruct (isReading t (reading os')) eqn:Y; [apply reading_in, I1 in Y; destruct Y; contradiction|]. destruct a as [q| |k]; [lia|destruct (isReading t (reading os)); lia|].
            destruct (isReading t (reading os)) eqn:Z; [|lia]. exfalso. apply reading_in, in_map_iff in Z. destruct Z as ((z, l) & Ez & Z). cbn [fst] in Ez. subst z. pose proof (oi_get _ HI _ _ Z) as G.
            unfold ThreadsModel.step in B. unfold getting in G. change (threads (before os)) with (threads (inner os)) in B. destruct (nth_error (threads (inner os)) t) as [th|]; [|discriminate]. destruct (running th) as [(q, p)|]; discriminate.
          + destruct (isReading x (reading os)) eqn:Y; [|lia]. assert (isReading x (reading os') = true) as ->; [|lia]. apply reading_in, I1. split; [now apply reading_in|exact Ne]. }
      split; [|exact R]. clear R. unfold before, moreIn, more in Hh. cbn [shared handles] in Hh. constructor; [| | |exact Hh].
      + destruct K as [l _ _ No _ _ _ ->|st' _ _ _ ->|st' _ _ ->]; cbn [reading map fst]; [constructor; [exact No|apply HI]|apply finished_nodup, HI|apply HI].
      + intros x l Hx. destruct K as [m _ _ No G _ _ ->|st' _ Z Es ->|st' Y Es ->]; cbn [reading inner] in *.
        * destruct Hx as [Hx|Hx]; [injection Hx as <- _; exact G|]. exact (oi_get _ HI _ _ Hx).
        * apply finished_in in Hx. destruct Hx as (Hx & Ne). cbn [fst] in Ne. rewrite (getting_same (inner os) st' x); [exact (oi_get _ HI _ _ Hx)|]. exact (step_others _ _ _ _ _ x Es Ne).
        * destruct B as [(_ & _ & _ & I1 & I2 & _)|(B & I1)]; [contradiction|]. assert (x <> t) as Ne by (apply (proj1 (I1 x)); apply in_map_iff; exists (x, l); auto).
          rewrite (getting_same (inner os) st' x); [exact (oi_get _ HI _ _ Hx)|]. exact (step_others _ _ _ _ _ x Es Ne).
      + destruct K as [m _ _ No G _ _ ->|st' -> Z Es ->|st' Y Es ->]; cbn [inner]; [exact (oi_calls _ HI)|..].
        * apply step_calls in Es. unfold inCalls in *. cbn [threads] in *. pose proof (oi_calls _ HI). unfold inCalls in *. lia.
        * apply step_calls in Es. pose proof (oi_calls _ HI). destruct a as [q| |k]; [|lia..]. destruct Ha as (_ & _ & Ha). lia.
  Qed.
End Run.
