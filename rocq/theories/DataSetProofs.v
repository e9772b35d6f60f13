(* Proofs about dataset.c *)
From Verif Require Export DataSetSpec.

Lemma set_nth {A} (l : list A) : forall i x j, nth_error (set i x l) j = if Nat.eqb i j then (if Nat.ltb i (length l) then Some x else None) else nth_error l j.
Proof.
  induction l as [|y l IH]; intros i x j; cbn [set length].
  - destruct (Nat.eqb_spec i j) as [->|]; [|destruct i; reflexivity]. destruct j; reflexivity.
  - destruct i as [|i]; destruct j as [|j]; cbn [nth_error Nat.eqb]; try reflexivity.
    change (S i <? S (length l)) with (i <? length l). apply IH.
Qed.
Lemma set_len {A} (l : list A) : forall i x, length (set i x l) = length l.
Proof. induction l as [|y l IH]; intros [|i] x; cbn; auto. Qed.
Lemma set_nth_same {A} (l : list A) i x y : nth_error l i = Some y -> nth_error (set i x l) i = Some x.
Proof. intros E. rewrite set_nth, Nat.eqb_refl. assert (H : i < length l) by (apply nth_error_Some; congruence). apply Nat.ltb_lt in H. now rewrite H. Qed.
Lemma set_nth_other {A} (l : list A) i j x : i <> j -> nth_error (set i x l) j = nth_error l j.
Proof. intros N. rewrite set_nth. apply Nat.eqb_neq in N. now rewrite N. Qed.

Definition users (h : list nat) (i : nat) : Z := Z.of_nat (count_occ Nat.eq_dec h i).
Lemma users_pos h i : (0 < users h i)%Z <-> In i h.
Proof. unfold users. rewrite (count_occ_In Nat.eq_dec). lia. Qed.
Lemma users_zero h i : users h i = 0%Z <-> ~ In i h.
Proof. rewrite <- users_pos. unfold users. lia. Qed.
Lemma users_cons h i j : users (i :: h) j = (users h j + if Nat.eqb i j then 1 else 0)%Z.
Proof. unfold users. cbn. destruct (Nat.eq_dec i j), (Nat.eqb_spec i j); try contradiction; lia. Qed.
Lemma users_mid h1 h2 i j : users (h1 ++ i :: h2) j = (users (h1 ++ h2) j + if Nat.eqb i j then 1 else 0)%Z.
Proof. unfold users. rewrite !count_occ_app. cbn. destruct (Nat.eq_dec i j), (Nat.eqb_spec i j); try contradiction; lia. Qed.

(* the data sets are as the view says *)
Record good (c : nat) (h : list nat) (n : list (option nat)) (w : World) : Prop := {
  g_act : active w = c;
  g_len : length (sets w) = length n;
  g_cur : c < length n;
  g_held : forall i, In i h -> i < length n;
  g_use : forall i d, nth_error (sets w) i = Some d -> inUse d = users h i;
  g_alive : forall i d, nth_error (sets w) i = Some d -> (alive d = true <-> i = c \/ In i h);
  g_file : forall i d f, nth_error (sets w) i = Some d -> nth_error n i = Some f -> alive d = true -> tempFile d = f;
  g_gone : forall f, In f (deleted w) <-> exists i, nth_error n i = Some (Some f) /\ ~ (i = c \/ In i h) }.

Lemma good_find c h n w i : good c h n w -> i = c \/ In i h -> exists d, nth_error (sets w) i = Some d /\ alive d = true /\ find w i = Some d.
Proof.
  intros G H. assert (L : i < length (sets w)). { rewrite (g_len _ _ _ _ G). destruct H as [->|H]; [apply (g_cur _ _ _ _ G)|now apply (g_held _ _ _ _ G)]. }
  destruct (nth_error (sets w) i) as [d|] eqn:E; [|apply nth_error_None in E; lia].
  assert (A : alive d = true) by now apply (g_alive _ _ _ _ G i d E). exists d. split; [reflexivity|]. split; [exact A|]. unfold find. now rewrite E, A.
Qed.
Lemma find_gone c h n w i : good c h n w -> find w i = None -> ~ (i = c \/ In i h).
Proof. intros G F H. destruct (good_find _ _ _ _ _ G H) as (d & _ & _ & E). congruence. Qed.

Lemma inc_ok c h n w : good c h n w -> exists w', ResourceHandleIncUse w = Some (c, w') /\ good c (c :: h) n w' /\ active w' = active w /\ length (sets w') = length (sets w).
Proof.
  intros G. destruct (good_find _ _ _ _ c G) as (d & E & A & F); [now left|]. unfold ResourceHandleIncUse. rewrite (g_act _ _ _ _ G), F.
  eexists. split; [reflexivity|]. cbn [active sets]. split; [|split; [reflexivity|apply set_len]]. destruct G as [Ga Gl Gc Gh Gu Gv Gf Gg]. constructor; cbn [sets active deleted]; auto.
  - now rewrite set_len.
  - intros i [<-|I]; auto.
  - intros i d' E'. rewrite users_cons. destruct (Nat.eqb_spec c i) as [<-|N].
    + rewrite (set_nth_same _ _ _ _ E) in E'. injection E' as <-. cbn. now rewrite (Gu _ _ E).
    + rewrite (set_nth_other _ _ _ _ N) in E'. rewrite Z.add_0_r. now apply Gu.
  - intros i d' E'. destruct (Nat.eq_dec c i) as [<-|N].
    + rewrite (set_nth_same _ _ _ _ E) in E'. injection E' as <-. cbn. rewrite A. cbn. tauto.
    + rewrite (set_nth_other _ _ _ _ N) in E'. rewrite (Gv _ _ E'). cbn. intuition congruence.
  - intros i d' f E' Ef A'. destruct (Nat.eq_dec c i) as [<-|N].
    + rewrite (set_nth_same _ _ _ _ E) in E'. injection E' as <-. cbn. now apply (Gf c d f).
    + rewrite (set_nth_other _ _ _ _ N) in E'. now apply (Gf i d' f).
  - intros f. rewrite Gg. split; intros (i & X & Y); exists i; (split; [exact X|]); cbn in *; intuition congruence.
Qed.

(* a data set whose use was counted is released; c is active, good before the count
   goes down *)
Lemma dec_ok c h1 i h2 n w : good c (h1 ++ i :: h2) n w -> exists w', ResourceHandleDecUse i w = Some w' /\ good c (h1 ++ h2) n w'.
Proof.
  intros G. destruct (good_find _ _ _ _ i G) as (d & E & A & F); [right; apply in_or_app; right; now left|].
  unfold ResourceHandleDecUse. rewrite F. cbn [inUse active].
  pose proof (g_use _ _ _ _ G _ _ E) as U. rewrite users_mid, Nat.eqb_refl in U.
  destruct G as [Ga Gl Gc Gh Gu Gv Gf Gg]. subst c.
  assert (HH : forall j, In j (h1 ++ i :: h2) <-> j = i \/ In j (h1 ++ h2)) by (intros j; rewrite !in_app_iff; cbn; intuition congruence).
  destruct (Z.eqb_spec (inUse d - 1) 0) as [Z0|Z0]; [destruct (Nat.eqb_spec (active w) i) as [Q|Q]|]; cbn [negb andb].
  - (* still the active one *)
    eexists. split; [reflexivity|]. constructor; cbn [sets active deleted]; auto.
    + now rewrite set_len.
    + intros j J. apply Gh. apply HH. now right.
    + intros j d' E'. destruct (Nat.eq_dec i j) as [<-|N].
      * rewrite (set_nth_same _ _ _ _ E) in E'. injection E' as <-. cbn. lia.
      * rewrite (set_nth_other _ _ _ _ N) in E'. rewrite (Gu _ _ E'), users_mid. apply Nat.eqb_neq in N. rewrite N. lia.
    + intros j d' E'. destruct (Nat.eq_dec i j) as [<-|N].
      * rewrite (set_nth_same _ _ _ _ E) in E'. injection E' as <-. cbn. rewrite A. intuition congruence.
      * rewrite (set_nth_other _ _ _ _ N) in E'. rewrite (Gv _ _ E'), HH. intuition congruence.
    + intros j d' f E' Ef A'. destruct (Nat.eq_dec i j) as [<-|N].
      * rewrite (set_nth_same _ _ _ _ E) in E'. injection E' as <-. cbn. now apply (Gf i d f).
      * rewrite (set_nth_other _ _ _ _ N) in E'. now apply (Gf j d' f).
    + intros f. rewrite Gg. split; intros (j & X & Y); exists j; (split; [exact X|]); rewrite HH in *; intuition congruence.
  - (* freed *)
    assert (NI : ~ In i (h1 ++ h2)) by (apply users_zero; lia).
    eexists. split; [reflexivity|]. unfold freeSet. cbn [sets active deleted inUse tempFile]. constructor; cbn [sets active deleted]; auto.
    + now rewrite !set_len.
    + intros j J. apply Gh. apply HH. now right.
    + intros j d' E'. destruct (Nat.eq_dec i j) as [<-|N].
      * rewrite (set_nth_same _ _ _ (mkSet (inUse d - 1) (alive d) (tempFile d))) in E' by (eapply set_nth_same; eassumption). injection E' as <-. cbn. lia.
      * rewrite !(set_nth_other _ _ _ _ N) in E'. rewrite (Gu _ _ E'), users_mid. apply Nat.eqb_neq in N. rewrite N. lia.
    + intros j d' E'. destruct (Nat.eq_dec i j) as [<-|N].
      * rewrite (set_nth_same _ _ _ (mkSet (inUse d - 1) (alive d) (tempFile d))) in E' by (eapply set_nth_same; eassumption). injection E' as <-. cbn. intuition congruence.
      * rewrite !(set_nth_other _ _ _ _ N) in E'. rewrite (Gv _ _ E'), HH. intuition congruence.
    + intros j d' f E' Ef A'. destruct (Nat.eq_dec i j) as [<-|N].
      * rewrite (set_nth_same _ _ _ (mkSet (inUse d - 1) (alive d) (tempFile d))) in E' by (eapply set_nth_same; eassumption). injection E' as <-. cbn in A'. discriminate.
      * rewrite !(set_nth_other _ _ _ _ N) in E'. now apply (Gf j d' f).
    + intros f. assert (Li : exists fi, nth_error n i = Some fi).
      { destruct (nth_error n i) as [fi|] eqn:X; [now exists fi|]. apply nth_error_None in X. assert (i < length (sets w)) by (apply nth_error_Some; congruence). lia. }
      destruct Li as (fi & Ei). pose proof (Gf i d fi E Ei A) as Fi.
      split.
      * intros I. assert (T : tempFile d = Some f \/ In f (deleted w)).
        { destruct (tempFile d) as [g|]; [destruct I as [->|I]; auto|auto]. }
        destruct T as [T|T]; [exists i; rewrite Ei; split; [congruence|]; intuition congruence|].
        apply Gg in T. destruct T as (j & X & Y). exists j. split; [exact X|]. rewrite HH in Y. intuition congruence.
      * intros (j & X & Y). destruct (Nat.eq_dec i j) as [<-|N].
        -- rewrite Ei in X. injection X as ->. rewrite Fi. now left.
        -- assert (D : In f (deleted w)). { apply Gg. exists j. split; [exact X|]. rewrite HH. intuition congruence. }
           destruct (tempFile d); [now right|exact D].
  - (* still in use *)
    assert (I : In i (h1 ++ h2)). { apply users_pos. assert (0 <= users (h1 ++ h2) i)%Z by (unfold users; lia). lia. }
    eexists. split; [reflexivity|]. constructor; cbn [sets active deleted]; auto.
    + now rewrite set_len.
    + intros j J. apply Gh. apply HH. now right.
    + intros j d' E'. destruct (Nat.eq_dec i j) as [<-|N].
      * rewrite (set_nth_same _ _ _ _ E) in E'. injection E' as <-. cbn. lia.
      * rewrite (set_nth_other _ _ _ _ N) in E'. rewrite (Gu _ _ E'), users_mid. apply Nat.eqb_neq in N. rewrite N. lia.
    + intros j d' E'. destruct (Nat.eq_dec i j) as [<-|N].
      * rewrite (set_nth_same _ _ _ _ E) in E'. injection E' as <-. cbn. rewrite A. intuition congruence.
      * rewrite (set_nth_other _ _ _ _ N) in E'. rewrite (Gv _ _ E'), HH. intuition congruence.
    + intros j d' f E' Ef A'. destruct (Nat.eq_dec i j) as [<-|N].
      * rewrite (set_nth_same _ _ _ _ E) in E'. injection E' as <-. cbn. now apply (Gf i d f).
      * rewrite (set_nth_other _ _ _ _ N) in E'. now apply (Gf j d' f).
    + intros f. rewrite Gg. split; intros (j & X & Y); exists j; (split; [exact X|]); rewrite HH in *; intuition congruence.
Qed.

Lemma nth_snoc {A} (l : list A) x i y : nth_error (l ++ [x]) i = Some y -> (i < length l /\ nth_error l i = Some y) \/ (i = length l /\ y = x).
Proof.
  intros E. destruct (Nat.lt_ge_cases i (length l)) as [L|L].
  - left. now rewrite nth_error_app1 in E by exact L.
  - right. rewrite nth_error_app2 in E by exact L. destruct (i - length l) as [|k] eqn:K; [cbn in E; injection E as <-; split; [lia|reflexivity]|]. cbn in E. now destruct k.
Qed.

(* the new data set becomes the active one; the old one is held by the replacement *)
Lemma replace_ok c h n w f : good c h n w ->
  exists w', ResourceReplace true (length (sets w)) (mkWorld (sets w ++ [mkSet 0 true f]) (active w) (deleted w)) = Some w' /\ good (length n) h (n ++ [f]) w'.
Proof.
  intros G. unfold ResourceReplace.
  (* IncUse of the old one: as if with the new data set held by nobody *)
  assert (F : find (mkWorld (sets w ++ [mkSet 0 true f]) (active w) (deleted w)) (active w) = find w c).
  { unfold find. cbn [sets]. rewrite (g_act _ _ _ _ G). rewrite nth_error_app1; [reflexivity|]. rewrite (g_len _ _ _ _ G). apply (g_cur _ _ _ _ G). }
  destruct (good_find _ _ _ _ c G) as (d & E & A & Fd); [now left|].
  unfold ResourceHandleIncUse. cbn [active] in F |- *. rewrite F, Fd. cbn [sets deleted active].
  rewrite (g_act _ _ _ _ G).
  set (w1 := mkWorld (set c (mkSet (inUse d + 1) (alive d) (tempFile d)) (sets w ++ [mkSet 0 true f])) (length (sets w)) (deleted w)).
  assert (Lc : c < length (sets w)) by (rewrite (g_len _ _ _ _ G); apply (g_cur _ _ _ _ G)).
  assert (G1 : good (length n) (c :: h) (n ++ [f]) w1).
  { destruct G as [Ga Gl Gc Gh Gu Gv Gf Gg]. constructor; unfold w1; cbn [sets active deleted]; auto.
    - rewrite set_len, !app_length, Gl. reflexivity.
    - rewrite app_length. cbn. lia.
    - intros i [<-|I]; rewrite app_length; [lia|]. specialize (Gh _ I). lia.
    - intros i d' E'. rewrite users_cons. destruct (Nat.eqb_spec c i) as [<-|N].
      + rewrite (set_nth_same _ _ _ d) in E' by (rewrite nth_error_app1; assumption). injection E' as <-. cbn. now rewrite (Gu _ _ E).
      + rewrite (set_nth_other _ _ _ _ N) in E'. rewrite Z.add_0_r. apply nth_snoc in E'. destruct E' as [(_ & E')|(-> & ->)]; [now apply Gu|].
        cbn. symmetry. apply users_zero. intros I. specialize (Gh _ I). lia.
    - intros i d' E'. destruct (Nat.eq_dec c i) as [<-|N].
      + rewrite (set_nth_same _ _ _ d) in E' by (rewrite nth_error_app1; assumption). injection E' as <-. cbn. rewrite A. intuition congruence.
      + rewrite (set_nth_other _ _ _ _ N) in E'. apply nth_snoc in E'. destruct E' as [(Li & E')|(-> & ->)].
        * rewrite (Gv _ _ E'). cbn. split; [intuition congruence|]. intros [Q|[Q|Q]]; [lia|congruence|now right].
        * cbn. intuition congruence.
    - intros i d' g E' Eg A'. apply nth_snoc in Eg. destruct (Nat.eq_dec c i) as [<-|N].
      + rewrite (set_nth_same _ _ _ d) in E' by (rewrite nth_error_app1; assumption). injection E' as <-. cbn. destruct Eg as [(_ & Eg)|(Q & _)]; [now apply (Gf c d g)|lia].
      + rewrite (set_nth_other _ _ _ _ N) in E'. apply nth_snoc in E'. destruct E' as [(Li & E')|(-> & ->)].
        * destruct Eg as [(_ & Eg)|(Q & _)]; [now apply (Gf i d' g)|lia].
        * destruct Eg as [(Q & _)|(_ & ->)]; [lia|reflexivity].
    - intros g. rewrite Gg. split.
      + intros (i & X & Y). assert (Li : i < length n) by (apply nth_error_Some; congruence). exists i. split; [now rewrite nth_error_app1|]. cbn. intros [Q|[Q|Q]]; [lia|apply Y; auto|apply Y; auto].
      + intros (i & X & Y). apply nth_snoc in X. destruct X as [(Li & X)|(-> & _)]; [|exfalso; apply Y; now left]. exists i. split; [exact X|]. cbn in Y. intuition congruence. }
  destruct (dec_ok (length n) [] c h (n ++ [f]) w1 G1) as (w2 & D & G2). exists w2. split; [exact D|exact G2].
Qed.

Lemma fails_ok c h n w b e : good c h n w -> find w e <> None -> exists w', reloadEnd b e InitFails w = Some (false, w') /\ good c h (n ++ [None]) w'.
Proof.
  intros G F. unfold reloadEnd. destruct (find w e) as [de|]; [|congruence].
  assert (K : good c h (n ++ [None]) (mkWorld (sets w ++ [mkSet 0 false None]) (active w) (deleted w))).
  { destruct G as [Ga Gl Gc Gh Gu Gv Gf Gg]. constructor; cbn [sets active deleted]; auto.
    - rewrite !app_length, Gl. reflexivity.
    - rewrite app_length. cbn. lia.
    - intros i I. rewrite app_length. specialize (Gh _ I). lia.
    - intros i d' E'. apply nth_snoc in E'. destruct E' as [(_ & E')|(-> & ->)]; [now apply Gu|]. cbn. symmetry. apply users_zero. intros I. specialize (Gh _ I). lia.
    - intros i d' E'. apply nth_snoc in E'. destruct E' as [(_ & E')|(-> & ->)]; [now apply Gv|]. cbn. split; [discriminate|]. intros [Q|Q]; [lia|]. specialize (Gh _ Q). lia.
    - intros i d' g E' Eg A'. apply nth_snoc in E'. apply nth_snoc in Eg. destruct E' as [(Li & E')|(-> & ->)]; [|discriminate A'].
      destruct Eg as [(_ & Eg)|(Q & _)]; [now apply (Gf i d' g)|lia].
    - intros g. rewrite Gg. split.
      + intros (i & X & Y). assert (Li : i < length n) by (apply nth_error_Some; congruence). exists i. split; [now rewrite nth_error_app1|exact Y].
      + intros (i & X & Y). apply nth_snoc in X. destruct X as [(Li & X)|(_ & X)]; [|discriminate X]. exists i. now split. }
  destruct b; cbn [negb].
  - eexists. split; [reflexivity|exact K].
  - assert (N : nth_error (sets w ++ [mkSet 0 true None]) (length (sets w)) = Some (mkSet 0 true None)) by (rewrite nth_error_app2, Nat.sub_diag by lia; reflexivity).
    unfold find. cbn [sets]. rewrite N. cbn [alive]. eexists. split; [reflexivity|]. unfold freeSet. cbn [sets active deleted inUse tempFile].
    replace (set (length (sets w)) (mkSet 0 false None) (sets w ++ [mkSet 0 true None])) with (sets w ++ [mkSet 0 false None]); [exact K|].
    generalize (sets w). intros l. induction l as [|y l IH]; [reflexivity|]. cbn. now rewrite <- IH.
Qed.

(* the reloads in progress *)
Record ginv (v : view) (m : machine) : Prop := {
  gi_good : good (current v) (held v) (made v) (world m);
  gi_rel : map fst (reloads m) = inProgress v;
  gi_nd : NoDup (inProgress v) }.

Lemma lookup_in t l : In t (map fst l) -> exists e, lookup t l = Some e /\ In (t, e) l.
Proof.
  induction l as [|(u, e) l IH]; [intros []|]. cbn. intros I. destruct (Nat.eqb_spec t u) as [->|N]; [exists e; auto|].
  destruct I as [I|I]; [congruence|]. destruct (IH I) as (e' & L & J). exists e'. auto.
Qed.
Lemma without_mid t l : forall p1 p2, map fst l = p1 ++ t :: p2 -> NoDup (p1 ++ t :: p2) -> map fst (without t l) = p1 ++ p2.
Proof.
  intros p1 p2 E ND. assert (K : map fst (without t l) = filter (fun u => negb (Nat.eqb t u)) (map fst l)).
  { clear. unfold without. induction l as [|(u, e) l IH]; [reflexivity|]. cbn. destruct (Nat.eqb t u); cbn; now rewrite IH. }
  rewrite K, E, filter_app. cbn. rewrite Nat.eqb_refl. cbn. pose proof (NoDup_remove_2 _ _ _ ND) as NI.
  assert (Q : forall l, ~ In t l -> filter (fun u => negb (Nat.eqb t u)) l = l).
  { clear. induction l as [|y l IH]; intros N; [reflexivity|]. cbn in *. destruct (Nat.eqb_spec t y) as [->|]; [exfalso; apply N; now left|]. cbn. rewrite IH; tauto. }
  rewrite !Q; [reflexivity| |]; intros I; apply NI; apply in_or_app; auto.
Qed.

Lemma step_ok v o a v1 m : ginv v m -> sees v o a v1 ->
  (exists m', perform o m = Some (a, m') /\ ginv v1 m' /\ (forall t e, In (t, e) (reloads m') -> In (t, e) (reloads m) \/ (o = Begin t /\ e = current v))) \/
  (perform o m = None /\ exists t b oc e, o = End t b oc /\ In (t, e) (reloads m) /\ ((exists f, oc = InitOk f false) \/ ~ inUseBy v e)).
Proof.
  intros [G R ND] S. assert (W : forall t l e t', In (t', e) (without t l) -> In (t', e) l) by (intros t l e t' I; apply filter_In in I; apply I).
  destruct S as [c h n p|c h1 i h2 n p|c h n p t NI|c h n p1 t p2 b|c h n p1 t p2 b|c h n p1 t p2 b f k]; cbn [current held made inProgress] in *.
  - left. cbn [perform]. unfold DataSetGet. destruct (inc_ok _ _ _ _ G) as (w' & E & G' & _). rewrite E. cbn. eexists. split; [reflexivity|]. split; [now constructor|auto].
  - left. cbn [perform]. unfold DataSetRelease. destruct (dec_ok _ _ _ _ _ _ G) as (w' & E & G'). rewrite E. cbn. eexists. split; [reflexivity|]. split; [now constructor|auto].
  - left. cbn [perform]. unfold reloadBegin. destruct (good_find _ _ _ _ c G) as (d & E & A & F); [now left|]. rewrite (g_act _ _ _ _ G), F. cbn [option_map].
    eexists. split; [reflexivity|]. split.
    + constructor; cbn [current held made inProgress world reloads map fst]; [exact G|now rewrite R|now constructor].
    + cbn. intros t' e [I|I]; [injection I as <- <-; auto|auto].
  - left. destruct (lookup_in t (reloads m)) as (e & L & _); [rewrite R; apply in_or_app; right; now left|]. cbn [perform]. rewrite L. cbn. eexists. split; [reflexivity|]. split.
    + constructor; cbn [current held made inProgress world reloads]; [exact G|now apply without_mid|]. now apply NoDup_remove_1 in ND.
    + cbn. intros t' e' I. left. eapply W; eassumption.
  - destruct (lookup_in t (reloads m)) as (e & L & I); [rewrite R; apply in_or_app; right; now left|]. cbn [perform]. rewrite L.
    destruct (find (world m) e) as [de|] eqn:F.
    + left. destruct (fails_ok _ _ _ _ b e G) as (w' & E & G'); [congruence|]. rewrite E. cbn. eexists. split; [reflexivity|]. split.
      * constructor; cbn [current held made inProgress world reloads]; [exact G'|now apply without_mid|]. now apply NoDup_remove_1 in ND.
      * cbn. intros t' e' I'. left. eapply W; eassumption.
    + right. cbn. rewrite F. split; [reflexivity|]. exists t, b, InitFails, e. split; [reflexivity|]. split; [exact I|]. right. exact (find_gone _ _ _ _ _ G F).
  - destruct (lookup_in t (reloads m)) as (e & L & I); [rewrite R; apply in_or_app; right; now left|]. cbn [perform]. rewrite L. cbn [reloadEnd].
    destruct (find (world m) e) as [de|] eqn:F.
    + destruct k.
      * left. destruct (replace_ok _ _ _ _ f G) as (w' & E & G'). rewrite E. cbn. eexists. split; [reflexivity|]. split.
        -- constructor; cbn [current held made inProgress world reloads]; [exact G'|now apply without_mid|]. now apply NoDup_remove_1 in ND.
        -- cbn. intros t' e' I'. left. eapply W; eassumption.
      * right. split; [reflexivity|]. exists t, b, (InitOk f false), e. split; [reflexivity|]. split; [exact I|]. left. now exists f.
    + right. split; [reflexivity|]. exists t, b, (InitOk f k), e. split; [reflexivity|]. split; [exact I|]. right. exact (find_gone _ _ _ _ _ G F).
Qed.

Lemma run_partial v ops as_ v1 : seesAll v ops as_ v1 -> forall m as' m', ginv v m -> performAll ops m = Some (as', m') -> as' = as_ /\ ginv v1 m'.
Proof.
  induction 1 as [v|v o a v1 ops as_ v2 S R IH]; intros m as' m' G P.
  - cbn in P. injection P as <- <-. auto.
  - cbn [performAll] in P. destruct (step_ok _ _ _ _ _ G S) as [(m1 & E & G1 & _)|(E & _)]; rewrite E in P; [|discriminate P].
    destruct (performAll ops m1) as [(l, m2)|] eqn:Q; [|discriminate P]. cbn in P. injection P as <- <-. destruct (IH _ _ _ G1 Q) as (-> & G2). auto.
Qed.

Definition busyOk (busy : bool) (v : view) (m : machine) : Prop :=
  if busy then exists t, reloads m = [(t, current v)] else reloads m = [].
Lemma run_total v ops as_ v1 : seesAll v ops as_ v1 -> forall busy m, ginv v m -> busyOk busy v m -> oneReload busy ops ->
  exists m', performAll ops m = Some (as_, m') /\ ginv v1 m'.
Proof.
  induction 1 as [v|v o a v1 ops as_ v2 S R IH]; intros busy m G B O.
  - exists m. auto.
  - assert (N : exists busy' m1, perform o m = Some (a, m1) /\ ginv v1 m1 /\ busyOk busy' v1 m1 /\ oneReload busy' ops).
    { destruct (step_ok _ _ _ _ _ G S) as [(m1 & E & G1 & K)|(E & t & b & oc & e & -> & I & Q)].
      - destruct o as [|i|t|t b oc].
        + exists busy, m1. repeat (split; [assumption|]). split; [|exact O]. inversion S; subst. cbn in E. destruct (DataSetGet (world m)) as [(i, w)|]; [|discriminate E]. cbn in E. injection E as _ <-. exact B.
        + exists busy, m1. repeat (split; [assumption|]). split; [|exact O]. inversion S; subst. cbn in E. destruct (DataSetRelease i (world m)) as [w|]; [|discriminate E]. cbn in E. injection E as <-. exact B.
        + cbn in O. destruct O as (-> & O). exists true, m1. repeat (split; [assumption|]). split; [|exact O]. inversion S; subst. cbn in E. unfold reloadBegin in E.
          destruct (find (world m) (active (world m))); [|discriminate E]. cbn in E. injection E as <-. cbn in B |- *. rewrite B. exists t. f_equal. f_equal. exact (g_act _ _ _ _ (gi_good _ _ G)).
        + exists false, m1. repeat (split; [assumption|]). split.
          * cbn [perform] in E. destruct (lookup t (reloads m)) as [e|] eqn:L; [|discriminate E]. destruct (reloadEnd b e oc (world m)) as [(ok, w)|]; [|discriminate E]. cbn in E. injection E as _ <-. cbn.
            destruct busy; cbn in B; [|rewrite B in L; discriminate L]. destruct B as (t' & B). rewrite B in *. cbn in L |- *. destruct (Nat.eqb t t'); [reflexivity|discriminate L].
          * cbn in O. destruct oc as [| |f [|]]; tauto.
      - exfalso. cbn in O. destruct Q as [(f & ->)|Q]; [exact O|]. destruct busy; cbn in B; [|rewrite B in I; destruct I].
        destruct B as (t' & B). rewrite B in I. destruct I as [I|[]]. injection I as _ <-. apply Q. now left. }
    destruct N as (busy' & m1 & E & G1 & B1 & O1). destruct (IH _ _ G1 B1 O1) as (m' & P & G'). exists m'. cbn [performAll]. rewrite E, P. auto.
Qed.

Lemma start_ok file : ginv (view0 file) (start file).
Proof.
  constructor; cbn; [|reflexivity|constructor]. constructor; cbn; auto.
  - tauto.
  - intros i d E. destruct i as [|[|i]]; cbn in E; try discriminate E. injection E as <-. reflexivity.
  - intros i d E. destruct i as [|[|i]]; cbn in E; try discriminate E. injection E as <-. cbn. tauto.
  - intros i d f E Ef A. destruct i as [|[|i]]; cbn in E; try discriminate E. injection E as <-. cbn in Ef. injection Ef as <-. reflexivity.
  - intros f. split; [tauto|]. intros (i & X & Y). destruct i as [|[|i]]; cbn in X; try discriminate X. apply Y. now left.
Qed.
