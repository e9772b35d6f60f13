(* The mutexes of threads whose gets overlap: one reader to a shard, and what it was to
   read is still missing when it has read it *)
From Verif Require Import TreeModel CacheModel CacheSpec CacheRun CollectionModel CollectionSpec ProfileModel DbModel DbSpec.
From Verif Require ItemModel.
From Verif Require Import CallsModel CallsSpec.
From Verif Require Import ThreadsModel ThreadsSpec ThreadsProofs OverlapModel OverlapSpec OverlapProofs.
Local Open Scope Z_scope.

(* ---- one collection ---- *)
Definition missing (fl : nat) (cc : cache (list Z)) (i : Z) : bool := match cacheGet fl (toInt32 i) false [] cc with Some ((_, OFailed _ _), _) => true | _ => false end.
Lemma missing_same fl (cc cc' : cache (list Z)) i : length (shards cc') = length (shards cc) ->
  (forall z, shardIndex (Z.of_nat (length (shards cc))) (toInt32 i) = Some z -> nth_error (shards cc') (Z.to_nat z) = nth_error (shards cc) (Z.to_nat z)) -> missing fl cc' i = missing fl cc i.
Proof.
  intros L N. unfold missing, cacheGet. rewrite L. destruct (shardIndex (Z.of_nat (length (shards cc))) (toInt32 i)) as [z|]; [|reflexivity]. rewrite (N z eq_refl).
  destruct (nth_error (shards cc) (Z.to_nat z)) as [s|]; [|reflexivity]. destruct (shardGet fl (toInt32 i) false [] s) as [(o, s')|]; reflexivity.
Qed.
(* the two collections agree on an index *)
Definition sameAt (k : kind) (fl : nat) (c c' : coll) (i : Z) : Prop := shardFor c' i = shardFor c i /\ willRead k fl c' i = willRead k fl c i.
Lemma cached_same k fl ci st cc cc' j x i : shards cc' = lupd (shards cc) j x -> shardFor (Cached ci st cc) i <> Some j -> sameAt k fl (Cached ci st cc) (Cached ci st cc') i.
Proof.
  intros E N. assert (length (shards cc') = length (shards cc)) as L by (rewrite E; apply length_lupd). split; cbn [shardFor willRead] in *; [now rewrite L|]. f_equal. apply (missing_same fl cc cc' i L).
  intros z Ez. rewrite Ez in N. rewrite E, nth_lupd. destruct (Nat.eqb_spec (Z.to_nat z) j) as [X|X]; [congruence|reflexivity].
Qed.
Lemma got_shards fl key ok v (cc cc' : cache (list Z)) j o : cacheGet fl key ok v cc = Some ((j, o), cc') ->
  exists z x, shardIndex (Z.of_nat (length (shards cc))) key = Some z /\ j = Z.to_nat z /\ shards cc' = lupd (shards cc) j x.
Proof.
  unfold cacheGet. destruct (shardIndex (Z.of_nat (length (shards cc))) key) as [z|]; [|discriminate]. destruct (nth_error (shards cc) (Z.to_nat z)) as [s|]; [|discriminate].
  destruct (shardGet fl key ok v s) as [(o', s')|]; [|discriminate]. intros H. injection H as <- _ <-. exists z, s'. auto.
Qed.
Lemma get_same file k fl : forall c f i' e c', collGet file k fl c f i' = Some (e, c') -> forall i, (forall j, shardFor c i = Some j -> shardFor c i' <> Some j) -> sameAt k fl c c' i.
Proof.
  fix IH 1. intros [ci b|ci st|ci st cc|ci b [n|]] f i' e c'; cbn [collGet].
  - destruct (getMemory ci b i'); intros H i _; injection H as _ <-; split; reflexivity.
  - destruct (getFile file k ci st f i'); [|discriminate]. intros H i _; injection H as _ <-; split; reflexivity.
  - destruct (getFromCache file k fl ci st cc f i') as [(e1, cc1)|] eqn:X; [|discriminate]. intros H i N. injection H as _ <-. unfold getFromCache in X.
    destruct (match fileRead file k st ci f i' with Some r => loaderCache r | None => (false, []) end) as (ok, v). destruct (cacheGet fl (toInt32 i') ok v cc) as [((j, o), cc2)|] eqn:Y; [|discriminate].
    assert (cc1 = cc2) as -> by (destruct o, (fileRead file k st ci f i') as [[]|]; try discriminate; congruence).
    destruct (got_shards _ _ _ _ _ _ _ _ Y) as (z & x & Ez & -> & Es). apply (cached_same k fl ci st cc cc2 (Z.to_nat z) x i Es). intros Z. apply (N _ Z). cbn [shardFor]. now rewrite Ez.
  - destruct (getMemory ci b i') as [m|] eqn:M; [intros H i _; injection H as _ <-; split; reflexivity|]. destruct (collGet file k fl n f i') as [(e1, n1)|] eqn:X; [|discriminate]. intros H i N. injection H as _ <-.
    unfold sameAt. cbn [shardFor willRead] in *. rewrite M in N. destruct (getMemory ci b i); [split; reflexivity|]. exact (IH _ _ _ _ _ X i N).
  - destruct (getMemory ci b i'); intros H i _; injection H as _ <-; split; reflexivity.
Qed.
Lemma failing_same k0 k fl : forall c i' r c', getFailing k0 fl c i' = Some (r, c') -> (exists ci st cc, serving c i' = Cached ci st cc) -> forall i, (forall j, shardFor c i = Some j -> shardFor c i' <> Some j) -> sameAt k fl c c' i.
Proof.
  fix IH 1. intros [ci b|ci st|ci st cc|ci b [n|]] i' r c'; cbn [getFailing serving].
  - intros _ (a1 & a2 & a3 & X). discriminate.
  - intros _ (a1 & a2 & a3 & X). discriminate.
  - destruct (cacheGet fl (toInt32 i') false [] cc) as [((j, o), cc2)|] eqn:Y; [|discriminate]. intros H _ i N. injection H as _ <-.
    destruct (got_shards _ _ _ _ _ _ _ _ Y) as (z & x & Ez & -> & Es). apply (cached_same k fl ci st cc cc2 (Z.to_nat z) x i Es). intros Z. apply (N _ Z). cbn [shardFor]. now rewrite Ez.
  - destruct (getFailing k0 fl n i') as [(r1, n1)|] eqn:X; [|discriminate]. intros H Sv i N. destruct (getMemory ci b i') as [m|] eqn:M; [destruct Sv as (a1 & a2 & a3 & Sv); discriminate|]. injection H as _ <-.
    unfold sameAt. cbn [shardFor willRead] in *. rewrite M in N. destruct (getMemory ci b i); [split; reflexivity|]. exact (IH _ _ _ _ X Sv i N).
  - intros _ (a1 & a2 & a3 & X). discriminate.
Qed.
Lemma release_same k fl : forall c n c', collRelease c n = Some c' -> forall i, shardFor c i <> Some (fst n) -> sameAt k fl c c' i.
Proof.
  fix IH 1. intros [ci b|ci st|ci st cc|ci b [x|]] n c'; cbn [collRelease]; try discriminate.
  - unfold cacheRelease. destruct (nth_error (shards cc) (fst n)) as [s|]; [|discriminate]. destruct (shardRelease (snd n) s) as [s'|]; [|discriminate]. intros H i N. injection H as <-. apply (cached_same k fl ci st cc _ (fst n) s' i); [reflexivity|exact N].
  - destruct (collRelease x n) as [x1|] eqn:X; [|discriminate]. intros H i N. injection H as <-. unfold sameAt. cbn [shardFor willRead] in *. destruct (getMemory ci b i); [split; reflexivity|]. exact (IH _ _ _ X i N).
Qed.

(* ---- what is shared ---- *)
(* only what a mutex protects has changed *)
Definition frame (fl : src -> nat) (l : option lock) (w w' : world) : Prop :=
  forall s i, (forall m, lockOfGet w s i = Some m -> l <> Some m) -> lockOfGet w' s i = lockOfGet w s i /\ willRead (kindOf s) (fl s) (colls w' s) i = willRead (kindOf s) (fl s) (colls w s) i.
Lemma frame_same fl l w w' : (forall x, colls w' x = colls w x) -> frame fl l w w'.
Proof. intros H s i _. unfold lockOfGet. rewrite H. auto. Qed.
Lemma src_eqb_eq a b : src_eqb a b = true <-> a = b.
Proof. destruct a, b; cbn; split; congruence. Qed.
Lemma frame_coll fl l w w' s c' : (forall x, colls w' x = if src_eqb x s then c' else colls w x) ->
  (forall i, (forall j, shardFor (colls w s) i = Some j -> l <> Some (s, j)) -> sameAt (kindOf s) (fl s) (colls w s) c' i) -> frame fl l w w'.
Proof.
  intros H K x i N. unfold lockOfGet in *. rewrite H. destruct (src_eqb x s) eqn:E; [|auto]. apply src_eqb_eq in E. subst x.
  destruct (K i) as (K1 & K2); [intros j Ej; apply N; now rewrite Ej|]. rewrite K1, K2. auto.
Qed.
Lemma get_frame file fl s i okay it w b ok it' w' : CallsModel.get file fl s i okay it w = Some (b, ok, it', w') -> frame fl (lockOfGet w s i) w w'.
Proof.
  assert (forall f e c', collGet file (kindOf s) (fl s) (colls w s) f i = Some (e, c') -> forall i0, (forall j, shardFor (colls w s) i0 = Some j -> lockOfGet w s i <> Some (s, j)) -> sameAt (kindOf s) (fl s) (colls w s) c' i0) as K.
  { intros f e c' G i0 N. apply (get_same file (kindOf s) (fl s) _ _ _ _ _ G). intros j Ej X. apply (N j Ej). unfold lockOfGet. now rewrite X. }
  unfold CallsModel.get. destruct okay.
  - unfold getClear. destruct (serving (colls w s) i) as [ci bb|ci st|ci st cc|ci bb nx].
    + destruct (collGet file (kindOf s) (fl s) (colls w s) (nextIo w) i) as [(e, c')|] eqn:G; [|discriminate]. destruct e as [? ? ?|? ? ?|?]; intros H; try discriminate; injection H as _ _ _ <-; (apply (frame_coll fl _ w _ s c'); [reflexivity|exact (K _ _ _ G)]).
    + set (f := if io_eqb (nextIo w) IoMemory && _ then IoOk else nextIo w).
      destruct (collGet file (kindOf s) (fl s) (colls w s) f i) as [(e, c')|] eqn:G; [|discriminate].
      destruct (ItemModel.getFile (heap (dropIo w)) (ItemModel.mkItem (idata it) None) (wayOf file (kindOf s) st ci f i)) as [((m, it2), [p|])|]; destruct e as [? ? ?|? ? ?|?]; intros H; try discriminate;
        injection H as _ _ _ <-; (apply (frame_coll fl _ w _ s c'); [reflexivity|exact (K _ _ _ G)]).
    + destruct (collGet file (kindOf s) (fl s) (colls w s) (nextIo w) i) as [(e, c')|] eqn:G; [|discriminate].
      destruct e as [? ? [n|]|? [st1|] [n|]|?]; intros H; try discriminate; injection H as _ _ _ <-; (apply (frame_coll fl _ w _ s c'); [reflexivity|exact (K _ _ _ G)]).
    + destruct (collGet file (kindOf s) (fl s) (colls w s) (nextIo w) i) as [(e, c')|] eqn:G; [|discriminate]. destruct e as [? ? ?|? ? ?|?]; intros H; try discriminate; injection H as _ _ _ <-; (apply (frame_coll fl _ w _ s c'); [reflexivity|exact (K _ _ _ G)]).
  - unfold getSet. destruct (serving (colls w s) i) as [ci bb|ci st|ci st cc|ci bb nx] eqn:Sv.
    + destruct (getMemory ci bb i); intros H; injection H as _ _ _ <-; apply frame_same; reflexivity.
    + intros H; injection H as _ _ _ <-; apply frame_same; reflexivity.
    + destruct (getFailing (kindOf s) (fl s) (colls w s) i) as [(lost, c')|] eqn:G; [|discriminate]. intros H; injection H as _ _ _ <-. apply (frame_coll fl _ w _ s c'); [reflexivity|].
      intros i0 N. apply (failing_same (kindOf s) (kindOf s) (fl s) _ _ _ _ G); [eauto|]. intros j Ej X. apply (N j Ej). unfold lockOfGet. now rewrite X.
    + destruct (getMemory ci bb i); intros H; injection H as _ _ _ <-; apply frame_same; reflexivity.
Qed.
Lemma with_frame fl m it w it' w' : releaseWith m it w = Some (it', w') -> (forall x, colls w' x = colls w x) \/ (m <> Nothing /\ exists x n, ihandle it = Node x n /\ frame fl (Some (x, fst n)) w w').
Proof.
  unfold releaseWith. destruct m, (ihandle it) as [| |p|x n]; intros H; try discriminate; try (injection H as _ <-; left; reflexivity).
  - destruct (ItemModel.free (heap w) p); [|discriminate]. injection H as _ <-. left. reflexivity.
  - destruct (collRelease (colls w x) n) as [c'|] eqn:R; [|discriminate]. injection H as _ <-. right. split; [discriminate|]. exists x, n. split; [reflexivity|].
    apply (frame_coll fl _ w _ x c'); [reflexivity|]. intros i N. apply (release_same _ _ _ _ _ R). intros X. exact (N _ X eq_refl).
Qed.
Lemma release_frame fl s it w it' w' : releaseIn s it w = Some (it', w') -> frame fl (lockOfRelease w s it) w w'.
Proof.
  unfold releaseIn, release, lockOfRelease. intros H.
  assert ((forall x, colls w' x = colls w x) \/ (methodIn w s <> Nothing /\ exists x n, ihandle it = Node x n /\ frame fl (Some (x, fst n)) w w')) as [S|(Nm & x & n & En & F)].
  - destruct (methodIn w s); try (exact (with_frame fl _ _ _ _ _ H)).
    destruct (ihandle it) as [| |p|x n] eqn:Eh, (icoll it) as [[[]|]|]; try discriminate; try (injection H as _ <-; left; reflexivity);
      (destruct (with_frame fl _ _ _ _ _ H) as [S|(_ & y & m & En & F)]; [left; exact S|right; split; [discriminate|]; exists y, m; split; [congruence|exact F]]).
  - apply frame_same, S.
  - rewrite En. destruct (methodIn w s); try exact F. contradiction.
Qed.

(* the mutex a step takes *)
Definition takes (st : state) (t : nat) (a : action) : option lock :=
  match nth_error (threads st) t with
  | None => None
  | Some th =>
    match a, running th with
    | Go, Some (_, GetIt s i _ _ _) => lockOfGet (shared st) s i
    | Go, Some (_, Release s it _) => lockOfRelease (shared st) s it
    | GiveBack k, None => match nth_error (items th) k with Some (s, it) => lockOfRelease (shared st) s it | None => None end
    | _, _ => None
    end
  end.
Lemma step_frame file fl cmp t a st st' e : step file fl cmp t a st = Some (st', e) -> frame fl (takes st t a) (shared st) (shared st').
Proof.
  unfold step, takes. destruct (nth_error (threads st) t) as [th|]; [|discriminate]. destruct a as [q| |k]; destruct (running th) as [(q', p)|]; try discriminate.
  - intros H. injection H as <- _. apply frame_same. reflexivity.
  - destruct p as [r| |s i okay it kk|s it kk|s kk]; cbn [stepProg]; try discriminate.
    + intros H. injection H as <- _. apply frame_same. reflexivity.
    + destruct (CallsModel.get file fl s i okay it (shared st)) as [(((b, ok), it'), w)|] eqn:G; [|discriminate]. intros H; injection H as <- _. exact (get_frame _ _ _ _ _ _ _ _ _ _ _ G).
    + destruct (releaseIn s it (shared st)) as [(it', w)|] eqn:G; [|discriminate]. intros H; injection H as <- _. exact (release_frame _ _ _ _ _ _ G).
    + intros H. injection H as <- _. apply frame_same. reflexivity.
  - destruct (nth_error (items th) k) as [(s, it)|]; [|discriminate]. destruct (releaseIn s it (shared st)) as [(it', w)|] eqn:G; [|discriminate]. intros H; injection H as <- _. exact (release_frame _ _ _ _ _ _ G).
Qed.
Lemma takes_free file fl cmp t a os os' e : ostep file fl cmp t a os = Some (os', e) -> ~ In t (map fst (reading os)) -> isHeld (takes (inner os) t a) (reading os) = false.
Proof.
  unfold ostep, takes. destruct (nth_error (threads (inner os)) t) as [th|]; [|discriminate]. intros H No.
  destruct a as [q| |k]; destruct (running th) as [(q', p)|]; try reflexivity.
  - destruct p as [r| |s i okay it kk|s it kk|s kk]; try reflexivity.
    + destruct (isReading t (reading os)) eqn:X; [apply reading_in in X; contradiction|]. destruct (isHeld (lockOfGet (shared (inner os)) s i) (reading os)); [discriminate|reflexivity].
    + destruct (isHeld (lockOfRelease (shared (inner os)) s it) (reading os)); [discriminate|reflexivity].
  - destruct (nth_error (items th) k) as [(s, it)|]; [|reflexivity]. destruct (isHeld (lockOfRelease (shared (inner os)) s it) (reading os)); [discriminate|reflexivity].
Qed.

Section Locks.
  Context (file : list Z) (d : db) (u : uses) (cmp : list Z -> list Z -> Z) (cap limit count : nat) (w0 : world) (lim : (limit <= handles w0)%nat).
  Notation ostep := (ostep file (fuelOf u) cmp).
  Notation step := (step file (fuelOf u) cmp).
  Notation exec := (ThreadsSpec.exec file d u cmp cap count w0).
  Notation oexec := (oexec file d u cmp cap limit count w0).
  Context (kept : forall tr n st, exec tr n st -> handles (shared st) = handles w0).

  Lemma at_unique os t s i s' i' : atGet os t s i -> atGet os t s' i' -> s' = s /\ i' = i.
  Proof using Type. intros (th & q & o & it & k & A & B) (th' & q' & o' & it' & k' & A' & B'). rewrite A in A'. injection A' as <-. rewrite B in B'. injection B' as _ <- <- _ _ _. auto. Qed.
  Lemma at_same os os' t s i : nth_error (threads (inner os')) t = nth_error (threads (inner os)) t -> atGet os' t s i -> atGet os t s i.
  Proof using Type. intros E (th & q & o & it & k & A & B). exists th, q, o, it, k. rewrite <- E. auto. Qed.
  Lemma locks tr n os : oexec tr n os ->
    (forall t l s i, In (t, l) (reading os) -> atGet os t s i -> l = lockOfGet (shared (inner os)) s i /\ willRead (kindOf s) (fuelOf u s) (colls (shared (inner os)) s) i = true) /\
    (forall t t' m, In (t, Some m) (reading os) -> In (t', Some m) (reading os) -> t' = t).
  Proof using lim kept.
    induction 1 as [|tr n os t a os' e E (A & B) Ha Hs]; [split; [intros t l s i []|intros t t' m []]|].
    pose proof (proj1 (serial file d u cmp cap limit count w0 lim kept tr n os E)) as HI. pose proof (takes_free file (fuelOf u) cmp t a os os' e Hs) as Free. pose proof (kind_step file u cmp t a os os' e Hs) as K.
    pose proof (kind_before file u cmp w0 t a os os' e HI K) as Bf.
    destruct K as [l -> -> No G Hh (s0 & i0 & At0 & -> & Hf & Hw) ->|st' -> X Es ->|st' X Es ->]; cbn [reading inner shared] in *.
    - split.
      + intros x l s i [Hx|Hx] At.
        * injection Hx as <- <-. destruct (at_unique os t s0 i0 s i At0 At) as (-> & ->). split; [reflexivity|exact Hw].
        * exact (A x l s i Hx At).
      + intros x y m [Hx|Hx] [Hy|Hy].
        * injection Hx as <- _. injection Hy as <- _. reflexivity.
        * exfalso. injection Hx as <- Em. assert (isHeld (Some m) (reading os) = true) as Z by (apply held_in; eauto). congruence.
        * exfalso. injection Hy as <- Em. assert (isHeld (Some m) (reading os) = true) as Z by (apply held_in; eauto). congruence.
        * exact (B x y m Hx Hy).
    - split.
      + intros x l s i Hx At. apply finished_in in Hx. destruct Hx as (Hx & Ne). cbn [fst] in Ne. apply (at_same os _ x) in At; [|cbn [inner]; exact (step_others file u cmp _ _ _ _ _ x Es Ne)].
        destruct (A x l s i Hx At) as (-> & Hw). pose proof (step_frame file (fuelOf u) cmp _ _ _ _ _ Es s i) as F.
        change (shared (mkState (giveHandle (shared (inner os))) (threads (inner os)))) with (giveHandle (shared (inner os))) in F.
        change (lockOfGet (giveHandle (shared (inner os))) s i) with (lockOfGet (shared (inner os)) s i) in F. change (colls (giveHandle (shared (inner os))) s) with (colls (shared (inner os)) s) in F.
        destruct F as (F1 & F2); [|rewrite F1, F2; auto]. intros m Em T.
        (* the mutex of the thread that ends is its own *)
        apply in_map_iff in X. destruct X as ((z, lt) & Ez & X). cbn [fst] in Ez. subst z. pose proof (oi_get _ _ HI _ _ X) as G. unfold getting in G.
        destruct (nth_error (threads (inner os)) t) as [th|] eqn:Et; [|discriminate]. destruct (running th) as [(q, p)|] eqn:Er; [|discriminate]. destruct p as [r| |s1 i1 okay it kk|s1 it kk|s1 kk]; try discriminate.
        assert (atGet os t s1 i1) as At1 by (exists th, q, okay, it, kk; auto). destruct (A t lt s1 i1 X At1) as (-> & _).
        unfold takes in T. cbn [threads shared] in T. rewrite Et, Er in T. change (lockOfGet (giveHandle (shared (inner os))) s1 i1) with (lockOfGet (shared (inner os)) s1 i1) in T.
        rewrite T in X. rewrite Em in Hx. apply Ne. exact (B t x m X Hx).
      + intros x y m Hx Hy. apply finished_in in Hx, Hy. exact (B x y m (proj1 Hx) (proj1 Hy)).
    - destruct Bf as [(_ & _ & _ & I1 & I2 & _)|(_ & I1)]; [contradiction|]. assert (~ In t (map fst (reading os))) as No by (intros Y; apply I1 in Y; destruct Y; contradiction).
      specialize (Free No). split; [|exact B]. intros x l s i Hx At. assert (x <> t) as Ne by (intros ->; apply No; apply in_map_iff; exists (t, l); auto).
      apply (at_same os _ x) in At; [|cbn [inner]; exact (step_others file u cmp _ _ _ _ _ x Es Ne)]. destruct (A x l s i Hx At) as (-> & Hw).
      destruct (step_frame file (fuelOf u) cmp _ _ _ _ _ Es s i) as (F1 & F2); [|rewrite F1, F2; auto]. intros m Em T. rewrite T in Free. rewrite Em in Hx.
      assert (isHeld (Some m) (reading os) = true) as Z by (apply held_in; eauto). congruence.
  Qed.
End Locks.
