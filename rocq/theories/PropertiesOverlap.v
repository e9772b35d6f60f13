(* C121: threads whose reads overlap (property.c, value.c, profile.c, collection.c, cache.c, file.c) *)
From Verif Require Import TreeModel CacheModel CacheSpec CollectionModel CollectionSpec CollectionProps PropertiesCollection.
From Verif Require ItemModel.
From Verif Require Import SearchModel ProfileModel ProfileSpec ProfileProofs PropertiesProfile DbModel DbSpec DbProofs DbFound PropertiesDb.
From Verif Require Import CallsModel CallsSpec CallsGet CallsWorld CallsProofs PropertiesCalls.
From Verif Require Import ThreadsModel ThreadsSpec ThreadsSafe ThreadsProofs PropertiesThreads.
From Verif Require Import OverlapModel OverlapSpec OverlapProofs OverlapRun OverlapLocks.
Local Open Scope Z_scope.

Lemma handles_kept : forall file pl d u compareOther cap count w, dbOK d -> stored file pl d -> allOpened file pl u -> compatible u -> readyFor cap file d u w ->
  forall tr n st, ThreadsSpec.exec file d u compareOther cap count w tr n st -> handles (shared st) = handles w.
Proof.
  intros file pl d u compareOther cap count w D St Op Co Rd tr n st E. destruct (startFor file d u cap w Rd) as (use0 & out0 & room & HI & Hh & Hc).
  destruct (exec_inv file pl d u D St Op Co compareOther out0 room use0 _ _ Hh cap Hc count w HI tr n st E) as ((_ & os & _ & Hi & _) & _). exact (i_handles _ _ _ _ _ _ _ _ Hi).
Qed.
(* reads that overlap have the effects of reads that do not: the same events, calls, items, caches and memory *)
Theorem overlap_serial : forall file pl d u compareOther cap limit count w tr n os, dbOK d -> stored file pl d -> allOpened file pl u -> compatible u -> readyFor cap file d u w -> (limit <= handles w)%nat ->
  oexec file d u compareOther cap limit count w tr n os ->
  exists n' st, ThreadsSpec.exec file d u compareOther cap count w tr n' st /\ threads st = threads (inner os) /\ colls (shared st) = colls (shared (inner os)) /\ heap (shared st) = heap (shared (inner os)).
Proof.
  intros file pl d u compareOther cap limit count w tr n os D St Op Co Rd Lm E.
  destruct (serial file d u compareOther cap limit count w Lm (handles_kept file pl d u compareOther cap count w D St Op Co Rd) tr n os E) as (_ & n' & X & _). exists n', (before os). auto.
Qed.
Print Assumptions overlap_serial.
(* what any call of any thread returned is what is stored *)
Theorem overlap_answers : forall file pl d u compareOther cap limit count w tr n os t q r, dbOK d -> stored file pl d -> allOpened file pl u -> compatible u -> readyFor cap file d u w -> (limit <= handles w)%nat ->
  oexec file d u compareOther cap limit count w tr n os -> In (Returned t q r) tr -> correct d q (ans r) /\ clear r = true.
Proof.
  intros file pl d u compareOther cap limit count w tr n os t q r D St Op Co Rd Lm E H. destruct (overlap_serial file pl d u compareOther cap limit count w tr n os D St Op Co Rd Lm E) as (n' & st & X & _).
  exact (threads_answers file pl d u compareOther cap count w tr n' st t q r D St Op Co Rd X H).
Qed.
Print Assumptions overlap_answers.
(* each reader has a handle of its own, and who begins a get finds one *)
Theorem overlap_handles : forall file pl d u compareOther cap limit count w tr n os, dbOK d -> stored file pl d -> allOpened file pl u -> compatible u -> readyFor cap file d u w -> (limit <= handles w)%nat ->
  oexec file d u compareOther cap limit count w tr n os ->
  (length (reading os) + handles (shared (inner os)) = handles w)%nat /\ NoDup (map fst (reading os)) /\
  (forall t, In t (map fst (reading os)) -> exists s i, atGet os t s i) /\
  (forall t s i, atGet os t s i -> ~ In t (map fst (reading os)) -> (0 < handles (shared (inner os)))%nat).
Proof.
  intros file pl d u compareOther cap limit count w tr n os D St Op Co Rd Lm E.
  destruct (serial file d u compareOther cap limit count w Lm (handles_kept file pl d u compareOther cap count w D St Op Co Rd) tr n os E) as (HI & _).
  split; [exact (oi_all _ _ HI)|]. split; [exact (oi_nodup _ _ HI)|]. split.
  - intros t H. apply in_map_iff in H. destruct H as ((z, l) & Ez & H). cbn [fst] in Ez. subst z. pose proof (oi_get _ _ HI _ _ H) as G. unfold getting in G.
    destruct (nth_error (threads (inner os)) t) as [th|] eqn:Et; [|discriminate]. destruct (running th) as [(q, p)|] eqn:Er; [|discriminate]. destruct p as [r| |s i okay it kk|s it kk|s kk]; try discriminate.
    exists s, i, th, q, okay, it, kk. auto.
  - intros t s i (th & q & okay & it & k & A & B) No. apply (handle_there w os t HI); [|exact No]. unfold getting. now rewrite A, B.
Qed.
Print Assumptions overlap_handles.
(* one reader to a shard; and when the bytes are read the key is still not in the tree *)
Theorem overlap_locks : forall file pl d u compareOther cap limit count w tr n os, dbOK d -> stored file pl d -> allOpened file pl u -> compatible u -> readyFor cap file d u w -> (limit <= handles w)%nat ->
  oexec file d u compareOther cap limit count w tr n os ->
  (forall t t' m, In (t, Some m) (reading os) -> In (t', Some m) (reading os) -> t' = t) /\
  (forall t l s i, In (t, l) (reading os) -> atGet os t s i -> l = lockOfGet (shared (inner os)) s i /\ willRead (kindOf s) (fuelOf u s) (colls (shared (inner os)) s) i = true).
Proof.
  intros file pl d u compareOther cap limit count w tr n os D St Op Co Rd Lm E.
  destruct (locks file d u compareOther cap limit count w Lm (handles_kept file pl d u compareOther cap count w D St Op Co Rd) tr n os E) as (A & B). auto.
Qed.
Print Assumptions overlap_locks.
(* a step can be done, or its mutex is held by another thread, which can go on *)
Theorem overlap_goes : forall file pl d u compareOther cap limit count w tr n os t a, dbOK d -> stored file pl d -> allOpened file pl u -> compatible u -> readyFor cap file d u w -> (limit <= handles w)%nat ->
  oexec file d u compareOther cap limit count w tr n os -> possible (inner os) t a -> oadmissible d u cap limit os a ->
  (exists os' e, ostep file (fuelOf u) compareOther t a os = Some (os', e)) \/
  (exists l t' os', needs os t a l /\ t' <> t /\ In (t', Some l) (reading os) /\ ostep file (fuelOf u) compareOther t' Go os = Some (os', []) /\ ~ In (Some l) (map snd (reading os'))).
Proof.
  intros file pl d u compareOther cap limit count w tr n os t a D St Op Co Rd Lm E P Ad.
  pose proof (handles_kept file pl d u compareOther cap count w D St Op Co Rd) as K.
  pose proof (fun tr n st t a => threads_defined file pl d u compareOther cap count w tr n st t a D St Op Co Rd) as Df.
  destruct (serial file d u compareOther cap limit count w Lm K tr n os E) as (HI & _).
  destruct (o_defined file d u compareOther cap limit count w Lm K Df tr n os t a E P Ad) as (st' & e & Hs).
  destruct (done_or_waits file u compareOther w t a os st' e HI Hs) as [X|(l & t' & N & Hl & Ne)]; [left; exact X|right].
  destruct (reader_goes file d u compareOther cap limit count w Lm K Df tr n os t' E) as (os' & Ho & Rd' & _); [apply in_map_iff; exists (t', Some l); auto|].
  exists l, t', os'. split; [exact N|]. split; [exact Ne|]. split; [exact Hl|]. split; [exact Ho|]. rewrite Rd'. intros X. apply in_map_iff in X. destruct X as ((y, m) & Em & X). cbn [snd] in Em. subst m. apply finished_in in X. destruct X as (X & Ny).
  apply Ny. exact (proj1 (overlap_locks file pl d u compareOther cap limit count w tr n os D St Op Co Rd Lm E) t' y l Hl X).
Qed.
Print Assumptions overlap_goes.
(* a thread in a call returns from it if the others finish what they read *)
Theorem overlap_return : forall file pl d u compareOther cap limit count w tr n os t th q p, dbOK d -> stored file pl d -> allOpened file pl u -> compatible u -> readyFor cap file d u w -> (limit <= handles w)%nat ->
  oexec file d u compareOther cap limit count w tr n os -> nth_error (threads (inner os)) t = Some th -> running th = Some (q, p) ->
  exists l evs os' r, goes file u compareOther l os evs os' /\ In (Returned t q r) evs /\ correct d q (ans r) /\ clear r = true /\ (length l <= handles w + 2 * most d)%nat.
Proof.
  intros file pl d u compareOther cap limit count w tr n os t th q p D St Op Co Rd Lm E En Er.
  pose proof (handles_kept file pl d u compareOther cap count w D St Op Co Rd) as K.
  pose proof (fun tr n st t a => threads_defined file pl d u compareOther cap count w tr n st t a D St Op Co Rd) as Df.
  destruct (serial file d u compareOther cap limit count w Lm K tr n os E) as (HI & _). pose proof (oi_all _ _ HI) as Ha.
  destruct (others_finish file d u compareOther cap limit count w Lm K Df t (handles w) tr n os E ltac:(lia)) as (l1 & n1 & os1 & G1 & E1 & A1 & L1 & T1).
  destruct (serial file d u compareOther cap limit count w Lm K tr n1 os1 E1) as (_ & n' & X & _).
  destruct (threads_return file pl d u compareOther cap count w tr n' (before os1) t th q p D St Op Co Rd X) as (k & r & Hk & R & C1 & C2); [rewrite <- En; exact T1|exact Er|].
  destruct (alone_returns file d u compareOther cap limit count w Lm K t k _ q r R tr n1 os1 E1 A1 eq_refl) as (l2 & os2 & G2 & L2).
  exists (l1 ++ l2), ([Returned t q r] ++ []), os2, r. split; [exact (goes_app file u compareOther _ _ _ _ G1 _ _ _ G2)|]. split; [left; reflexivity|]. split; [exact C1|]. split; [exact C2|]. rewrite app_length. lia.
Qed.
Print Assumptions overlap_return.
(* its own steps are bounded, whatever the others do *)
Theorem overlap_steps : forall file pl d u compareOther cap limit count w tr n os t, dbOK d -> stored file pl d -> allOpened file pl u -> compatible u -> readyFor cap file d u w -> (limit <= handles w)%nat ->
  oexec file d u compareOther cap limit count w tr n os -> (t < length (threads (inner os)))%nat -> (n t <= 2 * most d)%nat.
Proof.
  intros file pl d u compareOther cap limit count w tr n os t D St Op Co Rd Lm E Lt.
  pose proof (handles_kept file pl d u compareOther cap count w D St Op Co Rd) as K.
  pose proof (fun tr n st t a => threads_defined file pl d u compareOther cap count w tr n st t a D St Op Co Rd) as Df.
  destruct (serial file d u compareOther cap limit count w Lm K tr n os E) as (HI & n' & X & Hn). specialize (Hn t). destruct (isReading t (reading os)) eqn:Ir.
  - apply reading_in, in_map_iff in Ir. destruct Ir as ((z, l) & Ez & Hl). cbn [fst] in Ez. subst z. destruct (getting_running _ _ (oi_get _ _ HI _ _ Hl)) as (th & E1 & E2).
    assert (possible (before os) t Go) as P by (exists th; auto). destruct (Df _ _ _ _ _ X P Logic.I) as (st' & e & Hs).
    assert (ThreadsSpec.exec file d u compareOther cap count w (e ++ tr) (counted t Go n') st') as X' by (refine (exec_step _ _ _ _ _ _ _ _ _ _ t Go _ _ X _ Hs); exact Logic.I).
    pose proof (threads_steps file pl d u compareOther cap count w _ _ st' t D St Op Co Rd X') as B. rewrite (step_length file u compareOther _ _ _ _ _ Hs) in B. specialize (B Lt). unfold counted in B. rewrite Nat.eqb_refl in B. lia.
  - pose proof (threads_steps file pl d u compareOther cap count w tr n' (before os) t D St Op Co Rd X Lt). lia.
Qed.
Print Assumptions overlap_steps.
(* when no call runs and no item is kept, nobody reads, and neither memory nor file handles nor nodes are in use *)
Theorem overlap_restored : forall file pl d u compareOther cap limit count w tr n os, dbOK d -> stored file pl d -> allOpened file pl u -> compatible u -> readyFor cap file d u w -> (limit <= handles w)%nat ->
  oexec file d u compareOther cap limit count w tr n os -> busy (inner os) = 0%nat -> reading os = [] /\ restored w (shared (inner os)).
Proof.
  intros file pl d u compareOther cap limit count w tr n os D St Op Co Rd Lm E Hb.
  destruct (serial file d u compareOther cap limit count w Lm (handles_kept file pl d u compareOther cap count w D St Op Co Rd) tr n os E) as (HI & n' & X & _).
  assert (reading os = []) as R.
  { destruct (reading os) as [|(t, l) r] eqn:Er; [reflexivity|exfalso]. destruct (getting_running (inner os) t) as (th & E1 & E2); [apply (oi_get _ _ HI t l); rewrite Er; left; reflexivity|].
    unfold busy in Hb. apply nth_error_split in E1. destruct E1 as (l1 & l2 & E1 & _). rewrite E1, map_app, list_sum_app in Hb. cbn [map] in Hb. unfold list_sum in Hb. cbn [fold_right] in Hb. unfold busyThread in Hb at 2. destruct (running th); [lia|congruence]. }
  split; [exact R|]. pose proof (threads_restored file pl d u compareOther cap count w tr n' (before os) D St Op Co Rd X Hb) as Y.
  unfold before, moreIn, more in Y. rewrite R in Y. exact Y.
Qed.
Print Assumptions overlap_restored.

(* ---- the data set of PropertiesDb.v with caches of two shards ---- *)
(* a schedule in which not more than cap calls run or items are kept, and not more than limit calls run *)
Fixpoint oruns (u : uses) (cap limit : nat) (l : list (nat * action)) (os : ostate) : option (ostate * list event) :=
  match l with
  | [] => Some (os, [])
  | (t, a) :: l =>
    if match a with Call _ => Nat.ltb (busy (inner os)) cap && Nat.ltb (inCalls (inner os)) limit | _ => true end then
      match ostep someDbFile (fuelOf u) cmp0 t a os with
      | Some (os, e1) => match oruns u cap limit l os with Some (os, e2) => Some (os, e2 ++ e1) | None => None end
      | None => None
      end
    else None
  end.
Definition withHandles (k : nat) (w : world) : world := mkWorld (colls w) (heap w) k (ios w).
Definition twoWith (k : nat) : world := withHandles k (worldOf two []).
(* what is seen: who returned what, who reads with which mutex, how many calls run or items are kept, memory, free file handles and nodes in use *)
Definition oshown (r : option (ostate * list event)) : option (list (nat * answer * bool) * list (nat * option lock) * nat * list (nat * Z) * nat * list Z) :=
  option_map (fun x => (map (fun e => match e with Returned t q r => (t, ans r, clear r) end) (snd x), reading (fst x), busy (inner (fst x)), ItemModel.live (heap (shared (inner (fst x)))), handles (shared (inner (fst x))),
    map (fun s => fold_right Z.add 0 (map (usersOf (colls (shared (inner (fst x))) s)) [(0, 0); (0, 1); (1, 0); (1, 1)]%nat)) [Texts; Props; Vals; Profs; Offs])) r.
Definition go (t k : nat) : list (nat * action) := repeat (t, Go) k.

Lemma oruns_exec u cap limit count w : forall l tr n os os' evs, oexec someDbFile someDb u cmp0 cap limit count w tr n os -> (forall t q, In (t, Call q) l -> allowed someDb u q) ->
  oruns u cap limit l os = Some (os', evs) -> exists n', oexec someDbFile someDb u cmp0 cap limit count w (evs ++ tr) n' os'.
Proof.
  induction l as [|(t, a) l IH]; intros tr n os os' evs E Al H; cbn [oruns] in H; [injection H as <- <-; exists n; exact E|].
  destruct (match a with Call _ => _ | _ => true end) eqn:Eb; [|discriminate]. destruct (ostep someDbFile (fuelOf u) cmp0 t a os) as [(os1, e1)|] eqn:Es; [|discriminate].
  destruct (oruns u cap limit l os1) as [(os2, e2)|] eqn:Er; [|discriminate]. injection H as <- <-.
  assert (oadmissible someDb u cap limit os a) as Ha.
  { destruct a as [q| |k]; cbn [oadmissible]; auto. apply andb_prop in Eb. destruct Eb as (E1 & E2). split; [apply (Al t q); left; reflexivity|]. split; apply Nat.ltb_lt; assumption. }
  destruct (IH _ _ _ _ _ (oexec_step _ _ _ _ _ _ _ _ _ _ _ _ _ _ _ E Ha Es) (fun t q X => Al t q (or_intror X)) Er) as (n' & E'). exists n'. rewrite <- app_assoc. exact E'.
Qed.
Lemma some_oexec u cap limit count w l os evs : oruns u cap limit l (ostart count w) = Some (os, evs) -> (forall t q, In (t, Call q) l -> allowed someDb u q) ->
  exists n, oexec someDbFile someDb u cmp0 cap limit count w evs n os.
Proof. intros R Al. destruct (oruns_exec u cap limit count w l [] _ _ os evs (oexec_start _ _ _ _ _ _ _ _) Al R) as (n & E). rewrite app_nil_r in E. eauto. Qed.
Lemma two_ready k : (0 < k)%nat -> readyFor 2 someDbFile someDb two (twoWith k).
Proof.
  intros Hk. split; [lia|]. split; [|split; [intros q n [E|[]]; injection E as <- <-; cbn; lia|split; [exact Hk|reflexivity]]].
  intros s. exists []. split; [constructor|]. intros X. cbn [outstanding]. split; destruct s; vm_compute; discriminate.
Qed.
(* the hypotheses hold for two calls at a time with two file handles *)
Example overlap_hypotheses : dbOK someDb /\ stored someDbFile somePlaces someDb /\ allOpened someDbFile somePlaces two /\ compatible two /\ readyFor 2 someDbFile someDb two (twoWith 2) /\ (2 <= handles (twoWith 2))%nat.
Proof.
  split; [exact someDb_ok|]. split; [exact someDb_stored|]. split; [exact two_opened|]. split; [split; vm_compute; reflexivity|]. split; [apply two_ready; lia|cbn; lia].
Qed.
Definition both (a b : query) : list (nat * action) := [(0%nat, Call a); (1%nat, Call b)].
Lemma types_allowed u l i j : (forall t q, In (t, Call q) l -> False) -> 0 <= i < 2 -> 0 <= j < 2 -> forall t q, In (t, Call q) (both (QType i) (QType j) ++ l) -> allowed someDb u q.
Proof.
  intros H Hi Hj t q X. apply in_app_iff in X. destruct X as [[X|[X|[]]]|X]; [injection X as _ <-; cbn [allowed someDb props length]; lia..|destruct (H t q X)].
Qed.
Lemma in_go t k t' q : In (t', Call q) (go t k) -> False.
Proof. unfold go. intros H. apply repeat_spec in H. discriminate. Qed.
(* two threads read at once, in two shards; a second thread cannot begin in the shard of the first and goes on once that has
   finished, without reading; while the items of other shards and collections are got and released *)
Example overlap_cases :
  oshown (oruns two 2 2 (both (QType 0) (QType 1) ++ go 0 1 ++ go 1 1) (ostart 2 (twoWith 2))) = Some ([], [(1%nat, Some (Props, 1%nat)); (0%nat, Some (Props, 0%nat))], 2%nat, [(3%nat, 5)], 0%nat, [0; 0; 0; 0; 0]) /\
  oshown (oruns two 2 2 (both (QType 0) (QType 1) ++ go 0 1 ++ go 1 4 ++ go 0 3) (ostart 2 (twoWith 2))) = Some ([(0%nat, AType 3, true); (1%nat, AType 3, true)], [], 0%nat, [(3%nat, 5)], 2%nat, [0; 0; 0; 0; 0]) /\
  oshown (oruns two 2 2 (both (QType 0) (QType 0) ++ go 0 1 ++ go 1 1) (ostart 2 (twoWith 2))) = None /\
  oshown (oruns two 2 2 (both (QType 0) (QType 0) ++ go 0 2 ++ go 1 1) (ostart 2 (twoWith 2))) = Some ([], [], 2%nat, [(3%nat, 5)], 2%nat, [0; 2; 0; 0; 0]) /\
  oshown (oruns two 2 2 (both (QProfileIndex 0) (QType 1) ++ go 0 1 ++ go 1 4) (ostart 2 (twoWith 2))) = Some ([(1%nat, AType 3, true)], [(0%nat, Some (Offs, 0%nat))], 1%nat, [(3%nat, 5)], 1%nat, [0; 0; 0; 0; 0]) /\
  oshown (oruns two 2 2 (both (QType 0) (QType 1) ++ go 0 2 ++ go 1 1 ++ go 0 1) (ostart 2 (twoWith 2))) = Some ([], [(1%nat, Some (Props, 1%nat))], 2%nat, [(3%nat, 5)], 1%nat, [0; 0; 0; 0; 0]).
Proof. vm_compute. repeat split. Qed.
(* without caches two threads read the same item at once; from memory nobody reads *)
Definition plainUses (c : config) : uses := usesOf c c c c c.
Example overlap_plain_cases :
  oshown (oruns (plainUses byFile) 2 2 (both (QType 0) (QType 0) ++ go 0 1 ++ go 1 1) (ostart 2 (worldOf (plainUses byFile) []))) = Some ([], [(1%nat, None); (0%nat, None)], 2%nat, [(3%nat, 5)], 0%nat, [0; 0; 0; 0; 0]) /\
  option_map (fun x => (reading (fst x), handles (shared (inner (fst x))))) (oruns (plainUses byFile) 2 2 (both (QType 0) (QType 0) ++ go 0 1 ++ go 1 1 ++ go 0 1) (ostart 2 (worldOf (plainUses byFile) []))) = Some ([(1%nat, None)], 1%nat) /\
  oshown (oruns (plainUses InMemory) 2 2 (both (QType 0) (QType 0) ++ go 0 1 ++ go 1 1) (ostart 2 (worldOf (plainUses InMemory) []))) = Some ([], [], 2%nat, [(3%nat, 5)], 2%nat, [0; 0; 0; 0; 0]).
Proof. vm_compute. repeat split. Qed.
(* out of range there is no read; what was loaded at the start is not read and needs no mutex *)
Definition firstLoaded : uses := plainUses (FromFile 1 1 1).
Definition reads (u : uses) (i : Z) : bool * option nat := (willRead (kindOf Props) (fuelOf u Props) (ucoll (useOf u Props)) i, shardFor (ucoll (useOf u Props)) i).
Example overlap_read_cases : map (reads two) [0; 1; 2] = [(true, Some 0%nat); (true, Some 1%nat); (false, Some 0%nat)] /\ map (reads (plainUses byFile)) [0; 1; 2] = [(true, None); (true, None); (false, None)] /\
  map (reads firstLoaded) [0; 1; 2] = [(false, None); (true, Some 0%nat); (false, Some 0%nat)] /\ map (reads (plainUses InMemory)) [0; 1; 2] = [(false, None); (false, None); (false, None)].
Proof. vm_compute. repeat split. Qed.
(* with one shard a release waits for a reader, in a call and after it *)
Definition oneShard := cachesFor 4 1.
Definition seen (l : list (nat * action)) : option (list (nat * option lock) * nat) := option_map (fun x => (reading (fst x), busy (inner (fst x)))) (oruns oneShard 2 2 l (ostart 2 (worldOf oneShard []))).
Example overlap_wait_cases :
  let got := both (QType 0) (QType 1) ++ go 0 2 ++ go 1 1 in
  let kept := whole 0 (QProfileIndex 0) 6 ++ whole 1 (QProfileIndex 1) 3 in
  seen got = Some ([(1%nat, Some (Props, 0%nat))], 2%nat) /\ seen (got ++ go 0 1) = None /\ seen (got ++ go 1 1 ++ go 0 1) = Some ([], 2%nat) /\
  seen kept = Some ([(1%nat, Some (Profs, 0%nat))], 2%nat) /\ seen (kept ++ [(0%nat, GiveBack 0)]) = None /\ seen (kept ++ go 1 1 ++ [(0%nat, GiveBack 0)]) = Some ([], 1%nat).
Proof. vm_compute. repeat split. Qed.
(* that is an execution, in which two threads read at once *)
Example overlap_executions : exists n os, oexec someDbFile someDb two cmp0 2 2 2 (twoWith 2) [] n os /\ length (reading os) = 2%nat /\ atGet os 0 Props 0 /\ atGet os 1 Props 1 /\ ~ In 7%nat (map fst (reading os)).
Proof.
  destruct (oruns two 2 2 (both (QType 0) (QType 1) ++ go 0 1 ++ go 1 1) (ostart 2 (twoWith 2))) as [(os, e)|] eqn:E; [|vm_compute in E; discriminate].
  destruct overlap_cases as (C & _). rewrite E in C. cbn [oshown option_map fst snd] in C. injection C as C1 C2 _ _ _ _. destruct e as [|x e]; [|discriminate].
  destruct (some_oexec two 2 2 2 (twoWith 2) _ os [] E) as (n & X).
  { apply types_allowed; [|lia..]. intros t q Hq. apply in_app_iff in Hq. destruct Hq as [Hq|Hq]; exact (in_go _ _ _ _ Hq). }
  assert (option_map (fun x => map (fun th => match running th with Some (_, GetIt s i _ _ _) => Some (s, i) | _ => None end) (threads (inner (fst x)))) (oruns two 2 2 (both (QType 0) (QType 1) ++ go 0 1 ++ go 1 1) (ostart 2 (twoWith 2))) = Some [Some (Props, 0); Some (Props, 1)]) as Y by (vm_compute; reflexivity).
  rewrite E in Y. cbn [option_map fst] in Y. injection Y as Y. exists n, os. split; [exact X|]. rewrite C2. split; [reflexivity|].
  destruct (threads (inner os)) as [|th0 [|th1 r]] eqn:Et; cbn [map] in Y; try discriminate. injection Y as Y0 Y1 _.
  split; [|split].
  - destruct (running th0) as [(q, [ | |s i okay it k| | ])|] eqn:Er; try discriminate. injection Y0 as <- <-. exists th0, q, okay, it, k. rewrite Et. auto.
  - destruct (running th1) as [(q, [ | |s i okay it k| | ])|] eqn:Er; try discriminate. injection Y1 as <- <-. exists th1, q, okay, it, k. rewrite Et. auto.
  - cbn [map fst In]. lia.
Qed.

(* refuted for more calls at a time than file handles, though the caches have nodes for them: a call fails and its
   node stays in use with no call in progress and no item kept; after that has happened twice a thread that is
   alone gets the type 0 for a property of another type, and no exception is set *)
Lemma some_inj {A} (a b : A) : Some a = Some b -> a = b.
Proof. congruence. Qed.
Definition shortage (q : query) (k : nat) : list (nat * action) := both q (QType 1) ++ go 0 1 ++ go 1 2 ++ go 0 k.
Definition shortages : list (nat * action) := shortage (QType 0) 3 ++ shortage (QProfileIndex 0) 5 ++ [(0%nat, GiveBack 0)].
Theorem overlap_few_handles_refuted : readyFor 2 someDbFile someDb two (twoWith 1) /\ handles (twoWith 1) = 1%nat /\ nth_error (props someDb) 1 = Some (someProp 1 2 2) /\ ptype (someProp 1 2 2) = 3 /\
  (exists tr n os r, oexec someDbFile someDb two cmp0 2 2 2 (twoWith 1) tr n os /\ In (Returned 1 (QType 1) r) tr /\ clear r = false /\ busy (inner os) = 0%nat /\ ~ restored (twoWith 1) (shared (inner os))) /\
  (exists tr n os r evs os', oexec someDbFile someDb two cmp0 2 2 2 (twoWith 1) tr n os /\ busy (inner os) = 0%nat /\
     oruns two 2 2 (whole 1 (QType 1) 2) os = Some (os', evs) /\ In (Returned 1 (QType 1) r) evs /\ ans r = AType 0 /\ clear r = true).
Proof.
  split; [apply two_ready; lia|]. split; [reflexivity|]. split; [reflexivity|]. split; [reflexivity|]. split.
  - destruct (oruns two 2 2 (shortage (QType 0) 3) (ostart 2 (twoWith 1))) as [(os, e)|] eqn:E; [|vm_compute in E; discriminate].
    destruct (some_oexec two 2 2 2 (twoWith 1) _ os e E) as (n & X).
    { unfold shortage. apply types_allowed; [|lia..]. intros t q H. apply in_app_iff in H. destruct H as [H|H]; [exact (in_go _ _ _ _ H)|]. apply in_app_iff in H. destruct H as [H|H]; exact (in_go _ _ _ _ H). }
    assert (option_map (fun x => (map (fun e => match e with Returned t q r => (t, q, clear r) end) (snd x), busy (inner (fst x)), usersOf (colls (shared (inner (fst x))) Props) (1, 0)%nat)) (oruns two 2 2 (shortage (QType 0) 3) (ostart 2 (twoWith 1))) =
      Some ([(0%nat, QType 0, true); (1%nat, QType 1, false)], 0%nat, 1)) as Y by (vm_compute; reflexivity).
    rewrite E in Y. cbn [option_map fst snd] in Y. injection Y as Y1 Y2 Y3. clear E. destruct e as [|[t0 q0 r0] [|[t1 q1 r1] [|]]]; cbn [map] in Y1; try discriminate Y1. injection Y1 as _ _ _ -> -> Yc.
    exists [Returned t0 q0 r0; Returned 1 (QType 1) r1], n, os, r1. split; [exact X|]. split; [right; left; reflexivity|]. split; [exact Yc|]. split; [exact Y2|].
    intros (_ & _ & H). specialize (H Props (1, 0)%nat). rewrite Y3 in H. vm_compute in H. discriminate.
  - destruct (oruns two 2 2 shortages (ostart 2 (twoWith 1))) as [(os, e)|] eqn:E; [|vm_compute in E; discriminate].
    destruct (some_oexec two 2 2 2 (twoWith 1) _ os e E) as (n & X).
    { intros t q H. unfold shortages in H. apply in_app_iff in H. destruct H as [H|H].
      - revert t q H. unfold shortage. apply types_allowed; [|lia..]. intros t q H. apply in_app_iff in H. destruct H as [H|H]; [exact (in_go _ _ _ _ H)|]. apply in_app_iff in H. destruct H as [H|H]; exact (in_go _ _ _ _ H).
      - apply in_app_iff in H. destruct H as [H|[H|[]]]; [|discriminate]. unfold shortage in H. apply in_app_iff in H. destruct H as [[H|[H|[]]]|H]; [injection H as _ <-; cbn; lia..|].
        exfalso. apply in_app_iff in H. destruct H as [H|H]; [exact (in_go _ _ _ _ H)|]. apply in_app_iff in H. destruct H as [H|H]; exact (in_go _ _ _ _ H). }
    assert (option_map (fun x => busy (inner (fst x))) (oruns two 2 2 shortages (ostart 2 (twoWith 1))) = Some 0%nat) as Y1 by (vm_compute; reflexivity).
    assert (option_map (fun x => option_map (fun y => map (fun e => match e with Returned t q r => (t, q, ans r, clear r) end) (snd y)) (oruns two 2 2 (whole 1 (QType 1) 2) (fst x))) (oruns two 2 2 shortages (ostart 2 (twoWith 1))) =
      Some (Some [(1%nat, QType 1, AType 0, true)])) as Y2 by (vm_compute; reflexivity).
    rewrite E in Y1, Y2. cbn [option_map fst] in Y1, Y2. clear E. apply some_inj in Y1, Y2. destruct (oruns two 2 2 (whole 1 (QType 1) 2) os) as [(os', e')|] eqn:E'; [|discriminate Y2]. cbn [option_map snd] in Y2. apply some_inj in Y2.
    destruct e' as [|[t0 q0 r0] [|]]; cbn [map] in Y2; try discriminate Y2. injection Y2 as -> -> Ya Yc. exists e, n, os, r0, [Returned 1 (QType 1) r0], os'.
    split; [exact X|]. split; [exact Y1|]. split; [exact E'|]. split; [left; reflexivity|]. auto.
Qed.
Print Assumptions overlap_few_handles_refuted.
