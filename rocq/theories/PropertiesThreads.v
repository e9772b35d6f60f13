(* C118: threads that search the same data set (property.c, value.c, profile.c) *)
From Verif Require Import TreeModel CacheModel CacheSpec CollectionModel CollectionSpec CollectionProps PropertiesCollection.
From Verif Require ItemModel.
From Verif Require Import SearchModel ProfileModel ProfileSpec ProfileProofs PropertiesProfile DbModel DbSpec DbProofs DbFound PropertiesDb.
From Verif Require Import CallsModel CallsSpec CallsGet CallsWorld CallsProofs PropertiesCalls.
From Verif Require ThreadsAlone.
From Verif Require Import ThreadsModel ThreadsSpec ThreadsSafe ThreadsProofs.
Local Open Scope Z_scope.

(* what any call of any thread returned is what is stored *)
Theorem threads_answers : forall file pl d u compareOther cap count w tr n st t q r, dbOK d -> stored file pl d -> allOpened file pl u -> compatible u -> readyFor cap file d u w ->
  ThreadsSpec.exec file d u compareOther cap count w tr n st -> In (Returned t q r) tr -> correct d q (ans r) /\ clear r = true.
Proof.
  intros file pl d u compareOther cap count w tr n st t q r D St Op Co Rd E H. destruct (startFor file d u cap w Rd) as (use0 & out0 & room & HI & Hh & Hc).
  destruct (exec_inv file pl d u D St Op Co compareOther out0 room use0 _ _ Hh cap Hc count w HI tr n st E) as (_ & F). rewrite Forall_forall in F. exact (F _ H).
Qed.
Print Assumptions threads_answers.
(* every step is defined: of a call, the start of one, and the release of an item returned *)
Theorem threads_defined : forall file pl d u compareOther cap count w tr n st t a, dbOK d -> stored file pl d -> allOpened file pl u -> compatible u -> readyFor cap file d u w ->
  ThreadsSpec.exec file d u compareOther cap count w tr n st -> possible st t a -> admissible d u cap st a -> exists st' evs, step file (fuelOf u) compareOther t a st = Some (st', evs).
Proof.
  intros file pl d u compareOther cap count w tr n st t a D St Op Co Rd E Hp Ha. destruct (startFor file d u cap w Rd) as (use0 & out0 & room & HI & Hh & Hc).
  destruct (exec_inv file pl d u D St Op Co compareOther out0 room use0 _ _ Hh cap Hc count w HI tr n st E) as (Hi & _).
  destruct (step_all file pl d u D St Op Co compareOther out0 room use0 _ _ Hh cap Hc n st t a Hi Ha Hp) as (st' & evs & Hs & _). eauto.
Qed.
Print Assumptions threads_defined.
(* a thread in a call returns from it, in a number of its own steps that the others cannot change *)
Theorem threads_return : forall file pl d u compareOther cap count w tr n st t th q p, dbOK d -> stored file pl d -> allOpened file pl u -> compatible u -> readyFor cap file d u w ->
  ThreadsSpec.exec file d u compareOther cap count w tr n st -> nth_error (threads st) t = Some th -> running th = Some (q, p) ->
  exists k r, (n t + k <= most d)%nat /\ returns file u compareOther t k st q r /\ correct d q (ans r) /\ clear r = true.
Proof.
  intros file pl d u compareOther cap count w tr n st t th q p D St Op Co Rd E En Er. destruct (startFor file d u cap w Rd) as (use0 & out0 & room & HI & Hh & Hc).
  destruct (exec_inv file pl d u D St Op Co compareOther out0 room use0 _ _ Hh cap Hc count w HI tr n st E) as (Hi & _).
  exact (go_on file pl d u D St Op Co compareOther out0 room use0 _ _ Hh cap Hc _ n st t th q p Hi En Er (le_n _)).
Qed.
Print Assumptions threads_return.
Theorem threads_steps : forall file pl d u compareOther cap count w tr n st t, dbOK d -> stored file pl d -> allOpened file pl u -> compatible u -> readyFor cap file d u w ->
  ThreadsSpec.exec file d u compareOther cap count w tr n st -> (t < length (threads st))%nat -> (n t <= most d)%nat.
Proof.
  intros file pl d u compareOther cap count w tr n st t D St Op Co Rd E Lt. destruct (startFor file d u cap w Rd) as (use0 & out0 & room & HI & Hh & Hc).
  destruct (exec_inv file pl d u D St Op Co compareOther out0 room use0 _ _ Hh cap Hc count w HI tr n st E) as (Hi & _). exact (inv_bound file d u out0 use0 _ _ Hh cap n st t Hi Lt).
Qed.
Print Assumptions threads_steps.
(* when no call runs and no item is kept, neither memory nor file handles nor nodes are *)
Theorem threads_restored : forall file pl d u compareOther cap count w tr n st, dbOK d -> stored file pl d -> allOpened file pl u -> compatible u -> readyFor cap file d u w ->
  ThreadsSpec.exec file d u compareOther cap count w tr n st -> busy st = 0%nat -> restored w (shared st).
Proof.
  intros file pl d u compareOther cap count w tr n st D St Op Co Rd E Hb. destruct (startFor file d u cap w Rd) as (use0 & out0 & room & HI & Hh & Hc).
  destruct (exec_inv file pl d u D St Op Co compareOther out0 room use0 _ _ Hh cap Hc count w HI tr n st E) as (Hi & _).
  exact (finish file pl d u D St Op _ _ _ _ _ _ HI (inv_idle file d u out0 use0 _ _ Hh cap n st Hi Hb)).
Qed.
Print Assumptions threads_restored.
(* the steps of a call, with no others between them, are the functions of CallsModel.v *)
Theorem threads_alone : forall file fuel compareOther w,
  (forall name it, alone file fuel (PropertyGetByName name it) w = CallsModel.PropertyGetByName file fuel name it w) /\
  (forall index, alone file fuel (PropertyGetValueType index) w = CallsModel.PropertyGetValueType file fuel index w) /\
  (forall property name, alone file fuel (ValueGetIndexByName compareOther property name) w = CallsModel.ValueGetIndexByName file fuel compareOther property name w) /\
  (forall property name it, alone file fuel (ValueGetByName compareOther property name it) w = CallsModel.ValueGetByName file fuel compareOther property name it w) /\
  (forall a b, alone file fuel (ProfileIterateProfilesForPropertyAndValue compareOther a b) w = CallsModel.ProfileIterateProfilesForPropertyAndValue file fuel compareOther a b w) /\
  (forall index it, alone file fuel (ProfileGetByIndex index it) w = CallsModel.ProfileGetByIndex file fuel index it w) /\
  (forall id it, alone file fuel (ProfileGetByProfileId id it) w = CallsModel.ProfileGetByProfileId file fuel id it w).
Proof.
  intros file fuel compareOther w. split; [|split; [|split; [|split; [|split; [|split]]]]]; intros.
  - apply ThreadsAlone.property_alone.
  - apply ThreadsAlone.type_alone.
  - apply ThreadsAlone.index_alone.
  - apply ThreadsAlone.value_alone.
  - apply ThreadsAlone.profiles_alone.
  - apply ThreadsAlone.byIndex_alone.
  - apply ThreadsAlone.byId_alone.
Qed.
Print Assumptions threads_alone.

(* ---- the data set of PropertiesDb.v, all of its collections with caches ---- *)
Definition cmp0 (_ _ : list Z) : Z := 0.
Definition cachesFor (capacity conc : Z) : uses := let c := FromFile 0 capacity conc in usesOf c c c c c.
Definition one := cachesFor 1 1.
Definition two := cachesFor 4 2.
(* a schedule in which not more than cap calls run or items are kept *)
Fixpoint runs (u : uses) (cap : nat) (l : list (nat * action)) (st : state) : option (state * list event) :=
  match l with
  | [] => Some (st, [])
  | (t, a) :: l =>
    if match a with Call _ => Nat.ltb (busy st) cap | _ => true end then
      match step someDbFile (fuelOf u) cmp0 t a st with
      | Some (st, e1) => match runs u cap l st with Some (st, e2) => Some (st, e2 ++ e1) | None => None end
      | None => None
      end
    else None
  end.
Definition begin (u : uses) (count : nat) : state := mkState (worldOf u []) (repeat (mkThread None []) count).
Definition whole (t : nat) (q : query) (k : nat) : list (nat * action) := (t, Call q) :: repeat (t, Go) k.
(* what is seen: who returned what, how many calls run or items are kept, memory, file handles and nodes in use *)
Definition shown (r : option (state * list event)) : option (list (nat * answer * bool) * nat * list (nat * Z) * nat * list Z) :=
  option_map (fun x => (map (fun e => match e with Returned t q r => (t, ans r, clear r) end) (snd x), busy (fst x), ItemModel.live (heap (shared (fst x))), handles (shared (fst x)),
    map (fun s => fold_right Z.add 0 (map (usersOf (colls (shared (fst x)) s)) [(0, 0); (0, 1); (1, 0); (1, 1)]%nat)) [Texts; Props; Vals; Profs; Offs])) r.
Lemma runs_exec u cap count : forall l tr n st st' evs, ThreadsSpec.exec someDbFile someDb u cmp0 cap count (worldOf u []) tr n st -> (forall t q, In (t, Call q) l -> allowed someDb u q) ->
  runs u cap l st = Some (st', evs) -> exists n', ThreadsSpec.exec someDbFile someDb u cmp0 cap count (worldOf u []) (evs ++ tr) n' st'.
Proof.
  induction l as [|(t, a) l IH]; intros tr n st st' evs E Al H; cbn [runs] in H; [injection H as <- <-; exists n; exact E|].
  destruct (match a with Call _ => Nat.ltb (busy st) cap | _ => true end) eqn:Eb; [|discriminate]. destruct (step someDbFile (fuelOf u) cmp0 t a st) as [(st1, e1)|] eqn:Es; [|discriminate].
  destruct (runs u cap l st1) as [(st2, e2)|] eqn:Er; [|discriminate]. injection H as <- <-.
  assert (admissible someDb u cap st a) as Ha by (destruct a as [q| |k]; cbn [admissible]; auto; split; [apply (Al t q); left; reflexivity|apply Nat.ltb_lt; exact Eb]).
  destruct (IH _ _ _ _ _ (exec_step _ _ _ _ _ _ _ _ _ _ _ _ _ _ E Ha Es) (fun t q X => Al t q (or_intror X)) Er) as (n' & E'). exists n'. rewrite <- app_assoc. exact E'.
Qed.
Lemma two_opened : allOpened someDbFile somePlaces two.
Proof.
  unfold allOpened, two, cachesFor, usesOf. cbn [tuse puse vuse fuse ouse pcount vcount ocount somePlaces].
  split; [|split; [|split; [|split]]]; (apply (opened_file _ _ _ _ 0 4 2 2); try lia; [split; [reflexivity|split; [vm_compute; lia|lia]]|]); do 2 eexists; (split; [vm_compute; reflexivity|vm_compute; reflexivity]).
Qed.
Lemma one_opened : allOpened someDbFile somePlaces one.
Proof. apply some_all_opened; unfold someConfig, byCache; auto. Qed.
Lemma some_first : firstNamed someDb [65] 0 (someProp 0 0 1).
Proof. split; [reflexivity|]. split; [reflexivity|]. lia. Qed.
Lemma profiles_allowed u : allowed someDb u (QProfiles [65] [98]).
Proof.
  split; [repeat constructor; lia|]. split; [repeat constructor; lia|]. intros j p F. destruct (first_unique _ _ _ _ _ _ some_first F) as (-> & ->).
  destruct someDb_hypotheses as (H1 & H2 & _). split; [split; [exact H1|left; cbn; lia]|exact H2].
Qed.
Lemma index_allowed u name : bytes name -> allowed someDb u (QIndex (decoded someDb (someProp 0 0 1)) name).
Proof. intros B. split; [exact B|]. exists 0%nat, (someProp 0 0 1). split; [reflexivity|]. split; [reflexivity|]. split; [apply someDb_hypotheses|left; cbn; lia]. Qed.
Lemma ids_allowed u id : id <> 0 -> allowed someDb u (QProfileId id).
Proof.
  intros H. split; [exact H|]. split; [discriminate|]. intros i j n m f g L E1 E2 E3 E4. destruct i as [|[|[|i]]]; destruct j as [|[|[|j]]]; try lia; cbn in E1, E2; try discriminate;
    try (destruct i; discriminate); try (destruct j; discriminate); injection E1 as <-; injection E2 as <-; cbn in E3, E4; injection E3 as <-; injection E4 as <-; cbn; lia.
Qed.
(* the hypotheses hold for two calls at a time, and not for three *)
Example threads_hypotheses : dbOK someDb /\ stored someDbFile somePlaces someDb /\ allOpened someDbFile somePlaces two /\ compatible two /\ readyFor 2 someDbFile someDb two (worldOf two []) /\
  ~ readyFor 3 someDbFile someDb two (worldOf two []).
Proof.
  split; [exact someDb_ok|]. split; [exact someDb_stored|]. split; [exact two_opened|]. split; [split; vm_compute; reflexivity|]. split.
  - split; [lia|]. split; [|split; [intros q n [E|[]]; injection E as <- <-; cbn; lia|split; [cbn; lia|reflexivity]]].
    intros s. exists []. split; [constructor|]. intros X. cbn [outstanding]. split; destruct s; vm_compute; discriminate.
  - intros (_ & H & _). destruct (H Props) as (tr & _ & H1). specialize (H1 ltac:(vm_compute; reflexivity)). destruct H1 as (H1 & _). cbn [useOf two cachesFor usesOf puse useWith ucfg concOf] in H1. lia.
Qed.
(* two threads, one step each in turn, then the item of the second is released *)
Fixpoint inTurn (a b : list (nat * action)) : list (nat * action) :=
  match a, b with
  | x :: a, y :: b => x :: y :: inTurn a b
  | [], b => b
  | a, [] => a
  end.
Lemma in_turn : forall a b x, In x (inTurn a b) -> In x a \/ In x b.
Proof.
  induction a as [|x a IH]; intros [|y b] z H; cbn [inTurn] in H; auto. destruct H as [H|[H|H]]; [left; left; exact H|right; left; exact H|].
  destruct (IH b z H) as [X|X]; [left; right; exact X|right; right; exact X].
Qed.
Lemma in_whole t q n t' q' : In (t', Call q') (whole t q n) -> q' = q.
Proof. unfold whole. intros [H|H]; [injection H as _ H; auto|]. apply repeat_spec in H. discriminate. Qed.
Definition schedule1 := inTurn (whole 0 (QProfiles [65] [98]) 27) (whole 2 (QProperty [66]) 9).
Definition schedule2 := inTurn (whole 1 (QProfileId 11) 5) (whole 0 (QIndex (decoded someDb (someProp 0 0 1)) [98]) 9).
Example threads_cases :
  let p := decoded someDb (someProp 1 2 2) in
  shown (runs two 2 schedule1 (begin two 3)) = Some ([(0%nat, AProfiles [0; 1], true); (2%nat, AProperty (Some (1, p)), true)], 1%nat, [(3%nat, 5)], 2%nat, [0; 1; 0; 0; 0]) /\
  shown (runs two 2 (schedule1 ++ [(2%nat, GiveBack 0)]) (begin two 3)) = Some ([(0%nat, AProfiles [0; 1], true); (2%nat, AProperty (Some (1, p)), true)], 0%nat, [(3%nat, 5)], 2%nat, [0; 0; 0; 0; 0]) /\
  shown (runs two 2 schedule2 (begin two 3)) = Some ([(0%nat, AIndex 1, true); (1%nat, ABytes (Some (encProf (mkProf 0 11 [0; 1; 2]))), true)], 1%nat, [(3%nat, 5)], 2%nat, [0; 0; 0; 1; 0]).
Proof. vm_compute. auto. Qed.
Lemma some_exec u cap count l st evs : runs u cap l (begin u count) = Some (st, evs) -> (forall t q, In (t, Call q) l -> allowed someDb u q) ->
  exists n, ThreadsSpec.exec someDbFile someDb u cmp0 cap count (worldOf u []) evs n st.
Proof. intros R Al. destruct (runs_exec u cap count l [] _ _ st evs (exec_start _ _ _ _ _ _ _) Al R) as (n & E). rewrite app_nil_r in E. eauto. Qed.
(* those are executions *)
Example threads_executions : exists n1 n2 st1 st2 e1 e2, ThreadsSpec.exec someDbFile someDb two cmp0 2 3 (worldOf two []) e1 n1 st1 /\ ThreadsSpec.exec someDbFile someDb two cmp0 2 3 (worldOf two []) e2 n2 st2 /\
  length e1 = 2%nat /\ length e2 = 2%nat /\ busy st1 = 0%nat.
Proof.
  destruct (runs two 2 (schedule1 ++ [(2%nat, GiveBack 0)]) (begin two 3)) as [(st1, e1)|] eqn:E1; [|vm_compute in E1; discriminate].
  destruct (runs two 2 schedule2 (begin two 3)) as [(st2, e2)|] eqn:E2; [|vm_compute in E2; discriminate].
  destruct threads_cases as (_ & C1 & C2). rewrite E1 in C1. rewrite E2 in C2.
  destruct (some_exec two 2 3 _ st1 e1 E1) as (n1 & X1).
  { intros t q H. apply in_app_iff in H. destruct H as [H|[H|[]]]; [|discriminate].
    destruct (in_turn _ _ _ H) as [X|X]; apply in_whole in X; subst q; [apply profiles_allowed|cbn [allowed]; repeat constructor; lia]. }
  destruct (some_exec two 2 3 _ st2 e2 E2) as (n2 & X2).
  { intros t q H. destruct (in_turn _ _ _ H) as [X|X]; apply in_whole in X; subst q; [apply ids_allowed; lia|apply index_allowed; repeat constructor; lia]. }
  exists n1, n2, st1, st2, e1, e2. split; [exact X1|]. split; [exact X2|]. cbn [shown option_map fst snd] in C1, C2. injection C1 as C1 B1 _ _ _. injection C2 as C2 _ _ _ _.
  apply (f_equal (@length _)) in C1, C2. rewrite map_length in C1, C2. auto.
Qed.
(* when a thread is alone and its first read finds no file handle, the exception is set and it returns the
   value for nothing; but the index 0 for that of a value, and for a profile id it is undefined (the search
   returns 0 on errors) *)
Definition failing (q : query) : option (answer * bool) :=
  match flat_map (fun n => match runs two 2 (whole 0 q n) (mkState (worldOf two [IoHandle]) [mkThread None []]) with Some (_, Returned _ _ r :: _) => [(ans r, clear r)] | _ => [] end) (seq 1 12) with
  | x :: _ => Some x
  | [] => None
  end.
Example threads_failed_cases :
  map failing [QProperty [65]; QType 1; QIndex (decoded someDb (someProp 0 0 1)) [98]; QValue (decoded someDb (someProp 0 0 1)) [98]; QProfiles [65] [98]; QProfileIndex 1; QProfileId 11] =
  [Some (AProperty None, false); Some (AType 0, false); Some (AIndex 0, false); Some (ABytes None, false); Some (AProfiles [], false); Some (ABytes None, false); None].
Proof. vm_compute. reflexivity. Qed.
(* refuted for more calls and items at a time than the caches were made for: with caches of one, while a
   thread keeps the first property, for another the second has no name and no type, and no exception is set *)
Theorem threads_too_many_refuted : readyFor 1 someDbFile someDb one (worldOf one []) /\ nameOfProp someDb 1 [66] /\ nth_error (props someDb) 1 = Some (someProp 1 2 2) /\ ptype (someProp 1 2 2) <> 0 /\
  (exists tr n st r, ThreadsSpec.exec someDbFile someDb one cmp0 2 2 (worldOf one []) tr n st /\ In (Returned 1 (QProperty [66]) r) tr /\ ans r = AProperty None /\ clear r = true) /\
  (exists tr n st r, ThreadsSpec.exec someDbFile someDb one cmp0 2 2 (worldOf one []) tr n st /\ In (Returned 1 (QType 1) r) tr /\ ans r = AType 0 /\ clear r = true).
Proof.
  split; [split; [lia|]; split; [|split; [intros q n [E|[]]; injection E as <- <-; cbn; lia|split; [cbn; lia|reflexivity]]]; intros s; exists []; split; [constructor|]; intros X; cbn [outstanding]; split; destruct s; vm_compute; discriminate|].
  split; [exists (someProp 1 2 2); split; reflexivity|]. split; [reflexivity|]. split; [discriminate|]. split.
  - destruct (runs one 2 (whole 0 (QProperty [65]) 5 ++ whole 1 (QProperty [66]) 7) (begin one 2)) as [(st, evs)|] eqn:E; [|vm_compute in E; discriminate].
    destruct (some_exec one 2 2 _ st evs E) as (n & X).
    { intros t q H. apply in_app_iff in H. destruct H as [H|H]; apply in_whole in H; subst q; cbn [allowed]; repeat constructor; lia. }
    assert (exists r evs', evs = Returned 1 (QProperty [66]) r :: evs' /\ ans r = AProperty None /\ clear r = true) as (r & evs' & -> & A1 & A2).
    { assert (option_map (fun x => match snd x with Returned t q r :: _ => Some (t, q, ans r, clear r) | [] => None end) (runs one 2 (whole 0 (QProperty [65]) 5 ++ whole 1 (QProperty [66]) 7) (begin one 2)) = Some (Some (1%nat, QProperty [66], AProperty None, true))) as Y by (vm_compute; reflexivity).
      rewrite E in Y. cbn [option_map snd] in Y. destruct evs as [|[t q r] evs]; [discriminate|]. injection Y as -> -> Y1 Y2. exists r, evs. auto. }
    exists (Returned 1 (QProperty [66]) r :: evs'), n, st, r. split; [exact X|]. split; [left; reflexivity|]. auto.
  - destruct (runs one 2 (whole 0 (QProperty [65]) 5 ++ whole 1 (QType 1) 2) (begin one 2)) as [(st, evs)|] eqn:E; [|vm_compute in E; discriminate].
    destruct (some_exec one 2 2 _ st evs E) as (n & X).
    { intros t q H. apply in_app_iff in H. destruct H as [H|H]; apply in_whole in H; subst q; cbn [allowed someDb props length]; [repeat constructor; lia|lia]. }
    assert (exists r evs', evs = Returned 1 (QType 1) r :: evs' /\ ans r = AType 0 /\ clear r = true) as (r & evs' & -> & A1 & A2).
    { assert (option_map (fun x => match snd x with Returned t q r :: _ => Some (t, q, ans r, clear r) | [] => None end) (runs one 2 (whole 0 (QProperty [65]) 5 ++ whole 1 (QType 1) 2) (begin one 2)) = Some (Some (1%nat, QType 1, AType 0, true))) as Y by (vm_compute; reflexivity).
      rewrite E in Y. cbn [option_map snd] in Y. destruct evs as [|[t q r] evs]; [discriminate|]. injection Y as -> -> Y1 Y2. exists r, evs. auto. }
    exists (Returned 1 (QType 1) r :: evs'), n, st, r. split; [exact X|]. split; [left; reflexivity|]. auto.
Qed.
Print Assumptions threads_too_many_refuted.
