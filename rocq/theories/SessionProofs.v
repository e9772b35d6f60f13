(* Proofs about switching the tracking of memory on and off. *)
From Coq Require Import Permutation.
From Verif Require Import MemoryProofs TreeRun.
From Verif Require TreeSpec.
From Verif Require Export SessionModel SessionSpec.
Import TreeSpec(bound).

Ltac zlia := unfold block in *; lia.
(* the machine with other totals *)
Definition setTotals (m : machine) (a x : Z) : machine :=
  mkMachine (mkTracker (shards (tracker m)) a x (initialised (tracker m))) (adding m) (subtracting m).

Lemma totals_begin fuel m p size r g m' : initialised (tracker m) = true -> runEvent fuel m (MallocBegin p size r g) = Some m' ->
  forall a x, runEvent fuel (setTotals m a x) (MallocBegin p size r g) = Some (setTotals m' a x).
Proof.
  intros I E a x. cbn [runEvent] in *. unfold tryInit in *. cbn [setTotals tracker initialised]. rewrite I in *. unfold trackInsert in *. cbn [shards].
  destruct (nth_error _ _); [|discriminate E]. destruct ((_ ;;; _) _) as [(?, ?)|]; [|discriminate E]. injection E as <-. cbn. unfold setTotals. cbn. now rewrite I.
Qed.
Lemma totals_free fuel m p m' : runEvent fuel m (FreeBegin p) = Some m' ->
  forall a x, runEvent fuel (setTotals m a x) (FreeBegin p) = Some (setTotals m' a x).
Proof.
  intros E a x. cbn [runEvent] in *. unfold untrackDelete in *. cbn [setTotals tracker shards].
  destruct (nth_error _ _); [|discriminate E]. destruct (TreeFind _ _ _) as [([q|], ?)|]; try discriminate E. destruct ((_ ;;; _) _) as [(?, ?)|]; [|discriminate E].
  injection E as <-. reflexivity.
Qed.
Lemma totals_malloced fuel m p m' : runEvent fuel m (MallocEnd p) = Some m' -> exists s,
  allocatedTotal (tracker m') = ((allocatedTotal (tracker m) + s) mod word)%Z /\
  forall a x, runEvent fuel (setTotals m a x) (MallocEnd p) = Some (setTotals m' ((a + s) mod word) (Z.max x ((a + s) mod word))).
Proof.
  intros E. cbn [runEvent] in *. destruct (take p (adding m)) as [(s, rest)|] eqn:T; [|discriminate E]. injection E as <-. exists s. split; [reflexivity|].
  intros a x. cbn [setTotals adding]. rewrite T. cbn [tracker]. unfold trackTotal, setTotals. cbn [tracker shards allocatedTotal maxTotal initialised adding subtracting].
  do 3 f_equal. destruct (Z.ltb_spec x ((a + s) mod word)); zlia.
Qed.
Lemma totals_freed fuel m p m' : runEvent fuel m (FreeEnd p) = Some m' -> exists s,
  allocatedTotal (tracker m') = ((allocatedTotal (tracker m) - s) mod word)%Z /\
  forall a x, runEvent fuel (setTotals m a x) (FreeEnd p) = Some (setTotals m' ((a - s) mod word) x).
Proof.
  intros E. cbn [runEvent] in *. destruct (take p (subtracting m)) as [(s, rest)|] eqn:T; [|discriminate E]. injection E as <-. exists s. split; [reflexivity|].
  intros a x. cbn [setTotals subtracting]. rewrite T. reflexivity.
Qed.

(* all blocks that have a record *)
Definition whole (k : book) : ledger := mkLedger (live (now k) ++ old k) (mallocs (now k)) (frees (now k)).
Definition pointing (b : bool) : Pointers := mkPointers b b b b.
Definition before (w : world) (k : book) : Prop :=
  unused (tracker (inside w)) /\ on k = false /\ now k = noBlocks /\ old k = [] /\ peak k = 0%Z /\
  inside w = mkMachine (tracker (inside w)) [] [] /\ allocatedTotal (tracker (inside w)) = 0%Z /\ maxTotal (tracker (inside w)) = 0%Z.
Definition within (w : world) (k : book) : Prop :=
  exists m, minv m (whole k) /\ inside w = setTotals m (bytes (now k)) (peak k) /\ (bytes (now k) <= peak k)%Z.
Definition WI (w : world) (k : book) : Prop := functions w = pointing (on k) /\ (before w k \/ within w k).

Lemma whole_bytes k : totalOf (whole k) = (bytes (now k) + sumOf (map fst (old k)))%Z.
Proof. unfold totalOf, whole, bytes. cbn [live frees]. rewrite map_app, sumOf_app. rewrite <- !Z.add_assoc. f_equal. apply Z.add_comm. Qed.
Lemma bytes_range m k : minv m (whole k) -> (0 <= bytes (now k) < word)%Z.
Proof.
  intros I. pose proof (mi_pos _ _ I) as P. pose proof (totals _ P) as (_ & T & S). pose proof (mi_small _ _ I) as W. rewrite whole_bytes in T.
  unfold everything, tracked, whole in P. cbn [live mallocs frees] in P. rewrite !map_app, !Forall_app in P. destruct P as (((P1 & P2) & P3) & P4).
  apply sumOf_pos in P1, P2, P3, P4. unfold bytes in *. unfold word. zlia.
Qed.

Lemma reset_within w k : within w k -> atRest k -> exists m, resetInside (inside w) = Some m /\
  forall f b, within (mkWorld f m) (restart b k).
Proof.
  intros (m & I & E & L) (Hm & Hf). exists (setTotals m 0 0). rewrite E. unfold resetInside, MemoryTrackingReset, setTotals.
  cbn [tracker shards initialised adding subtracting]. rewrite (mi_init _ _ I). split; [reflexivity|]. intros f b. exists m.
  split; [|split; [|cbn; zlia]].
  - assert (W : whole (restart b k) = whole k) by (unfold whole, restart; cbn [now old live mallocs frees noBlocks app]; now rewrite Hm, Hf). now rewrite W.
  - cbn [inside]. unfold setTotals. now rewrite (mi_init _ _ I).
Qed.
Lemma reset_before w k : before w k -> exists m, resetInside (inside w) = Some m /\ forall f b, within (mkWorld f m) (restart b k).
Proof.
  intros (U & On & Hn & Ho & Hp & E & Ha & Hx). destruct (start_ok _ U) as (st & T & I). rewrite E. unfold resetInside. cbn [tracker adding subtracting].
  unfold tryInit in T. destruct U as (_ & Hi & _). rewrite Hi in T. rewrite T. exists (mkMachine st [] []). split; [reflexivity|]. intros f b. exists (mkMachine st [] []).
  split; [|split; [|cbn; zlia]].
  - assert (W : whole (restart b k) = mkLedger [] [] []) by (unfold whole, restart; cbn [now old live mallocs frees noBlocks app]; now rewrite Hn, Ho). now rewrite W.
  - cbn [inside]. unfold setTotals. cbn. unfold MemoryTrackingReset in T. rewrite Hi in T. destruct (initShards _); [|discriminate T]. injection T as <-. reflexivity.
Qed.
Lemma reset_ok w k : WI w k -> atRest k -> exists m, resetInside (inside w) = Some m /\ forall f b, within (mkWorld f m) (restart b k).
Proof. intros (_ & [B|W]) R; [now apply reset_before|now apply reset_within]. Qed.
Lemma allocated_is w k : WI w k -> allocatedTotal (tracker (inside w)) = bytes (now k) /\ maxTotal (tracker (inside w)) = peak k.
Proof.
  intros (_ & [(_ & _ & Hn & _ & Hp & _ & Ha & Hx)|(m & _ & -> & _)]); [|split; reflexivity]. rewrite Hn, Hp. now split.
Qed.

Lemma on_within w k : WI w k -> on k = true -> within w k.
Proof. intros (_ & [(_ & O & _)|W]) H; [congruence|exact W]. Qed.
Lemma running w k : WI w k -> mallocs (now k) <> [] \/ frees (now k) <> [] -> within w k.
Proof. intros (_ & [(_ & _ & Hn & _)|W]) H; [|exact W]. rewrite Hn in H. cbn in H. tauto. Qed.

(* a step of the tracker *)
Lemma malloc_within fuel w k p size r g : within w k -> bound (length (tracked (whole k))) <= fuel -> fresh k p -> freshRecord k r -> room k size ->
  exists m, runEvent fuel (inside w) (MallocBegin p size r g) = Some m /\ forall f, within (mkWorld f m) (mallocOf k p size r).
Proof.
  intros (m & I & E & L) F (P0 & _ & P2 & P3) (R0 & R1 & R2) (Z1 & Z2).
  destruct (step_malloc fuel m (whole k) p size r g I F P0 Z1) as (m' & E' & I').
  - unfold pointers, whole in *. cbn [live mallocs frees]. unfold oldPointers in P3. rewrite !map_app, !in_app_iff in *. tauto.
  - exact R0.
  - unfold records, whole in *. cbn [live mallocs]. rewrite !map_app, !in_app_iff in *. tauto.
  - unfold whole. cbn [live mallocs frees]. rewrite !map_app, !sumOf_app in *. zlia.
  - rewrite E. rewrite (totals_begin _ _ _ _ _ _ _ (mi_init _ _ I) E'). eexists. split; [reflexivity|]. intros f. exists m'. split; [exact I'|]. unfold mallocOf, count. cbn [inside now peak].
    assert (B : bytes (mkLedger (live (now k)) ((p, size, r) :: mallocs (now k)) (frees (now k))) = bytes (now k)) by reflexivity.
    rewrite B. rewrite Z.max_l by exact L. split; [reflexivity|exact L].
Qed.
Lemma free_within fuel w k p size r a b : within w k -> bound (length (tracked (whole k))) <= fuel -> live (now k) = a ++ ((p, size), r) :: b ->
  exists m, runEvent fuel (inside w) (FreeBegin p) = Some m /\
    forall f, within (mkWorld f m) (count k (mkLedger (a ++ b) (mallocs (now k)) ((p, size) :: frees (now k)))).
Proof.
  intros (m & I & E & L) F El. destruct (step_free fuel m (whole k) p size r a (b ++ old k) I F) as (m' & E' & I').
  { unfold whole. cbn [live]. rewrite El, <- app_assoc. reflexivity. }
  rewrite E. rewrite (totals_free _ _ _ _ E'). eexists. split; [reflexivity|]. intros f. exists m'. unfold count. cbn [inside now peak].
  split; [unfold whole; cbn [now old live mallocs frees]; rewrite <- app_assoc; exact I'|].
  assert (B : bytes (mkLedger (a ++ b) (mallocs (now k)) ((p, size) :: frees (now k))) = bytes (now k)).
  { unfold bytes. cbn [live frees]. rewrite El, !map_app, !sumOf_app. cbn [map fst].
    change (sumOf ((p, size) :: map fst b)) with (size + sumOf (map fst b))%Z. change (sumOf ((p, size) :: frees (now k))) with (size + sumOf (frees (now k)))%Z. zlia. }
  rewrite B. rewrite Z.max_l by exact L. split; [reflexivity|exact L].
Qed.
Lemma malloced_within fuel w k p size r a b : within w k -> mallocs (now k) = a ++ ((p, size), r) :: b ->
  exists m, runEvent fuel (inside w) (MallocEnd p) = Some m /\
    forall f, within (mkWorld f m) (count k (mkLedger (((p, size), r) :: live (now k)) (a ++ b) (frees (now k)))).
Proof.
  intros (m & I & E & L) Em. destruct (step_malloced fuel m (whole k) p size r a b I Em) as (m' & E' & I').
  destruct (totals_malloced _ _ _ _ E') as (s & S & T). rewrite E, T. eexists. split; [reflexivity|]. intros f. exists m'. unfold count. cbn [inside now peak].
  set (n := mkLedger ((p, size, r) :: live (now k)) (a ++ b) (frees (now k))) in *.
  assert (W : minv m' (whole (mkBook (on k) (plain k) (old k) n (Z.max (peak k) (bytes n))))) by exact I'.
  split; [exact W|]. assert (B : bytes n = (bytes (now k) + size)%Z).
  { unfold bytes, n. cbn [live frees map fst]. change (sumOf ((p, size) :: map fst (live (now k)))) with (size + sumOf (map fst (live (now k))))%Z. zlia. }
  pose proof (bytes_range _ _ W) as R. cbn [now] in R. pose proof (mi_total _ _ W) as T1. rewrite whole_bytes in T1. cbn [now old] in T1. rewrite S, (mi_total _ _ I), whole_bytes in T1.
  assert (X : ((bytes (now k) + s) mod word = bytes n)%Z).
  { rewrite <- (Z.mod_small (bytes n) word R). pose proof (Z.div_mod (bytes (now k) + sumOf (map fst (old k)) + s) word ltac:(unfold word; zlia)) as D.
    rewrite T1 in D. replace (bytes (now k) + s)%Z with (bytes n + ((bytes (now k) + sumOf (map fst (old k)) + s) / word) * word)%Z by zlia. apply Z_mod_plus_full. }
  rewrite X. split; [reflexivity|zlia].
Qed.
Lemma freed_within fuel w k p size a b : within w k -> frees (now k) = a ++ (p, size) :: b ->
  exists m, runEvent fuel (inside w) (FreeEnd p) = Some m /\
    forall f, within (mkWorld f m) (count k (mkLedger (live (now k)) (mallocs (now k)) (a ++ b))).
Proof.
  intros (m & I & E & L) Em. destruct (step_freed fuel m (whole k) p size a b I Em) as (m' & E' & I').
  destruct (totals_freed _ _ _ _ E') as (s & S & T). rewrite E, T. eexists. split; [reflexivity|]. intros f. exists m'. unfold count. cbn [inside now peak].
  set (n := mkLedger (live (now k)) (mallocs (now k)) (a ++ b)) in *.
  assert (W : minv m' (whole (mkBook (on k) (plain k) (old k) n (Z.max (peak k) (bytes n))))) by exact I'.
  split; [exact W|]. assert (B : (bytes (now k) = bytes n + size)%Z).
  { unfold bytes, n. cbn [live frees]. rewrite Em, !sumOf_app. change (sumOf ((p, size) :: b)) with (size + sumOf b)%Z. zlia. }
  assert (Z0 : (0 <= size)%Z).
  { pose proof (mi_pos _ _ I) as P. rewrite Forall_forall in P. apply (P (p, size)). unfold everything, whole. cbn [frees]. apply in_or_app. right. rewrite Em. apply in_elt. }
  pose proof (bytes_range _ _ W) as R. cbn [now] in R. pose proof (mi_total _ _ W) as T1. rewrite whole_bytes in T1. cbn [now old] in T1. rewrite S, (mi_total _ _ I), whole_bytes in T1.
  assert (X : ((bytes (now k) - s) mod word = bytes n)%Z).
  { rewrite <- (Z.mod_small (bytes n) word R). pose proof (Z.div_mod (bytes (now k) + sumOf (map fst (old k)) - s) word ltac:(unfold word; zlia)) as D.
    rewrite T1 in D. replace (bytes (now k) - s)%Z with (bytes n + ((bytes (now k) + sumOf (map fst (old k)) - s) / word) * word)%Z by zlia. apply Z_mod_plus_full. }
  rewrite X. rewrite Z.max_l by zlia. split; [reflexivity|zlia].
Qed.

Lemma plain_keeps w k l : WI w k -> on k = false -> WI w (mkBook false l (old k) (now k) (peak k)).
Proof.
  intros (F & H) O. split; [rewrite F, O; reflexivity|]. destruct H as [(A & _ & B)|H]; [left; split; [exact A|split; [reflexivity|exact B]]|right; exact H].
Qed.
Lemma at_rest_bytes k : atRest k -> bytes (now k) = sumOf (map fst (live (now k))).
Proof. intros (_ & F). unfold bytes. rewrite F. cbn. zlia. Qed.
Lemma aligned_is alignment size : (0 <= size + size mod alignment < 2 ^ 32)%Z -> alignedSize alignment size = (size + size mod alignment)%Z.
Proof. intros H. unfold alignedSize, word. apply Z.mod_small. zlia. Qed.

Lemma call_ok fuel w k c k' out : WI w k -> may k c k' out -> bound (length (tracked (whole k))) <= fuel ->
  exists w', callStep fuel w c = Some (w', out) /\ WI w' k'.
Proof.
  intros I M F. destruct M.
  - destruct (reset_ok w k I H) as (m & E & W). cbn [callStep]. unfold SetUpMemoryTracking. rewrite E. eexists. split; [reflexivity|]. split; [reflexivity|right; apply W].
  - destruct (reset_ok w k I H) as (m & E & W). cbn [callStep]. unfold UnsetMemoryTracking. rewrite E. cbn [option_map fst snd]. unfold MemoryTrackingGetAllocated.
    rewrite (proj1 (allocated_is _ _ I)), (at_rest_bytes _ H). eexists. split; [reflexivity|]. split; [reflexivity|right; apply W].
  - destruct (reset_ok w k I H) as (m & E & W). cbn [callStep]. rewrite E. eexists. split; [reflexivity|]. split; [cbn [functions]; exact (proj1 I)|right; apply W].
  - exists w. cbn [callStep]. rewrite (proj1 I), H. split; [reflexivity|]. now apply plain_keeps.
  - exists w. cbn [callStep]. rewrite (proj1 I), H. split; [reflexivity|]. now apply plain_keeps.
  - exists w. cbn [callStep]. rewrite (proj1 I), H. split; [reflexivity|]. now apply plain_keeps.
  - exists w. cbn [callStep]. rewrite (proj1 I), H. split; [reflexivity|]. now apply plain_keeps.
  - destruct (malloc_within fuel w k p size record garbage (on_within _ _ I H) F H0 H1 H2) as (m & E & W). cbn [callStep]. rewrite (proj1 I), H. cbn [pointing mallocTracks through].
    unfold through. rewrite E. eexists. split; [reflexivity|]. split; [exact (proj1 I)|right; apply W].
  - destruct (malloc_within fuel w k p _ record garbage (on_within _ _ I H) F H0 H1 H3) as (m & E & W). cbn [callStep]. rewrite (proj1 I), H. cbn [pointing mallocAlignedTracks through].
    unfold through. rewrite aligned_is by apply H3. rewrite E. eexists. split; [reflexivity|]. split; [exact (proj1 I)|right; apply W].
  - destruct (malloced_within fuel w k p size record a b) as (m & E & W); [apply running; [exact I|left; rewrite H; destruct a; discriminate]|exact H|].
    cbn [callStep]. unfold through. rewrite E. eexists. split; [reflexivity|]. split; [exact (proj1 I)|right; apply W].
  - destruct (free_within fuel w k p size record a b (on_within _ _ I H) F H0) as (m & E & W). cbn [callStep]. rewrite (proj1 I), H. cbn [pointing freeTracks].
    unfold through. rewrite E. eexists. split; [reflexivity|]. split; [exact (proj1 I)|right; apply W].
  - destruct (free_within fuel w k p size record a b (on_within _ _ I H) F H0) as (m & E & W). cbn [callStep]. rewrite (proj1 I), H. cbn [pointing freeAlignedTracks].
    unfold through. rewrite E. eexists. split; [reflexivity|]. split; [exact (proj1 I)|right; apply W].
  - destruct (freed_within fuel w k p size a b) as (m & E & W); [apply running; [exact I|right; rewrite H; destruct a; discriminate]|exact H|].
    cbn [callStep]. unfold through. rewrite E. eexists. split; [reflexivity|]. split; [exact (proj1 I)|right; apply W].
Qed.
Lemma may_grows k c k' out : may k c k' out -> length (tracked (whole k')) <= S (length (tracked (whole k))).
Proof.
  intros M. destruct M; unfold tracked, whole, mallocOf, count, restart; cbn [now old live mallocs frees noBlocks];
    try (destruct H as (Hm & _); rewrite Hm); try rewrite H; try rewrite H0; repeat (rewrite app_length || cbn [length app]); lia.
Qed.
Lemma calls_ok fuel calls : forall w k k' outs, WI w k -> mayAll k calls k' outs -> bound (length (tracked (whole k)) + length calls) <= fuel ->
  exists w', callSteps fuel w calls = Some (w', outs) /\ WI w' k'.
Proof.
  induction calls as [|c calls IH]; intros w k k' outs I M F.
  - inversion M; subst. exists w. now split.
  - inversion M as [|k0 c0 k1 out cs k2 outs1 A R]; subst. cbn [callSteps].
    pose proof (bound_mono (length (tracked (whole k))) (length (tracked (whole k)) + length (c :: calls)) ltac:(zlia)) as B.
    destruct (call_ok fuel w k c k1 out I A ltac:(zlia)) as (w1 & -> & I1). pose proof (may_grows _ _ _ _ A) as G.
    pose proof (bound_mono (length (tracked (whole k1)) + length calls) (length (tracked (whole k)) + length (c :: calls)) ltac:(cbn [length]; lia)) as B1.
    destruct (IH w1 k1 k' outs1 I1 R ltac:(zlia)) as (w2 & -> & I2). exists w2. now split.
Qed.
Lemma begin_ok st : untouched st -> WI (begin st) opened.
Proof. intros (U & A & X). split; [reflexivity|]. left. unfold before. cbn. tauto. Qed.
