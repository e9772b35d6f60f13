(* C90: the pool of file handles. *)
From Verif Require Import CacheModel CacheRun PoolModel PoolSpec PoolProofs PropertiesPool FilePoolModel FilePoolSpec FilePoolProofs.

(* If the file can be opened for each of the n items, for every n from 1 to
   65534, the pool holds n handles, all free and handed out once each; the
   length is the size found; the exception is untouched; the status is a
   success unless the file is empty. *)
Theorem file_pool_ready :
  forall n e opens (seek : bool) (tell : Z) nthreads, 0 < n -> (Z.of_nat n < 2 ^ 16 - 1)%Z -> 0 < nthreads ->
  e = None \/ e = Some None ->
  (forall i, 1 <= i <= n -> opens i = None) ->
  let size := (if seek then tell else -1)%Z in
  exists f, FilePoolInit n e true opens seek tell nthreads
      = Some (mkInit (if Z.eqb size 0 then FILE_FAILURE else SUCCESS) (Some f) e) /\
    length_ f = size /\ inUse n nthreads (pl f) /\ allAvailable n nthreads (pl f) /\
    FilePoolRelease f = seq 1 n.
Proof.
  intros n e opens seek tell nt Hn Hm Ht He Ho size.
  destruct n as [|n]; [lia|]. destruct nt as [|nt]; [lia|].
  set (p := mkpool (0 :: seq 0 (S n)) (false :: repeat true (S n)) (mkhead (S n) 2) 2 (repeat TIdle (S nt))).
  exists (mkFilePool p (S n) size).
  assert (okay e = true) as Hk by (destruct He as [-> | ->]; reflexivity).
  assert (inUse (S n) (S nt) p) as Hu by (now apply (ready_pool n nt)).
  split; [|split; [reflexivity|split; [exact Hu|split]]].
  - unfold FilePoolInit. cbn [Nat.leb negb]. rewrite Hk.
    rewrite (init_ext (S n) _ (fun _ => (true, true))); [|exact Hm|].
    2:{ intros j Hj. unfold createFileHandle. now rewrite (Ho j Hj). }
    rewrite init_val by exact Hm.
    assert (excAfter e opens (S n) = e) as -> by (unfold excAfter; now rewrite (Ho (S n)) by lia).
    assert (setLength e (mkpool (0 :: seq 0 (S n)) (false :: repeat true (S n)) (mkhead (S n) 0) 0 (repeat TIdle (S nt))) (S n) seek tell
      = Some (mkFilePool p (S n) size, e)) as Hs.
    { unfold setLength. rewrite get_new; [|apply nth_seq|cbn [nth_error]; apply nth_error_repeat; lia].
      rewrite release_new; [reflexivity|apply nth_seq|cbn [length]; rewrite seq_length; lia]. }
    destruct He as [-> | ->]; rewrite Hs; reflexivity.
  - apply inUse_available; auto. intros t Hlt. cbn [threads p]. now apply nth_error_repeat.
  - unfold FilePoolRelease, PoolFree. cbn [pl cnt resources p].
    change (seq 0 (S (S n))) with (0 :: seq 1 (S n)). cbn [filter nth].
    assert (forall k l, (forall j, In j l -> 1 <= j <= k) -> filter (fun i => nth i (false :: repeat true k) false) l = l) as Hf.
    { intros k l. induction l as [|x l IH]; intros Hl; [reflexivity|]. cbn [filter].
      assert (nth x (false :: repeat true k) false = true) as ->.
      { destruct x as [|x]; [specialize (Hl 0 ltac:(now left)); lia|]. specialize (Hl (S x) ltac:(now left)).
        cbn [nth]. apply nth_error_nth. apply nth_error_repeat. lia. }
      rewrite IH; auto. intros j Hj. apply Hl. now right. }
    apply Hf. intros j Hj. apply in_seq in Hj. lia.
Qed.
Print Assumptions file_pool_ready.
Example file_pool_ready_case :
  exists f, FilePoolInit 3 (Some None) true (fun _ => None) true 1024 2 = Some (mkInit SUCCESS (Some f) (Some None)) /\
    length_ f = 1024%Z /\ soloGets 1 4 (pl f) = Some [Got 1 3; Got 1 2; Got 1 1; Exhausted 1] /\
    FilePoolRelease f = [1; 2; 3].
Proof. eexists. split; [reflexivity|]. repeat split. Qed.

(* If the file cannot be opened for item k, and could for those before, the
   status and the exception are those of the opening, no further opening is
   tried, and no handle can be had from the pool. *)
Theorem file_pool_not_opened :
  forall n opens seek tell nthreads k c, 1 <= k <= n -> (Z.of_nat n < 2 ^ 16 - 1)%Z -> 0 < nthreads ->
  (forall i, 1 <= i < k -> opens i = None) -> opens k = Some c ->
  exists f, FilePoolInit n (Some None) true opens seek tell nthreads
      = Some (mkInit (OPEN c) (Some f) (Some (Some (OPEN c)))) /\
    tried true opens 1 n = seq 1 k /\
    (forall t, t < nthreads -> exists p', soloGet t (pl f) = Some (p', [Exhausted t])) /\
    FilePoolRelease f = seq 1 (k - 1).
Proof.
  intros n opens seek tell nt k c Hk Hm Ht Hb Hc.
  unfold FilePoolInit. destruct (Nat.leb_spec n 0); [lia|]. cbn [negb okay].
  change (fun i : nat => createFileHandle (Some None) opens i) with (createFileHandle (Some None) opens).
  destruct (PoolInit n (createFileHandle (Some None) opens) nt) as [(p, count)|] eqn:E.
  2:{ exfalso. unfold PoolInit in E. rewrite Z.mod_small in E by lia.
      replace (Z.to_nat (Z.of_nat (n + 1))) with (S n) in E by lia.
      destruct (poolInitLoop _ _ _ _ _ _ _ _) as [[[? ?] ?] ?]. discriminate. }
  destruct (pool_frees_each_created_resource_once _ _ _ _ _ Hm E) as (A & B & C & D).
  assert (Hcr : forall i, snd (createFileHandle (Some None) opens i) = match opens i with None => true | Some _ => false end).
  { intros i. unfold createFileHandle. now destruct (opens i). }
  assert (count = k /\ idx (hd_ p) = k /\ nth_error (resources p) k = Some false /\ threads p = repeat TIdle nt)
    as (-> & Hh & Hrs & Hth).
  { unfold PoolInit in E. rewrite Z.mod_small in E by lia.
    replace (Z.to_nat (Z.of_nat (n + 1))) with (S n) in E by lia.
    destruct (poolInitLoop _ _ _ _ _ _ _ _) as [[[nx rs] h] c0] eqn:El. injection E as <- ->.
    apply initLoop_gen in El; try reflexivity; try (rewrite repeat_length; lia).
    destruct El as (_ & Q2 & Q3 & Q4 & Q5 & Q6 & Q7). cbn [hd_ idx resources threads].
    assert (count = k) as Ek.
    { destruct (Nat.lt_trichotomy count k) as [L|[L|L]]; auto; exfalso.
      - specialize (Q5 ltac:(lia)). rewrite Hcr in Q5. rewrite Hb in Q5 by lia. discriminate.
      - specialize (Q4 k ltac:(lia)). rewrite Hcr, Hc in Q4. discriminate. }
    split; [exact Ek|]. split; [congruence|]. split; [|reflexivity]. 
    rewrite (nth_error_nth' _ false) by (rewrite Q3, repeat_length; lia). f_equal. rewrite Q7.
    unfold createFileHandle. rewrite Hc. rewrite Ek. destruct (Nat.leb_spec 1 k); [|lia]. now rewrite Nat.leb_refl. }
  destruct k as [|k']; [lia|]. unfold excAfter. rewrite Hc. cbn [exceptionSet].
  eexists. split; [reflexivity|]. cbn [pl cnt].
  assert (tried true opens 1 n = seq 1 (S k')) as Htr.
  { clear -Hb Hc Hk.
    assert (forall todo i m, (forall j, i <= j < i + m -> opens j = None) -> opens (i + m) = Some c -> m < todo ->
      tried true opens i todo = seq i (S m)) as G.
    { induction todo as [|todo IH]; intros i m Hn Hs Hl; [lia|]. cbn [tried seq].
      destruct m as [|m].
      - rewrite Nat.add_0_r in Hs. now rewrite Hs.
      - rewrite (Hn i) by lia. f_equal. apply IH; [intros; apply Hn; lia| |lia].
        now replace (S i + m) with (i + S m) by lia. }
    apply G; [intros; apply Hb; lia|exact Hc|lia]. }
  split; [exact Htr|]. split.
  - intros t Hlt. unfold soloGet.
    assert (nth_error (threads p) t = Some TIdle) as Hti by (rewrite Hth; now apply nth_error_repeat).
    assert (t < length (threads p)) as Htl by (rewrite Hth, repeat_length; auto).
    assert (pstep t CallGet p = Some (setT t TGet p, [GetBegin t])) as -> by (unfold pstep; now rewrite Hti).
    assert (pstep t Continue (setT t TGet p) = Some (setT t (TGetRead (hd_ p) (ver p)) (setT t TGet p), [Read t])) as ->.
    { unfold pstep. cbn [setT threads]. now rewrite nth_lupd_eq. }
    assert (forall q, nth_error (threads q) t = Some (TGetRead (hd_ p) (ver p)) -> resources q = resources p ->
      pstep t Continue q = Some (setT t TIdle q, [Exhausted t])) as G.
    { intros q Hq Hr. unfold pstep. rewrite Hq, Hr, Hh, Hrs. reflexivity. }
    rewrite G; [eauto| |reflexivity]. cbn [setT threads]. apply nth_lupd_eq. now rewrite length_lupd.
  - unfold FilePoolRelease. cbn [pl cnt]. rewrite (init_opened n (Some None) opens nt) by auto.
    rewrite Htr. replace (S k' - 1) with k' by lia. rewrite seq_S, filter_app. cbn [filter plus].
    unfold opened at 2. rewrite Hc. rewrite app_nil_r.
    assert (forall l, (forall j, In j l -> 1 <= j < S k') -> filter (opened opens) l = l) as G.
    { induction l as [|x l IH]; intros Hl; [reflexivity|]. cbn [filter]. unfold opened at 1.
      rewrite Hb by (apply Hl; now left). rewrite IH; auto. intros j Hj. apply Hl. now right. }
    apply G. intros j Hj. apply in_seq in Hj. lia.
Qed.
Print Assumptions file_pool_not_opened.
Example file_pool_not_opened_case :
  exists f, FilePoolInit 5 (Some None) true (fun i => if Nat.ltb i 3 then None else Some 7) true 1024 1
    = Some (mkInit (OPEN 7) (Some f) (Some (Some (OPEN 7)))) /\ FilePoolRelease f = [1; 2].
Proof. eexists. split; reflexivity. Qed.

(* Whatever happens, releasing the pool closes each handle that the
   initialisation opened exactly once, and nothing else. *)
Theorem file_pool_released :
  forall n e opens seek tell nthreads r f, (Z.of_nat n < 2 ^ 16 - 1)%Z ->
  FilePoolInit n e true opens seek tell nthreads = Some r -> fp r = Some f ->
  FilePoolRelease f = filter (opened opens)
    (match e with
     | None => tried false opens 1 n
     | Some None => tried true opens 1 n
     | Some (Some _) => []
     end).
Proof.
  intros n e opens seek tell nt r f Hm H Hf. unfold FilePoolInit in H.
  destruct (Nat.leb n 0) eqn:En; [injection H as <-; discriminate|]. cbn [negb] in H.
  destruct e as [[c|]|]; cbn [okay] in H.
  - destruct (PoolInit _ _ _) as [(p, count)|]; [|discriminate]. injection H as <-. injection Hf as <-.
    unfold FilePoolRelease, PoolFree. cbn [pl cnt resources seq filter]. now rewrite nth_false.
  - change (fun i : nat => createFileHandle (Some None) opens i) with (createFileHandle (Some None) opens) in H.
    destruct (PoolInit n (createFileHandle (Some None) opens) nt) as [(p, count)|] eqn:E; [|discriminate].
    pose proof (init_opened n (Some None) opens nt p count Hm eq_refl E) as Q.
    unfold FilePoolRelease. destruct (excAfter (Some None) opens count) as [[c|]|] eqn:Ee.
    + injection H as <-. injection Hf as <-. exact Q.
    + destruct (setLength _ _ _ _ _) as [(g, e2)|] eqn:Es; [|discriminate]. injection H as <-. injection Hf as <-.
      apply setLength_kept in Es. destruct Es as (Es1 & Es2). unfold PoolFree in *. now rewrite Es1, Es2.
    + exfalso. unfold excAfter in Ee. destruct count; [discriminate|]. destruct (opens (S count)); discriminate.
  - change (fun i : nat => createFileHandle None opens i) with (createFileHandle None opens) in H.
    destruct (PoolInit n (createFileHandle None opens) nt) as [(p, count)|] eqn:E; [|discriminate].
    pose proof (init_opened n None opens nt p count Hm eq_refl E) as Q.
    unfold FilePoolRelease.
    assert (excAfter None opens count = None) as Ee.
    { unfold excAfter. destruct count; [reflexivity|]. now destruct (opens (S count)). }
    rewrite Ee in H.
    destruct (setLength _ _ _ _ _) as [(g, e2)|] eqn:Es; [|discriminate]. injection H as <-. injection Hf as <-.
    apply setLength_kept in Es. destruct Es as (Es1 & Es2). unfold PoolFree in *. now rewrite Es1, Es2.
Qed.
Print Assumptions file_pool_released.
Example file_pool_released_case :
  exists r f, FilePoolInit 5 None true (fun i => if Nat.eqb i 3 then Some 7 else None) true 9 1 = Some r /\
    fp r = Some f /\ ret r = SUCCESS /\ FilePoolRelease f = [1; 2; 4; 5].
Proof. eexists _, _. repeat split. Qed.

(* No handles are asked for: the status says so and nothing is opened. *)
Theorem file_pool_none :
  forall e malloc opens seek tell nthreads,
  FilePoolInit 0 e malloc opens seek tell nthreads = Some (mkInit INVALID_COLLECTION_CONFIG None e).
Proof. reflexivity. Qed.
Print Assumptions file_pool_none.

(* "A failed initialisation leaves no file open" is false: after a failed
   opening and for an empty file the handles stay open until the caller
   releases the pool, though no pool was delivered. *)
Theorem file_pool_left_refuted :
  (exists f, FilePoolInit 3 (Some None) true (fun i => if Nat.ltb i 3 then None else Some 0) true 1024 1
     = Some (mkInit (OPEN 0) (Some f) (Some (Some (OPEN 0)))) /\ FilePoolRelease f = [1; 2]) /\
  (exists f, FilePoolInit 3 (Some None) true (fun _ => None) true 0 1
     = Some (mkInit FILE_FAILURE (Some f) (Some None)) /\ FilePoolRelease f = [1; 2; 3]).
Proof. split; eexists; split; reflexivity. Qed.
Print Assumptions file_pool_left_refuted.

(* "A success means that the length of the file is known" is false: if
   fseek or ftell fails the length is -1 and the status a success. *)
Theorem file_pool_length_refuted :
  exists f, FilePoolInit 1 (Some None) true (fun _ => None) false 1024 1 = Some (mkInit SUCCESS (Some f) (Some None)) /\
    length_ f = (-1)%Z.
Proof. eexists. split; reflexivity. Qed.
Print Assumptions file_pool_length_refuted.

(* "A success means that all the handles can be had", and "a failed
   allocation is reported", are false for a caller that gives no exception:
   handles under one that was not opened are never handed out, and the failed
   allocation is read through. *)
Theorem file_pool_no_exception_refuted :
  (exists f, FilePoolInit 3 None true (fun i => if Nat.eqb i 2 then Some 0 else None) true 1024 1
     = Some (mkInit SUCCESS (Some f) None) /\ soloGets 0 2 (pl f) = Some [Got 0 3; Exhausted 0] /\
     FilePoolRelease f = [1; 3]) /\
  (forall n opens seek tell nthreads, 0 < n -> FilePoolInit n None false opens seek tell nthreads = None).
Proof.
  split; [eexists; repeat split|]. intros n opens seek tell nt Hn. unfold FilePoolInit.
  destruct n; [lia|reflexivity].
Qed.
Print Assumptions file_pool_no_exception_refuted.

(* A failed allocation is reported to a caller that gives an exception. *)
Theorem file_pool_memory :
  forall n s opens seek tell nthreads, 0 < n ->
  FilePoolInit n (Some s) false opens seek tell nthreads
    = Some (mkInit INSUFFICIENT_MEMORY None (Some (Some INSUFFICIENT_MEMORY))).
Proof. intros [|n] s opens seek tell nt Hn; [lia|reflexivity]. Qed.
Print Assumptions file_pool_memory.
Example file_pool_memory_case : ret (match FilePoolInit 4 (Some None) false (fun _ => None) true 9 1 with
  Some r => r | None => mkInit SUCCESS None None end) = INSUFFICIENT_MEMORY.
Proof. reflexivity. Qed.

(* C90.  An exception that was set before is kept: nothing is opened, nothing
   is left to close and no handle can be had. *)
Theorem file_pool_error_before :
  forall n c opens seek tell nthreads r, 0 < n -> FilePoolInit n (Some (Some c)) true opens seek tell nthreads = Some r ->
  exists f, r = mkInit c (Some f) (Some (Some c)) /\ FilePoolRelease f = [] /\
    forall t, nth_error (threads (pl f)) t = Some TIdle -> resources (pl f) <> [] -> exists p', soloGet t (pl f) = Some (p', [Exhausted t]).
Proof.
  intros n c opens seek tell nt r Hn E. unfold FilePoolInit in E. destruct (Nat.leb_spec n 0); [lia|]. cbn [negb] in E.
  destruct (PoolInit _ _ _) as [(p, count)|]; [|discriminate E]. injection E as <-. eexists. split; [reflexivity|].
  split; [unfold FilePoolRelease, PoolFree; cbn [pl cnt resources seq filter]; now rewrite nth_false|].
  cbn [pl]. set (q := mkpool _ _ _ _ _). intros t Hti Hr. unfold soloGet.
  assert (t < length (threads q)) as Htl by (apply nth_error_Some; rewrite Hti; discriminate).
  assert (pstep t CallGet q = Some (setT t TGet q, [GetBegin t])) as -> by (unfold pstep; now rewrite Hti).
  assert (pstep t Continue (setT t TGet q) = Some (setT t (TGetRead (hd_ q) (ver q)) (setT t TGet q), [Read t])) as ->.
  { unfold pstep. cbn [setT threads]. now rewrite nth_lupd_eq. }
  assert (forall q', nth_error (threads q') t = Some (TGetRead (hd_ q) (ver q)) -> resources q' = resources q ->
    pstep t Continue q' = Some (setT t TIdle q', [Exhausted t])) as G.
  { intros q' Hq Hs. unfold pstep. rewrite Hq, Hs. subst q. cbn [hd_ idx resources] in *. destruct (List.length (nexts p)); [contradiction|]. reflexivity. }
  rewrite G; [eauto| |reflexivity]. cbn [setT threads]. apply nth_lupd_eq. now rewrite length_lupd.
Qed.
Print Assumptions file_pool_error_before.
Example file_pool_error_before_case :
  exists f p', FilePoolInit 3 (Some (Some FILE_FAILURE)) true (fun _ => None) true 1024 1 = Some (mkInit FILE_FAILURE (Some f) (Some (Some FILE_FAILURE))) /\
    nth_error (threads (pl f)) 0 = Some TIdle /\ List.length (resources (pl f)) = 4 /\ soloGet 0 (pl f) = Some (p', [Exhausted 0]).
Proof. do 2 eexists. repeat split. Qed.
