(* C55, C77: dataset.c *)
From Verif Require Import DataSetProofs.

(* C55: every history in which reloads do not overlap is defined: each Get gives the
   data set of the last reload that succeeded, and the data sets that are not freed
   are this one and those that users hold *)
Theorem reload_history : forall file ops as_ v, seesAll (view0 file) ops as_ v -> oneReload false ops ->
  exists m, performAll ops (start file) = Some (as_, m) /\ length (sets (world m)) = length (made v) /\
    forall i d, nth_error (sets (world m)) i = Some d -> (alive d = true <-> inUseBy v i).
Proof.
  intros file ops as_ v S O. destruct (run_total _ _ _ _ S false _ (start_ok file) eq_refl O) as (m & P & G).
  exists m. split; [exact P|]. split; [exact (g_len _ _ _ _ (gi_good _ _ G))|]. exact (g_alive _ _ _ _ (gi_good _ _ G)).
Qed.
Print Assumptions reload_history.

(* a reload that fails changes nothing for users: they get what they got before *)
Theorem reload_fails : forall file ops as_ v t b o, seesAll (view0 file) ops as_ v -> In t (inProgress v) -> o = NoMemory \/ o = InitFails ->
  oneReload false (ops ++ [End t b o; Get]) ->
  exists m m' i, performAll ops (start file) = Some (as_, m) /\ performAll (ops ++ [End t b o; Get]) (start file) = Some (as_ ++ [IsStatus false; IsSet (current v)], m') /\
    i = current v /\ (forall j d, inUseBy v j -> nth_error (sets (world m)) j = Some d -> exists d', nth_error (sets (world m')) j = Some d' /\ alive d' = true).
Proof.
  intros file ops as_ v t b o S I Ho O. apply in_split in I. destruct I as (p1 & p2 & I). destruct v as [c h n p]. cbn in I. subst p.
  assert (SA : forall v0 ops1 as1 v1 ops2 as2 v2, seesAll v0 ops1 as1 v1 -> seesAll v1 ops2 as2 v2 -> seesAll v0 (ops1 ++ ops2) (as1 ++ as2) v2).
  { clear. induction 1 as [|v0 o a v' ops as_ v2' S R IH]; intros H2; cbn; [exact H2|]. econstructor; eauto. }
  assert (OA : forall ops1 ops2 busy, oneReload busy (ops1 ++ ops2) -> oneReload busy ops1).
  { clear. induction ops1 as [|o ops1 IH]; intros ops2 busy H; [exact Logic.I|]. destruct o as [| |t|t b oc]; cbn in *; eauto; [destruct H; split; eauto|destruct oc as [| |f [|]]; eauto]. }
  assert (X : exists n', seesAll (mkView c h n (p1 ++ t :: p2)) [End t b o; Get] [IsStatus false; IsSet c] (mkView c (c :: h) n' (p1 ++ p2))).
  { destruct Ho as [-> | ->]; eexists; (eapply sees_more; [constructor|]); (eapply sees_more; [constructor|constructor]). }
  destruct X as (n' & X). pose proof (SA _ _ _ _ _ _ _ S X) as S2.
  destruct (run_total _ _ _ _ S false _ (start_ok file) eq_refl (OA _ _ _ O)) as (m & P & G).
  destruct (run_total _ _ _ _ S2 false _ (start_ok file) eq_refl O) as (m' & P' & G').
  exists m, m', c. split; [exact P|]. split; [exact P'|]. split; [reflexivity|]. intros j d U E.
  destruct (good_find _ _ _ _ j (gi_good _ _ G')) as (d' & E' & A' & _).
  { cbn. destruct U as [->|U]; [now left|right; now right]. }
  exists d'. auto.
Qed.
Print Assumptions reload_fails.

(* however reloads overlap, as long as nothing was undefined: what users hold is not
   freed *)
Theorem reload_held : forall file ops as_ v as' m, seesAll (view0 file) ops as_ v -> performAll ops (start file) = Some (as', m) ->
  as' = as_ /\ forall i, inUseBy v i -> exists d, nth_error (sets (world m)) i = Some d /\ alive d = true.
Proof.
  intros file ops as_ v as' m S P. destruct (run_partial _ _ _ _ S _ _ _ (start_ok file) P) as (-> & G). split; [reflexivity|].
  intros i U. destruct (good_find _ _ _ _ i (gi_good _ _ G) U) as (d & E & A & _). now exists d.
Qed.
Print Assumptions reload_held.

Definition history : list op := [Get; Begin 1; End 1 true InitFails; Get; Begin 2; Get; End 2 false (InitOk (Some 8) true); Get; Release 0; Release 0; Release 0; Release 2].
Definition historyView : view := mkView 2 [] [Some 7; None; Some 8] [].
Example reload_example :
  seesAll (view0 (Some 7)) history [IsSet 0; NoAnswer; IsStatus false; IsSet 0; NoAnswer; IsSet 0; IsStatus true; IsSet 2; NoAnswer; NoAnswer; NoAnswer; NoAnswer] historyView /\
  oneReload false history /\
  option_map (fun '(_, m) => (map alive (sets (world m)), deleted (world m))) (performAll history (start (Some 7))) = Some ([false; false; true], [7]).
Proof.
  split; [|split; [cbn; tauto|reflexivity]]. unfold history, view0, historyView.
  eapply sees_more; [apply sees_get|]. eapply sees_more; [apply sees_begin; cbn; tauto|].
  eapply sees_more; [apply (sees_fails 0 [0] [Some 7] [] 1 [])|]. eapply sees_more; [apply sees_get|].
  eapply sees_more; [apply sees_begin; cbn; tauto|]. eapply sees_more; [apply sees_get|].
  eapply sees_more; [apply (sees_ok 0 [0; 0; 0] [Some 7; None] [] 2 [] false (Some 8) true)|]. eapply sees_more; [apply sees_get|].
  eapply sees_more; [apply (sees_release 2 [2] 0 [0; 0])|]. eapply sees_more; [apply (sees_release 2 [2] 0 [0])|].
  eapply sees_more; [apply (sees_release 2 [2] 0 [])|]. eapply sees_more; [apply (sees_release 2 [] 2 [])|]. constructor.
Qed.

(* Refuted: while a reload initialises its data set another one frees the data set
   whose properties and configuration the first one uses *)
Theorem reload_overlap_refuted : exists ops as_ v, seesAll (view0 None) ops as_ v /\ performAll ops (start None) = None /\
  (forall i, In i (held v) -> False) /\ ops = [Begin 1; Begin 2; End 2 true (InitOk None true); End 1 true (InitOk None true)].
Proof.
  do 3 eexists. split; [|split; [|split; [|reflexivity]]].
  - eapply sees_more; [apply sees_begin; cbn; tauto|]. eapply sees_more; [apply sees_begin; cbn; intuition congruence|].
    eapply sees_more; [apply (sees_ok 0 [] [None] [] 2 [1])|]. eapply sees_more; [apply (sees_ok 1 [] [None; None] [] 1 [])|]. constructor.
  - reflexivity.
  - cbn. tauto.
Qed.
Print Assumptions reload_overlap_refuted.
(* Refuted: when no handle can be allocated NULL is used as one, before it is checked *)
Theorem reload_no_handle_refuted : forall file f b t, performAll [Begin t; End t b (InitOk f false)] (start file) = None.
Proof. intros file f b t. cbn. rewrite Nat.eqb_refl. reflexivity. Qed.
Print Assumptions reload_no_handle_refuted.

(* C77: the temp file of a data set in use is not deleted, that of one that is not in
   use is, if each has its own *)
Theorem reload_files : forall file ops as_ v, seesAll (view0 file) ops as_ v -> oneReload false ops -> ownFiles v ->
  exists m, performAll ops (start file) = Some (as_, m) /\
    forall i f, nth_error (made v) i = Some (Some f) -> (In f (deleted (world m)) <-> ~ inUseBy v i).
Proof.
  intros file ops as_ v S O F. destruct (run_total _ _ _ _ S false _ (start_ok file) eq_refl O) as (m & P & G).
  exists m. split; [exact P|]. intros i f E. rewrite (g_gone _ _ _ _ (gi_good _ _ G)). split.
  - intros (j & X & Y). now rewrite (F i j f E X).
  - intros N. exists i. auto.
Qed.
Print Assumptions reload_files.
Example reload_files_example : ownFiles historyView.
Proof. intros [|[|[|i]]] [|[|[|j]]] f E E'; cbn in *; try congruence; try (destruct i; discriminate); try (destruct j; discriminate). Qed.

(* Refuted: a reload that uses the temp file again (reuseTempFile) has it deleted with
   the data set it replaces *)
Theorem reload_files_refuted : exists ops as_ v m, seesAll (view0 (Some 7)) ops as_ v /\ oneReload false ops /\ performAll ops (start (Some 7)) = Some (as_, m) /\
  nth_error (made v) (current v) = Some (Some 7) /\ In 7 (deleted (world m)).
Proof.
  exists [Begin 1; End 1 true (InitOk (Some 7) true)]. do 3 eexists. split; [|split; [|split; [|split]]].
  - eapply sees_more; [apply sees_begin; cbn; tauto|]. eapply sees_more; [apply (sees_ok 0 [] [Some 7] [] 1 [])|]. constructor.
  - cbn. tauto.
  - reflexivity.
  - reflexivity.
  - cbn. tauto.
Qed.
Print Assumptions reload_files_refuted.
