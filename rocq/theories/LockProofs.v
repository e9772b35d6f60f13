From Coq Require Import List Arith ZArith Lia Bool.
Import ListNotations.
From Verif Require Import TreeModel TreeSpec CacheModel CacheShard CacheSpec CacheRun CacheProps LockModel LockSpec.

Section P.
  Context {D : Type}.
  Variable hash : Z -> Z.
  Variable fuel : nat.

  (* what a program does to its shard when left alone, with Q at each point *)
  Inductive path (Q : shard D -> Prop) : prog D -> shard D -> option (out D) -> shard D -> Prop :=
  | p_unlock r s : Q s -> path Q (Unlock r) s r s
  | p_access f s p s1 r s2 : Q s -> f s = Some (p, s1) -> path Q p s1 r s2 -> path Q (Access f) s r s2
  | p_load hit k s r s2 : Q s -> (forall z, path Q (k z) s r s2) -> path Q (LoadCounter hit k) s r s2
  | p_store hit v k s r s2 : Q s -> path Q k s r s2 -> path Q (StoreCounter hit v k) s r s2.
  Lemma path_Q (Q : shard D -> Prop) p s r s2 : path Q p s r s2 -> Q s.
  Proof. destruct 1; auto. Qed.

  (* between the shard before the call and after it *)
  Definition mid (a f s : shard D) : Prop :=
    forall i, (data s i = data a i \/ data s i = data f i) /\ (active s i = active a i \/ active s i = active f i).
  Lemma mid_left a f s : data s = data a -> active s = active a -> mid a f s.
  Proof. intros A B i. rewrite A, B. auto. Qed.
  Lemma mid_right a f s : data s = data f -> active s = active f -> mid a f s.
  Proof. intros A B i. rewrite A, B. auto. Qed.
  Lemma mid_mix a f s : data s = data a -> active s = active f -> mid a f s.
  Proof. intros A B i. rewrite A, B. auto. Qed.

  Lemma remove_data i (s : shard D) : data (cacheRemoveFromList i s) = data s /\ active (cacheRemoveFromList i s) = active s /\ allocated (cacheRemoveFromList i s) = allocated s /\ tree (cacheRemoveFromList i s) = tree s.
  Proof. unfold cacheRemoveFromList. destruct (nxt s i); cbn; destruct (prv s i) eqn:E; cbn; repeat match goal with |- context [match ?x with _ => _ end] => destruct x end; auto. Qed.
  Lemma onTree_data {A} (m : M A) (s : shard D) a s' : onTree m s = Some (a, s') -> data s' = data s /\ active s' = active s.
  Proof. unfold onTree. destruct (m (tree s)) as [(x, h)|]; [|discriminate]. intros E. injection E as <- <-. auto. Qed.
  Lemma add_data i (s s' : shard D) : cacheAddToHead i s = Some s' -> data s' = data s /\ active s' = active s.
  Proof.
    unfold cacheAddToHead. destruct (nxt s i), (prv s i); try discriminate. intros E.
    repeat match type of E with context [match ?x with _ => _ end] => destruct x; try discriminate end; injection E as <-; auto.
  Qed.

  Ltac pstep := eapply p_access; [|reflexivity|].
  Lemma count_path (Q : shard D -> Prop) hit p s r s2 : Q s -> path Q p s r s2 -> path Q (count hit p) s r s2.
  Proof. intros H P. apply p_load; auto. intros z. apply p_store; auto. Qed.
  Lemma hitDone_path (Q : shard D -> Prop) i (s : shard D) : Q s -> path Q (hitDone i) s (Some (OHit i (data s i))) s.
  Proof. intros H. apply count_path; auto. pstep; auto. apply p_unlock; auto. Qed.
  Lemma loadDone_path (Q : shard D -> Prop) ok i (s : shard D) : Q s -> path Q (loadDone ok i) s (Some (if ok then OLoaded i (data s i) else OFailed i (data s i))) s.
  Proof. intros H. apply count_path; auto. pstep; auto. apply p_unlock; auto. Qed.

  Lemma onTree_bind (m : M unit) (m' : M unit) (s : shard D) x s' : onTree (m ;;; m') s = Some (x, s') ->
    exists y s1, onTree m s = Some (y, s1) /\ onTree m' s1 = Some (x, s').
  Proof.
    unfold onTree, bind. destruct (m (tree s)) as [(y, h)|]; [|discriminate]. destruct (m' h) as [(z, h')|] eqn:E; [|discriminate].
    intros X. injection X as <- <-. exists y, (set_tree h s). split; auto. cbn. rewrite E. reflexivity.
  Qed.

  Lemma get_path hk ok d (a : shard D) o f : shardGet fuel hk ok d a = Some (o, f) -> path (mid a f) (getProg fuel hk ok d) a (Some o) f.
  Proof.
    intros H. unfold shardGet in H. unfold getProg.
    destruct (TreeFind fuel hk (tree a)) as [([p|], h)|] eqn:Ef; [| |discriminate].
    - destruct (cacheIncremenetCheckAndRemove (p - 3) (set_tree h a)) as [s'|] eqn:Ei; [|discriminate]. injection H as <- <-.
      eapply p_access; [apply mid_left; auto|rewrite Ef; reflexivity|]. unfold hitProg. unfold cacheIncremenetCheckAndRemove in Ei.
      destruct (Z.ltb (active (set_tree h a) (p - 3)) INT_MAX) eqn:El; [|discriminate].
      eapply p_access; [apply mid_left; auto|rewrite El; reflexivity|].
      match type of Ei with context [if ?b then _ else _] => destruct b eqn:Eb end; injection Ei as <-.
      + pose proof (remove_data (p - 3) (set_active (p - 3) (active (set_tree h a) (p - 3) + 1)%Z (set_tree h a))) as (R1 & R2 & _).
        pstep; [apply mid_mix; [reflexivity|symmetry; exact R2]|]. apply hitDone_path. apply mid_right; auto.
      + apply hitDone_path. apply mid_right; auto.
    - destruct (cacheLoad fuel hk ok d (set_tree h a)) as [([i|], s')|] eqn:El; [| |discriminate].
      + destruct (Z.ltb 0 (active s' i)); [|discriminate]. injection H as <- <-.
        eapply p_access; [apply mid_left; auto|rewrite Ef; reflexivity|].
        unfold cacheLoad in El. destruct (cacheGetNextFree fuel (set_tree h a)) as [([i'|], s1)|] eqn:En; try discriminate.
        (* the part after the node was chosen *)
        assert (forall s, data s = data a -> active s = active a -> (exists x, onTree (TreeNodeRemove (tp i')) s = Some (x, s1)) ->
          path (mid a s') (removeProg fuel hk ok d i') s (Some (if ok then OLoaded i (data s' i) else OFailed i (data s' i))) s') as Rest.
        { intros s E1 E2 (x & E3). eapply p_access; [apply mid_left; auto|rewrite E3; reflexivity|]. destruct (onTree_data _ _ _ _ E3) as (F1 & F2).
          assert (data s' = fupd (data a) i' d /\ active s' = fupd (active a) i' 1%Z) as (G1 & G2).
          { destruct ok.
            - destruct (onTree (set_key hk (tp i') ;;; TreeInsert fuel (tp i')) _) as [(y, s2)|] eqn:Eo in El; [|discriminate]. injection El as <- <-.
              destruct (onTree_data _ _ _ _ Eo) as (A & B). rewrite A, B. cbn. rewrite F1, F2, E1, E2. auto.
            - injection El as <- <-. cbn. rewrite F1, F2, E1, E2. auto. }
          unfold fillProg. pstep; [apply mid_left; congruence|]. pstep; [apply mid_mix; [cbn; congruence|rewrite G2; cbn; congruence]|].
          assert (mid a s' (set_data i' d (set_active i' 1%Z s1))) as Mr by (apply mid_right; rewrite ?G1, ?G2; cbn; congruence).
          destruct ok.
          - destruct (onTree (set_key hk (tp i') ;;; TreeInsert fuel (tp i')) _) as [(y, s2)|] eqn:Eo in El; [|discriminate]. injection El as <- <-.
            destruct (onTree_bind _ _ _ _ _ Eo) as (z & s3 & O1 & O2). eapply p_access; [exact Mr|rewrite O1; reflexivity|].
            destruct (onTree_data _ _ _ _ O1) as (A & B). eapply p_access; [apply mid_right; rewrite ?A, ?B, ?G1, ?G2; cbn; congruence|rewrite O2; reflexivity|].
            exact (loadDone_path _ true i' s2 (mid_right a s2 s2 eq_refl eq_refl)).
          - injection El as <- <-. exact (loadDone_path _ false i' _ Mr). }
        assert (i' = i) as -> . { destruct ok; [destruct (onTree (set_key hk (tp i') ;;; TreeInsert fuel (tp i')) _) as [(y, s2)|] in El; [|discriminate]|]; injection El; auto. }
        clear El. unfold cacheGetNextFree in En. unfold loadProg.
        destruct (Nat.ltb (allocated (set_tree h a)) (capacity (set_tree h a))) eqn:Ea.
        * destruct (onTree (TreeNodeRemove (tp (allocated (set_tree h a)))) _) as [(x, s2)|] eqn:Eo in En; [|discriminate]. injection En as Ei <-.
          change (allocated (set_tree h a)) with (allocated a) in Eo. rewrite Ei in Eo. eapply p_access; [apply mid_left; auto|rewrite Ea; reflexivity|]. change (allocated (set_tree h a)) with (allocated a). rewrite Ei. apply Rest; eauto.
        * destruct (last (set_tree h a)) as [l|] eqn:El; [|discriminate]. destruct (Z.eqb (active (set_tree h a) l) 0) eqn:Ez; [|discriminate].
          destruct (onTree (TreeDelete fuel (tp l)) (cacheRemoveFromList l (set_tree h a))) as [(x, s2)|] eqn:Ed; [|discriminate].
          destruct (onTree (TreeNodeRemove (tp l)) s2) as [(y, s3)|] eqn:Eo; [|discriminate]. injection En as <- <-.
          eapply p_access; [apply mid_left; auto|rewrite Ea, El, Ez; reflexivity|]. pose proof (remove_data l (set_tree h a)) as (R1 & R2 & _).
          unfold evictProg. pstep; [apply mid_left; auto|]. eapply p_access; [apply mid_left; [rewrite R1|rewrite R2]; reflexivity|rewrite Ed; reflexivity|].
          destruct (onTree_data _ _ _ _ Ed) as (A & B). apply Rest; [rewrite A, R1; reflexivity|rewrite B, R2; reflexivity|eauto].
      + injection H as <- <-. eapply p_access; [apply mid_left; auto|rewrite Ef; reflexivity|].
        unfold cacheLoad in El. destruct (cacheGetNextFree fuel (set_tree h a)) as [([i'|], s1)|] eqn:En; try discriminate.
        { destruct ok; [destruct (onTree (set_key hk (tp i') ;;; TreeInsert fuel (tp i')) _) as [(y, s2)|] in El; discriminate|discriminate]. }
        injection El as <-. unfold cacheGetNextFree in En. unfold loadProg.
        destruct (Nat.ltb (allocated (set_tree h a)) (capacity (set_tree h a))) eqn:Ea.
        { destruct (onTree (TreeNodeRemove (tp (allocated (set_tree h a)))) _) as [(x, s2)|] in En; discriminate. }
        destruct (last (set_tree h a)) as [l|] eqn:El.
        { destruct (Z.eqb (active (set_tree h a) l) 0); [|discriminate]. destruct (onTree (TreeDelete fuel (tp l)) (cacheRemoveFromList l (set_tree h a))) as [(x, s2)|]; [|discriminate].
          destruct (onTree (TreeNodeRemove (tp l)) s2) as [(y, s3)|]; discriminate. }
        injection En as <-. eapply p_access; [apply mid_left; auto|rewrite Ea, El; reflexivity|]. apply count_path; [apply mid_left; auto|]. apply p_unlock. apply mid_left; auto.
  Qed.
  Lemma release_path i (a f : shard D) : shardRelease i a = Some f -> path (mid a f) (releaseProg i) a None f.
  Proof.
    unfold shardRelease, releaseProg. intros H. destruct (Z.eqb (active a i) 0) eqn:E; [discriminate|].
    eapply p_access; [apply mid_left; auto|rewrite E; reflexivity|].
    match type of H with context [if ?b then _ else _] => destruct b eqn:Eb end.
    - destruct (add_data _ _ _ H) as (A & B). eapply p_access; [apply mid_right; congruence|rewrite H; reflexivity|]. apply p_unlock. apply mid_right; auto.
    - injection H as <-. apply p_unlock. apply mid_right; auto.
  Qed.

  (* a call on its shard, all at once *)
  Definition shardRun (o : cop D) (a : shard D) : option (option (out D) * shard D) :=
    match o with
    | Get k ok d => match shardGet fuel (hash k) ok d a with Some (x, f) => Some (Some x, f) | None => None end
    | Release (_, i) => match shardRelease i a with Some f => Some (None, f) | None => None end
    end.
  Lemma call_path o a r f : shardRun o a = Some (r, f) -> path (mid a f) (callProg hash fuel o) a r f.
  Proof.
    destruct o as [k ok d|(j, i)]; cbn; intros H.
    - destruct (shardGet fuel (hash k) ok d a) as [(x, f')|] eqn:E; [|discriminate]. injection H as <- <-. now apply get_path.
    - destruct (shardRelease i a) as [f'|] eqn:E; [|discriminate]. injection H as <- <-. now apply release_path.
  Qed.
  (* and on the cache *)
  Lemma run_shard o c j a e c' : shardOf hash o c = Some j -> nth_error (shards c) j = Some a -> runCop hash fuel o c = Some (e, c') ->
    exists r f, shardRun o a = Some (r, f) /\ endOf o j r = Some e /\ shards c' = lupd (shards c) j f.
  Proof.
    destruct o as [k ok d|(j', i)]; cbn; intros Ej Ea H.
    - unfold cacheGet in H. destruct (shardIndex (Z.of_nat (length (shards c))) (hash k)) as [z|]; [|discriminate]. injection Ej as Ej. rewrite Ej, Ea in H.
      destruct (shardGet fuel (hash k) ok d a) as [(x, f)|]; [|discriminate]. injection H as <- <-. exists (Some x), f. auto.
    - injection Ej as ->. unfold cacheRelease in H. rewrite Ea in H. destruct (shardRelease i a) as [f|]; [|discriminate]. injection H as <- <-. exists None, f. auto.
  Qed.
  Lemma shard_run o c j a r f : shardOf hash o c = Some j -> nth_error (shards c) j = Some a -> shardRun o a = Some (r, f) ->
    exists e c', runCop hash fuel o c = Some (e, c') /\ endOf o j r = Some e /\ shards c' = lupd (shards c) j f.
  Proof.
    destruct o as [k ok d|(j', i)]; cbn; intros Ej Ea H.
    - unfold cacheGet. destruct (shardIndex (Z.of_nat (length (shards c))) (hash k)) as [z|]; [|discriminate]. injection Ej as Ej. rewrite Ej, Ea.
      destruct (shardGet fuel (hash k) ok d a) as [(x, f')|]; [|discriminate]. injection H as <- <-. eexists _, _. auto.
    - injection Ej as ->. unfold cacheRelease. rewrite Ea. destruct (shardRelease i a) as [f'|]; [|discriminate]. injection H as <- <-. eexists _, _. auto.
  Qed.
End P.
