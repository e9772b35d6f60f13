(* One collection under calls *)
From Verif Require Import TreeModel CacheModel CacheSpec CacheShard CacheRun CacheProps CollectionModel CollectionSpec CollectionProofs CollectionRun CollectionCreate CollectionProps PropertiesCollection.
From Verif Require ItemModel.
From Verif Require Import ProfileModel DbModel DbSpec CallsModel CallsSpec.
Local Open Scope Z_scope.

(* a collection without the state of its cache *)
Fixpoint skeleton (c : coll) : coll :=
  match c with
  | Cached ci st _ => Cached ci st (mkcache [] 0 0)
  | Partial ci b (Some n) => Partial ci b (Some (skeleton n))
  | c => c
  end.
(* the bytes of a get *)
Fixpoint plainBytes (file : list Z) (k : kind) (c : coll) (i : Z) : option (list Z) :=
  match c with
  | Mem ci b => getMemory ci b i
  | File ci st | Cached ci st _ => match fileRead file k st ci IoOk i with Some (ROk b) => Some b | _ => None end
  | Partial ci b next => match getMemory ci b i with Some x => Some x | None => match next with Some n => plainBytes file k n i | None => None end end
  end.

Lemma get_skeleton file k fuel : forall c f i e c', collGet file k fuel c f i = Some (e, c') -> skeleton c' = skeleton c.
Proof.
  fix IH 1. intros [ci b|ci st|ci st cc|ci b [n|]] f i e c'; cbn [collGet].
  - destruct (getMemory ci b i); intros H; injection H as _ <-; reflexivity.
  - destruct (getFile file k ci st f i); intros H; [injection H as _ <-; reflexivity|discriminate].
  - destruct (getFromCache file k fuel ci st cc f i) as [(e1, cc1)|]; intros H; [injection H as _ <-; reflexivity|discriminate].
  - destruct (getMemory ci b i); [intros H; injection H as _ <-; reflexivity|]. destruct (collGet file k fuel n f i) as [(e1, n1)|] eqn:X; [|discriminate]. intros H. injection H as _ <-. cbn [skeleton]. now rewrite (IH _ _ _ _ _ X).
  - destruct (getMemory ci b i); intros H; injection H as _ <-; reflexivity.
Qed.
Lemma release_skeleton : forall c s c', collRelease c s = Some c' -> skeleton c' = skeleton c.
Proof.
  fix IH 1. intros [ci b|ci st|ci st cc|ci b [n|]] s c'; cbn [collRelease]; try discriminate.
  - destruct (cacheRelease (fst s) (snd s) cc); [|discriminate]. intros H. injection H as <-. reflexivity.
  - destruct (collRelease n s) as [n1|] eqn:X; [|discriminate]. intros H. injection H as <-. cbn [skeleton]. now rewrite (IH _ _ _ X).
Qed.
Lemma exec_skeleton file k fuel c0 tr c : exec file k fuel c0 tr c -> skeleton c = skeleton c0.
Proof.
  induction 1 as [|tr c o e c' _ IH _ E]; [reflexivity|]. rewrite <- IH. destruct o as [i f|s]; cbn [cstep] in E; [exact (get_skeleton _ _ _ _ _ _ _ _ E)|].
  destruct (collRelease c s) as [c1|] eqn:X; [|discriminate]. injection E as _ <-. exact (release_skeleton _ _ _ X).
Qed.
Lemma plain_skeleton file k : forall c i, plainBytes file k (skeleton c) i = plainBytes file k c i.
Proof.
  fix IH 1. intros [ci b|ci st|ci st cc|ci b [n|]] i; cbn [skeleton plainBytes]; try reflexivity. destruct (getMemory ci b i); [reflexivity|]. apply IH.
Qed.
Lemma layers_skeleton : forall c, layers (skeleton c) = layers c.
Proof. fix IH 1. intros [ci b|ci st|ci st cc|ci b [n|]]; cbn [skeleton layers methodOf]; try reflexivity. now rewrite IH. Qed.
Lemma method_skeleton c : methodOf (skeleton c) = methodOf c.
Proof. destruct c as [ci b|ci st|ci st cc|ci b [n|]]; reflexivity. Qed.
Lemma cache_skeleton : forall c, hasCache (skeleton c) = hasCache c.
Proof. fix IH 1. intros [ci b|ci st|ci st cc|ci b [n|]]; cbn [skeleton hasCache]; try reflexivity. apply IH. Qed.
Lemma count_skeleton : forall c, CollectionGetCount (skeleton c) = CollectionGetCount c.
Proof. fix IH 1. intros [ci b|ci st|ci st cc|ci b [n|]]; cbn [skeleton CollectionGetCount]; try reflexivity. apply IH. Qed.

Lemma item_len (l : list (list Z)) : forall n it, nth_error l n = Some it -> (length it <= length (concat l))%nat.
Proof. induction l as [|x l IH]; intros [|n] it; cbn [nth_error concat]; try discriminate; rewrite app_length; [intros E; injection E as ->; lia|]. intros N. specialize (IH _ _ N). lia. Qed.

Section One.
  Context (file : list Z) (k : kind) (items : list (list Z)) (h : header) (treeMem : TreeModel.heap) (fuel : nat) (cfg : config) (c0 : coll).
  Context (HR : regionOK file k items h) (HC : configOK treeMem fuel cfg) (Hcr : created file k treeMem h cfg c0).
  Notation cinv := (cinv file k items h fuel (capOf cfg) (concOf cfg) (slotsOf cfg)).
  Notation ci := (createCollection h).

  Lemma reached tr c : exec file k fuel c0 tr c -> cinv tr c /\ hasCache c = hasCache c0.
  Proof using HR HC Hcr. exact (exec_cinv _ _ _ _ _ HR _ _ _ _ _ _ (created_cinv _ _ _ _ _ HR _ _ _ HC Hcr)). Qed.

  Lemma cacheInv_users tr ci0 st cc n : cacheInv file k h fuel (capOf cfg) (concOf cfg) (slotsOf cfg) tr cc -> usersOf (Cached ci0 st cc) n = Z.of_nat (holding tr n + leaked tr n).
  Proof using Type.
    intros (cc0 & ctr & HS & He & Hh & _). destruct (reach _ _ _ _ _ _ HS _ _ He) as (as_ & C). destruct n as (j, i). cbn [usersOf fst snd]. rewrite <- Hh.
    destruct (Nat.ltb_spec j (Z.to_nat (concOf cfg))) as [L|L].
    - destruct (nth_error (shards cc) j) as [s|] eqn:E; [|apply nth_error_None in E; rewrite (ci_len _ _ _ _ _ _ C) in E; lia].
      rewrite (si_act _ _ _ (ci_si _ _ _ _ _ _ C _ _ E)). now rewrite (ci_h _ _ _ _ _ _ C) by exact L.
    - rewrite (proj2 (nth_error_None _ _)) by (rewrite (ci_len _ _ _ _ _ _ C); exact L). now rewrite (proj1 (ci_out _ _ _ _ _ _ C j i L)).
  Qed.
  Lemma users tr c n : exec file k fuel c0 tr c -> hasCache c0 = true -> usersOf c n = Z.of_nat (holding tr n + leaked tr n).
  Proof using HR HC Hcr.
    intros E Hc. destruct (reached _ _ E) as (I & Hh). rewrite Hc in Hh. destruct c as [c b|c s|c s cc|c b [nx|]]; cbn [hasCache] in Hh; try discriminate.
    - destruct I as (_ & _ & I). exact (cacheInv_users _ _ _ _ _ I).
    - destruct I as (m & _ & _ & _ & B). destruct nx as [c1 b1|c1 s|c1 s cc|c1 b1 n1]; cbn [base hasCache] in B, Hh; try contradiction; try discriminate.
      destruct B as (_ & _ & I). cbn [usersOf]. exact (cacheInv_users _ c1 s _ _ I).
  Qed.
  Lemma no_users c n : hasCache c = false -> usersOf c n = 0.
  Proof using Type. revert c. fix IH 1. intros [c b|c s|c s cc|c b [nx|]]; cbn [hasCache usersOf]; try reflexivity; [discriminate|apply IH]. Qed.
  Lemma base_release tr c n : base file k h fuel (capOf cfg) (concOf cfg) (slotsOf cfg) tr c -> hasCache c = true -> (0 < holding tr n)%nat -> exists c', collRelease c n = Some c'.
  Proof using Type.
    intros B Hh Hp. destruct c as [c b|c s|c s cc|c b nx]; cbn [base hasCache] in B, Hh; try contradiction; try discriminate.
    destruct B as (_ & _ & (cc0 & ctr & HS & He & Hd & _)). destruct (next _ _ _ _ _ _ HS _ _ (CacheSpec.Release n) He) as (e & cc' & R & _); [cbn; rewrite Hd; lia|].
    destruct n as (j, i). cbn [runCop] in R. cbn [collRelease fst snd]. destruct (cacheRelease j i cc); [eauto|discriminate].
  Qed.
  Lemma can_release tr c n : exec file k fuel c0 tr c -> hasCache c0 = true -> (0 < holding tr n)%nat -> exists c', collRelease c n = Some c'.
  Proof using HR HC Hcr.
    intros E Hc Hp. destruct (reached _ _ E) as (I & Hh). rewrite Hc in Hh. destruct c as [c b|c s|c s cc|c b [nx|]]; cbn [hasCache] in Hh; try discriminate.
    - exact (base_release _ (Cached c s cc) _ I eq_refl Hp).
    - destruct I as (m & _ & _ & _ & B). destruct (base_release _ _ _ B Hh Hp) as (n' & R). cbn [collRelease]. rewrite R. eauto.
  Qed.

  (* a get of an item *)
  Definition gotFrom (from : coll) (i : Z) (b : list Z) (s : option slot) (c c' : coll) : Prop :=
    match from with
    | Cached _ _ _ => exists n, s = Some n
    | File ci st => s = None /\ c' = c /\ wayOf file k st ci IoOk i = ItemModel.Try (Z.of_nat (length b)) true true /\ 0 < Z.of_nat (length b) < 2 ^ 32
    | _ => s = None /\ c' = c
    end.
  Lemma item_way n it : nth_error items n = Some it -> fileRead file k (hstart h) ci IoOk (position k items n) = Some (ROk it) ->
    wayOf file k (hstart h) ci IoOk (position k items n) = ItemModel.Try (Z.of_nat (length it)) true true /\ 0 < Z.of_nat (length it) < 2 ^ 32.
  Proof using HR.
    clear Hcr. intros N T. pose proof HR as (Hi & Hl & Hb & Hn & _).
    assert (L : Z.of_nat (length it) < 2 ^ 32).
    { pose proof (item_len items n it N). lia. }
    assert (P : 0 < Z.of_nat (length it)) by (destruct it; [exfalso; eapply (truth_nonempty _ _ _ _ HR); [exact T|reflexivity]|cbn; lia]).
    split; [|lia]. unfold wayOf, inRange. cbn [io_eqb negb andb]. rewrite !andb_true_r. unfold fileRead in T. destruct k as [|init final].
    - apply (f_equal (fun o => match o with Some r => r | None => RErr READ_FAIL end)) in T. cbv beta iota in T. assert (celem ci = Z.of_nat (length it)) as Ee.
      { destruct (elemSize _ _ _ _ HR) as [(-> & _)|(es & He & Hes & Hall)]; [destruct n; discriminate|]. rewrite Hes. now rewrite (Hall it (nth_error_In _ _ N)). }
      rewrite T. unfold ReadFileFixed in T. destruct (position Fixed items n <? ccount ci); [|discriminate]. destruct (_ <? csize ci); [|discriminate]. cbn [andb]. now rewrite Ee.
    - rewrite T. unfold ReadFileVariable in T. destruct (position _ items n <? csize ci); [|discriminate]. cbn [io_eqb] in T |- *.
      destruct (fread file _ init) as [initial|] eqn:Er; [|discriminate]. destruct (Z.ltb_spec (final initial mod 2 ^ 32) (Z.of_nat init)) as [|Hge]; [discriminate|].
      destruct (fread file _ (Z.to_nat (final initial mod 2 ^ 32) - init)) as [rest|] eqn:Er2; [|discriminate]. injection T as <-.
      assert (Lf : forall p m x, fread file p m = Some x -> length x = m).
      { intros p m x E. unfold fread in E. destruct (Nat.leb_spec (p + m) (length file)); [|discriminate]. injection E as <-. now apply length_slice. }
      rewrite app_length, (Lf _ _ _ Er), (Lf _ _ _ Er2). rewrite app_length, (Lf _ _ _ Er), (Lf _ _ _ Er2) in L, P. apply f_equal3; [|reflexivity..]. lia.
  Qed.
  Lemma base_got tr c n it e c' : base file k h fuel (capOf cfg) (concOf cfg) (slotsOf cfg) tr c -> nth_error items n = Some it ->
    wellUsed tr c (Get (position k items n) IoOk) -> collGet file k fuel c IoOk (position k items n) = Some (e, c') -> forall b s, e = EGot (position k items n) b s ->
    plainBytes file k c (position k items n) = Some b /\ gotFrom (serving c (position k items n)) (position k items n) b s c c'.
  Proof using HR.
    intros B N Hw E b s ->. destruct (base_get _ _ _ _ _ HR _ _ _ _ _ _ _ _ _ B Hw E) as (_ & _ & Q).
    destruct c as [c1 b1|c1 s1|c1 s1 cc|c1 b1 nx]; cbn [base hasCache serving plainBytes gotFrom] in *; try contradiction.
    - destruct B as (-> & ->). destruct Q as [(b' & E1 & T)|(st & E1 & _)]; [|discriminate]. injection E1 as <- ->. fold ci. unfold truth in T. rewrite T. split; [reflexivity|]. split; [reflexivity|].
      cbn [collGet] in E. destruct (getFile _ _ _ _ _ _); [|discriminate]. injection E as _ <-. split; [reflexivity|].
      pose proof (truth_item _ _ _ _ HR _ _ N) as T'. unfold truth in T'. assert (b = it) as -> by congruence. exact (item_way _ _ N T').
    - destruct B as (-> & -> & _). destruct Q as [(b' & s' & E1 & T)|[(st & s' & E1 & _)|(E1 & _)]]; try discriminate. injection E1 as <- ->. unfold truth in T. rewrite T. split; [reflexivity|eauto].
  Qed.
  Lemma got_item tr c n it : exec file k fuel c0 tr c -> nth_error items n = Some it -> wellUsed tr c (Get (position k items n) IoOk) ->
    (hasCache c0 = true -> 0 < concOf cfg <= Z.of_nat (slotsOf cfg) /\ Z.of_nat (outstanding tr) < concOf cfg) ->
    exists b s c', collGet file k fuel c IoOk (position k items n) = Some (EGot (position k items n) b s, c') /\ plainBytes file k c (position k items n) = Some b /\
      firstn (length it) b = it /\ gotFrom (serving c (position k items n)) (position k items n) b s c c'.
  Proof using HR HC Hcr.
    intros E N Hw Hr. destruct (collection_get_succeeds_below_concurrency _ _ _ _ _ _ _ _ _ _ _ _ HR HC Hcr E N Hw Hr) as (b & s & c' & G & F). cbn [cstep] in G.
    exists b, s, c'. split; [exact G|]. destruct (reached _ _ E) as (I & Hh).
    enough (plainBytes file k c (position k items n) = Some b /\ gotFrom (serving c (position k items n)) (position k items n) b s c c') by intuition auto.
    clear Hr. set (i := position k items n) in *. destruct c as [c1 b1|c1 s1|c1 s1 cc|c1 b1 [nx|]].
    - cbn [collGet serving plainBytes gotFrom] in *. destruct (getMemory c1 b1 i); [|discriminate]. injection G as -> <- <-. auto.
    - exact (base_got tr (File c1 s1) n it _ _ I N Hw G _ _ eq_refl).
    - exact (base_got tr (Cached c1 s1 cc) n it _ _ I N Hw G _ _ eq_refl).
    - destruct I as (m & _ & _ & _ & B). cbn [collGet serving plainBytes] in *. destruct (getMemory c1 b1 i) eqn:Em.
      + injection G as -> <- <-. cbn [gotFrom]. auto.
      + destruct (collGet file k fuel nx IoOk i) as [(e1, n1)|] eqn:En; [|discriminate]. injection G as -> <-.
        destruct (base_got tr nx n it _ _ B N Hw En _ _ eq_refl) as (P & Q). split; [exact P|]. fold i in Q.
        destruct nx as [c2 b2|c2 s2|c2 s2 cc|c2 b2 nn]; cbn [base] in B; try contradiction; cbn [serving gotFrom] in *; [|exact Q]. destruct Q as (-> & -> & Q). auto.
    - cbn [collGet serving plainBytes gotFrom] in *. destruct (getMemory c1 b1 i); [|discriminate]. injection G as -> <- <-. auto.
  Qed.
  (* the shapes a collection has *)
  Lemma shapes tr c : exec file k fuel c0 tr c ->
    In (layers c) [[Nothing]; [ByFile]; [ByCache]; [ByItem]; [ByItem; ByFile]; [ByItem; ByCache]].
  Proof using HR HC Hcr.
    intros E. destruct (reached _ _ E) as (I & _). destruct c as [c b|c s|c s cc|c b [nx|]]; cbn [layers methodOf In]; auto 10.
    destruct I as (m & _ & _ & _ & B). destruct nx as [c1 b1|c1 s|c1 s cc|c1 b1 n1]; cbn [base] in B; try contradiction; cbn [layers methodOf]; auto 10.
  Qed.
End One.
