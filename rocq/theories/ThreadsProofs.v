(* Whatever the order of the steps, each thread has what it needs *)
From Coq Require Import Permutation.
From Verif Require Import TreeModel CacheModel CacheSpec CacheRun CacheProps CollectionModel CollectionSpec.
From Verif Require ItemModel LifeProofs.
From Verif Require Import SearchModel ProfileModel ProfileSpec ProfileProofs PropertiesProfile DbModel DbSpec DbProofs DbFound.
From Verif Require Import CallsModel CallsSpec CallsGet CallsWorld CallsProofs PropertiesCalls.
From Verif Require Import ThreadsModel ThreadsSpec ThreadsSafe.
Local Open Scope Z_scope.

(* ---- lists ---- *)
Definition setAt {A} (t : nat) (x : A) (l : list A) : list A := firstn t l ++ x :: skipn (S t) l.
Lemma split_at {A} t : forall (l : list A) a, nth_error l t = Some a -> l = firstn t l ++ a :: skipn (S t) l.
Proof. induction t as [|t IH]; intros [|b l] a H; try discriminate; cbn [nth_error firstn skipn app] in *; [congruence|]. f_equal. now apply IH. Qed.
Lemma setAt_nth {A} t x : forall (l : list A) i, (t < length l)%nat -> nth_error (setAt t x l) i = if Nat.eqb i t then Some x else nth_error l i.
Proof.
  unfold setAt. induction t as [|t IH]; intros [|b l] i H; cbn [length] in H; try lia; [destruct i; reflexivity|]. destruct i as [|i]; [reflexivity|]. change (nth_error (firstn t l ++ x :: skipn (S t) l) i = if Nat.eqb i t then Some x else nth_error l i). apply IH. lia.
Qed.
Lemma setAt_length {A} t x : forall l : list A, (t < length l)%nat -> length (setAt t x l) = length l.
Proof. unfold setAt. induction t as [|t IH]; intros [|b l] H; cbn [length] in H; try lia; [reflexivity|]. change (S (length (firstn t l ++ x :: skipn (S t) l)) = S (length l)). f_equal. apply IH. lia. Qed.
Lemma without_perm {A} t (l : list A) a : nth_error l t = Some a -> Permutation l (a :: without t l).
Proof. intros H. unfold without. rewrite (split_at t l a H) at 1. symmetry. apply Permutation_middle. Qed.
Lemma setAt_perm {A} t (x : A) l : Permutation (setAt t x l) (x :: without t l).
Proof. unfold setAt, without. symmetry. apply Permutation_middle. Qed.
Lemma concat_perm {A} (l l' : list (list A)) : Permutation l l' -> Permutation (concat l) (concat l').
Proof.
  induction 1 as [|x l l' _ IH|x y l|l l' l'' _ IH1 _ IH2]; cbn [concat]; [constructor|now apply Permutation_app_head| |now transitivity (concat l')].
  rewrite !app_assoc. apply Permutation_app_tail, Permutation_app_comm.
Qed.
Lemma F2_without {A B} (R : A -> B -> Prop) l l' : Forall2 R l l' -> forall k a, nth_error l k = Some a -> exists b, nth_error l' k = Some b /\ R a b /\ Forall2 R (without k l) (without k l').
Proof.
  induction 1 as [|x y l l' H0 H IH]; intros [|k] a E; try discriminate; cbn [nth_error] in E.
  - injection E as <-. exists y. split; [reflexivity|]. split; [exact H0|exact H].
  - destruct (IH k a E) as (b & E1 & E2 & E3). exists b. split; [exact E1|]. split; [exact E2|]. unfold without in *. cbn [firstn skipn app]. now constructor.
Qed.

(* ---- names ---- *)
Section Names.
  Context (d : db).
  Lemma named_dec i name : nameOfProp d i name \/ ~ nameOfProp d i name.
  Proof.
    unfold nameOfProp. destruct (nth_error (props d) i) as [p|] eqn:E; [|right; intros (p & X & _); discriminate]. destruct (nth_error (texts d) (pname p)) as [t|] eqn:Et.
    - destruct (list_eq_dec Z.eq_dec t name) as [->|Ne]; [left; eauto|right]. intros (q & X & Y). injection X as <-. congruence.
    - right. intros (q & X & Y). injection X as <-. congruence.
  Qed.
  Lemma first_below name n : (exists j p, firstNamed d name j p) \/ forall i, (i < n)%nat -> ~ nameOfProp d i name.
  Proof.
    induction n as [|n [IH|IH]]; [right; lia|left; exact IH|]. destruct (named_dec n name) as [(p & E1 & E2)|No]; [left; exists n, p; split; [exact E1|]; split; [exact E2|exact IH]|].
    right. intros i Hi. destruct (Nat.eq_dec i n) as [->|Ne]; [exact No|]. apply IH. lia.
  Qed.
  Lemma first_or_none name : (exists j p, firstNamed d name j p) \/ forall i, ~ nameOfProp d i name.
  Proof.
    destruct (first_below name (length (props d))) as [H|H]; [left; exact H|right]. intros i N. apply (H i); [|exact N]. destruct N as (p & E & _). apply nth_error_Some. congruence.
  Qed.
  Lemma first_unique name j p j' p' : firstNamed d name j p -> firstNamed d name j' p' -> j' = j /\ p' = p.
  Proof.
    intros (A1 & A2 & A3) (B1 & B2 & B3). assert (j' = j) as ->; [|split; [reflexivity|congruence]].
    destruct (lt_eq_lt_dec j j') as [[L|E]|L]; [exfalso; apply (B3 j L); exists p; auto|auto|exfalso; apply (A3 j' L); exists p'; auto].
  Qed.
End Names.

Section Threads.
  Context (file : list Z) (pl : places) (d : db) (u : uses).
  Context (D : dbOK d) (St : stored file pl d) (Op : allOpened file pl u) (Co : compatible u).
  Context (compareOther : list Z -> list Z -> Z).
  Notation collOf s := (ucoll (useOf u s)).
  Context (out0 : src -> nat) (room : roomFor d u out0).
  Notation heldBy := (CallsWorld.heldBy u).
  Notation safe := (ThreadsSafe.safe file d u).
  Notation none s l := (srcCount s l = 0%nat).
  Notation gString := (CallsWorld.plain file u textOf Texts).
  Notation gProperty := (CallsWorld.plain file u propertyOf Props).
  Notation gValue := (CallsWorld.plain file u valueNameOffset Vals).
  Notation gOffset := (CallsWorld.plain file u offsetOf Offs).
  Notation gProfile := (CallsWorld.plain file u profileOf Profs).

  (* ---- the calls ---- *)
  Definition final (q : query) (n : nat) (h : list res) (r : result) : Prop :=
    correct d q (ans r) /\ clear r = true /\ match kept r with Some (s, it) => heldBy s it h | None => h = [] end.
  Lemma fits_props : fits_method (methodOf (collOf Props)) (collOf Texts) = true.
  Proof using Co. exact (proj1 Co). Qed.
  Lemma fits_offs : fits_method (methodOf (collOf Offs)) (collOf Profs) = true.
  Proof using Co. exact (proj2 Co). Qed.
  Lemma value_bytes r b : plainBytes file Fixed (ucoll (vuse u)) r = Some b -> forall name, nameOfVal d r name -> exists x rest, nth_error (vals d) (Z.to_nat r) = Some x /\ b = encVal d x ++ rest.
  Proof using D St Op room.
    intros Pb name (H0 & x & Nx & _). destruct (plain_there file pl d u D St Op out0 room Vals _ _ (val_item d _ _ Nx)) as (b' & rest & Pb' & ->).
    cbn [kindOf position useOf] in Pb'. rewrite Z2Nat.id in Pb' by lia. rewrite Pb in Pb'. injection Pb' as ->. exists x, rest. auto.
  Qed.
  Lemma offset_pure id : id <> 0 -> order d <> [] ->
    (forall i j n m f g, (i < j)%nat -> nth_error (order d) i = Some n -> nth_error (order d) j = Some m -> nth_error (profs d) n = Some f -> nth_error (profs d) m = Some g -> prid f < prid g) ->
    exists r, ProfileModel.ProfileGetOffsetForProfileId gOffset (length (order d)) id = Some (r, true) /\
      match r with
      | Some off => exists i n f, nth_error (order d) i = Some n /\ nth_error (profs d) n = Some f /\ prid f = id /\ off = startOf (map encProf (profs d)) n
      | None => forall i n f, nth_error (order d) i = Some n -> nth_error (profs d) n = Some f -> prid f <> id
      end.
  Proof using D St Op room.
    intros Hid Hn Hs. pose proof (plain_readers file pl d u D St Op out0 room) as R.
    destruct (profile_by_id gOffset (length (order d)) id Hid) as (r & E & H).
    - intros X. apply Hn. now apply length_zero_iff_nil.
    - exact (order_small d D).
    - intros i Hx. destruct (nth_some (order d) i Hx) as (n & En & Ei). destruct (order_prof d D _ _ En) as (f & Ef). rewrite <- Ei. rewrite (got_offset file pl d u _ _ _ _ _ D St Op R _ _ _ En Ef). eauto.
    - intros i j a b Hx Hij Hj Ea Eb. destruct (nth_some (order d) i ltac:(lia)) as (n & En & Ei). destruct (order_prof d D _ _ En) as (f & Ef). rewrite <- Ei, (got_offset file pl d u _ _ _ _ _ D St Op R _ _ _ En Ef) in Ea. injection Ea as <-.
      destruct (nth_some (order d) j ltac:(lia)) as (m & Em & Ej). destruct (order_prof d D _ _ Em) as (g & Eg). rewrite <- Ej, (got_offset file pl d u _ _ _ _ _ D St Op R _ _ _ Em Eg) in Eb. injection Eb as <-.
      cbn [profileId]. apply Z.lt_le_incl. exact (Hs (Z.to_nat i) (Z.to_nat j) n m f g ltac:(lia) En Em Ef Eg).
    - exists r. split; [exact E|]. destruct r as [off|].
      + destruct H as (i & o & Hx & Eo & Ed & <-). destruct (nth_some (order d) i Hx) as (n & En & Ei). destruct (order_prof d D _ _ En) as (f & Ef). rewrite <- Ei, (got_offset file pl d u _ _ _ _ _ D St Op R _ _ _ En Ef) in Eo. injection Eo as <-.
        cbn [profileId offset] in *. exists (Z.to_nat i), n, f. auto.
      + intros i n f En Ef X. apply (H (Z.of_nat i) (mkOffset (prid f) (startOf (map encProf (profs d)) n))).
        * assert (i < length (order d))%nat by (apply nth_error_Some; congruence). lia.
        * exact (got_offset file pl d u _ _ _ _ _ D St Op R _ _ _ En Ef).
        * exact X.
  Qed.
  Lemma call_safe q : allowed d u q -> exists b, (b + 1 <= most d)%nat /\ safe (final q) b [] (call compareOther q).
  Proof using D St Op Co room.
    unfold most. destruct q as [name|index|property name|property name|a b|index|id]; cbn [allowed call].
    - intros B. exists (S (4 * length (props d) + 0)). split; [lia|]. apply safe_bind. apply (name_safe file pl d u D St Op fits_props name); auto.
      intros m' r it' rs t _ E Hr C. rewrite app_nil_r. cbn [ThreadsSafe.safe]. unfold final. cbn [ans clear kept correct].
      destruct (first_or_none d name) as [(j & p & F)|No].
      + destruct (known_name file pl d u D St Op out0 room name j p (proj1 F) (proj1 (proj2 F)) (proj2 (proj2 F))) as (t' & P). rewrite P in E. injection E as <- <-. cbn [held]. split; [exists j, p; auto|]. auto.
      + destruct (unknown_name file pl d u D St Op out0 room name B No) as (t' & P). rewrite P in E. injection E as <- <-. cbn [held]. split; [exact No|]. split; [reflexivity|]. apply Hr.
    - intros H. exists 2%nat. split; [lia|]. destruct (nth_some (props d) index H) as (p & Np & Ei). revert Np Ei. generalize (Z.to_nat index). intros j Np <-. clear H. unfold PropertyGetValueType. cbn [bind].
      apply (safe_prop file d u D _ _ _ _ p); auto. intros b it' r _ Et _ Hd C. rewrite Et. cbn [need bind]. apply (safe_release file d u _ _ _ Props Props it' r []); [reflexivity|exact Hd|exact (own_method file pl d u D St Op Props)|].
      intros it2 _ _. cbn [bind ThreadsSafe.safe]. unfold final. cbn [fst snd ans clear kept correct]. rewrite Nat2Z.id. split; [exists p; auto|]. auto.
    - intros (B & j & p & Np & -> & Ns & Hor). destruct (index_of file pl d u out0 compareOther j p name D St Op room Np Ns B) as (r & E & H). destruct (prop_in d D _ _ Np) as (_ & _ & _ & (P0 & _) & _). pose proof Ns as ((_ & N2 & _) & _).
      pose proof (index_safe file pl d u D St Op out0 room compareOther (decoded d p) name [] eq_refl eq_refl P0 N2 Hor) as X. rewrite E in X. destruct X as (_ & X).
      exists ((2 + 2) * 33 + 1)%nat. split; [lia|]. apply safe_bind. apply X. intros m' _. cbn [ThreadsSafe.safe]. unfold final. cbn [fst snd ans clear kept correct decoded firstValueIndex lastValueIndex]. auto.
    - intros (B & j & p & Np & -> & Ns & Hf). destruct (index_of file pl d u out0 compareOther j p name D St Op room Np Ns B) as (r & E & H). destruct (prop_in d D _ _ Np) as (_ & _ & _ & (P0 & _) & _). pose proof Ns as ((_ & N2 & _) & _).
      pose proof (value_safe file pl d u D St Op out0 room compareOther (decoded d p) name [] newItem eq_refl eq_refl P0 N2 Hf) as X. rewrite E in X. destruct X as (_ & X).
      exists ((2 + 2) * 33 + 0)%nat. split; [lia|]. apply safe_bind. apply X. intros m' ob it' rs _ Z. rewrite app_nil_r. cbn [ThreadsSafe.safe]. unfold final. cbn [ans clear kept correct decoded firstValueIndex lastValueIndex].
      destruct Z as [(Hr & Hd & b & -> & Pb)|(-> & -> & ->)]; cbn [held].
      + destruct H as [(-> & _)|(Hv & Nv)]; [lia|]. destruct (value_bytes r b Pb name Nv) as (x & rest & Nx & Eb). split; [exists r, x, rest; auto|]. auto.
      + destruct H as [(_ & H)|(Hv & _)]; [|lia]. auto.
    - intros (Ba & Bb & Hs). destruct (first_or_none d a) as [(j & p & F)|No].
      + destruct (Hs j p F) as ((Ns & Hor) & Nl). pose proof F as (Np & Nt & First). pose proof Ns as ((_ & N2 & _) & _).
        destruct (db_profiles_found file pl d u _ _ _ _ _ D St Op (plain_readers file pl d u D St Op out0 room) compareOther j p a b Np Nt First Ns Nl Bb) as (called & t & E & _ & So & H).
        pose proof (iterate_safe file pl d u D St Op out0 room compareOther j p a b fits_props fits_offs Np Nt First N2 Hor) as X. rewrite E in X.
        exists (S (4 * length (props d) + ((2 + 2) * 33 + S (S (4 * length (order d) + 1)))))%nat. split; [lia|]. apply safe_bind. apply X. intros m' _. cbn [ThreadsSafe.safe]. unfold final. cbn [fst snd ans clear kept correct].
        split; [|auto]. split; [exact So|]. intros i. rewrite (H i). split.
        * intros (H0 & n & f & v & X1). split; [exact H0|]. exists j, p, n, f, v. auto.
        * intros (H0 & j' & p' & n & f & v & F' & X1). split; [exact H0|]. destruct (first_unique d a j p j' p' F F') as (-> & ->). exists n, f, v. auto.
      + exists (S (4 * length (props d) + 0)). split; [lia|]. apply safe_bind. apply (iterate_unknown_safe file pl d u D St Op out0 room compareOther a b fits_props Ba No). intros m' _. cbn [ThreadsSafe.safe]. unfold final. cbn [fst snd ans clear kept correct].
        split; [|auto]. split; [constructor|]. intros i. split; [intros []|]. intros (_ & j & p & n & f & v & F & _). apply (No j). exists p. split; apply F.
    - intros H. destruct (nth_some (order d) index H) as (n & Nn & Ei). revert Nn Ei. generalize (Z.to_nat index). intros j Nn <-. clear H. destruct (order_prof d D _ _ Nn) as (f & Nf). exists 3%nat. split; [lia|]. unfold ProfileGetByIndex. cbn [bind].
      apply (safe_offs file d u D _ _ _ _ n f); auto. intros ob it1 r1 E1 _ Hd1 C1. rewrite E1. cbn [need bind offset].
      apply (safe_prof file d u D _ _ _ n f); auto; [rewrite app_nil_r; apply C1; discriminate|]. intros pb it2 r2 after E2 _ Hd2 C2. cbn [bind].
      apply (safe_release file d u _ _ _ Offs Offs it1 r1 (r2 ++ [])); [rewrite !app_nil_r; apply Permutation_app_comm|exact Hd1|exact (own_method file pl d u D St Op Offs)|]. intros it3 _ _. cbn [bind ThreadsSafe.safe]. unfold final. cbn [ans clear kept correct held].
      rewrite app_nil_r, Nat2Z.id. split; [exists n, f; split; [exact Nn|]; split; [exact Nf|]; exists after; exact E2|]. auto.
    - intros (Hid & Hn & Hs). exists (S ((2 + 0) * 33 + 2))%nat. split; [lia|]. unfold ProfileGetByProfileId.
      pose proof (offset_safe file pl d u D St Op out0 room id [] eq_refl eq_refl Hn) as Q.
      destruct (offset_pure id Hid Hn Hs) as (r & E & H). rewrite E in Q. apply safe_bind. apply safe_bind. apply Q. intros m' Hm. destruct m' as [|m']; [lia|]. destruct r as [off|].
      + destruct H as (i & n & f & En & Ef & Ei & ->). apply (safe_prof file d u D _ _ _ n f); auto. intros pb it2 r2 after E2 _ Hd2 C2. cbn [ThreadsSafe.safe]. unfold final. cbn [ans clear kept correct held].
        rewrite app_nil_r. split; [exists i, n, f; split; [exact En|]; split; [exact Ef|]; split; [exact Ei|]; exists after; exact E2|]. auto.
      + cbn [ThreadsSafe.safe]. unfold final. cbn [ans clear kept correct held]. auto.
  Qed.

  (* ---- every interleaving ---- *)
  Notation step := (ThreadsModel.step file (fuelOf u) compareOther).
  Definition holds (x : src * item) (r : list res) : Prop := heldBy (fst x) (snd x) r.
  (* a thread whose call has made k steps and that holds o *)
  Definition threadOK (k : nat) (th : thread) (o : list res) : Prop :=
    (k <= most d)%nat /\ exists h rs, Permutation o (h ++ concat rs) /\ Forall2 holds (items th) rs /\
      match running th with
      | None => h = []
      | Some (q, p) => (forall s, (srcCount s h <= 1)%nat) /\ exists b, (k + b + 1 <= most d)%nat /\ safe (final q) b h p
      end.
  Definition goodEvent (e : event) : Prop := match e with Returned _ q r => correct d q (ans r) /\ clear r = true end.

  Lemma held_one s it r : heldBy s it r -> (length r <= 1)%nat.
  Proof using Type. intros []; cbn; lia. Qed.
  Lemma count_length s l : (srcCount s l <= length l)%nat.
  Proof using Type.
    unfold srcCount. induction l as [|x l IH]; [reflexivity|]. cbn [map length]. unfold list_sum in *. cbn [fold_right]. assert (ofSource s x <= 1)%nat by (destruct x; cbn [ofSource]; [destruct (src_eqb s s0)|]; lia). lia.
  Qed.
  Lemma items_count s xs rs : Forall2 holds xs rs -> (srcCount s (concat rs) <= length xs)%nat.
  Proof using Type.
    induction 1 as [|x r xs rs H _ IH]; [reflexivity|]. cbn [concat length]. rewrite srcCount_app. pose proof (count_length s r). pose proof (held_one _ _ _ H). lia.
  Qed.
  Lemma thread_count s k th o : threadOK k th o -> (srcCount s o <= busyThread th)%nat.
  Proof using Type.
    intros (_ & h & rs & P & F & H). rewrite (srcCount_perm s _ _ P), srcCount_app. pose proof (items_count s _ _ F). unfold busyThread. destruct (running th) as [(q, p)|]; [destruct H as (H & _); specialize (H s); lia|]. subst h. cbn. lia.
  Qed.
  Lemma total_count s n : forall ths os t0, length os = length ths -> (forall t th o, nth_error ths t = Some th -> nth_error os t = Some o -> threadOK (n (t0 + t)%nat) th o) ->
    (srcCount s (concat os) <= list_sum (map busyThread ths))%nat.
  Proof using Type.
    induction ths as [|th ths IH]; intros [|o os] t0 L H; try discriminate; [reflexivity|]. cbn [concat map]. rewrite srcCount_app. change (list_sum (busyThread th :: map busyThread ths)) with (busyThread th + list_sum (map busyThread ths))%nat.
    pose proof (thread_count s _ _ _ (H 0%nat th o eq_refl eq_refl)). specialize (IH os (S t0) ltac:(cbn [length] in L; lia)). specialize (IH ltac:(intros t th' o' E1 E2; replace (S t0 + t)%nat with (t0 + S t)%nat by lia; exact (H (S t) th' o' E1 E2))). lia.
  Qed.
  Lemma busy_set t th x w ths : nth_error ths t = Some th -> (busy (mkState w (setThread t x ths)) + busyThread th = list_sum (map busyThread ths) + busyThread x)%nat.
  Proof using Type.
    intros E. unfold busy. cbn [threads]. change (setThread t x ths) with (setAt t x ths). rewrite (list_sum_perm _ _ (Permutation_map busyThread (setAt_perm t x ths))), (list_sum_perm _ _ (Permutation_map busyThread (without_perm t ths th E))).
    cbn [map]. unfold list_sum. cbn [fold_right]. lia.
  Qed.
  Context (use0 : src -> slot -> nat) (m0 : list (nat * Z)) (h0 : nat) (Hh : (0 < h0)%nat).
  Context (cap : nat) (Hcap : forall s, hasCache (collOf s) = true -> Z.of_nat (out0 s + cap) <= concOf (ucfg (useOf u s))).
  Notation I := (CallsWorld.I file u use0 out0 m0 h0).
  Definition inv (n : nat -> nat) (st : state) : Prop :=
    (busy st <= cap)%nat /\ exists os, length os = length (threads st) /\ I (concat os) (shared st) /\
      forall t th o, nth_error (threads st) t = Some th -> nth_error os t = Some o -> threadOK (n t) th o.
  (* a thread does something *)
  Lemma set_inv n n' st t th x w' os o o' : nth_error (threads st) t = Some th -> nth_error os t = Some o -> length os = length (threads st) -> (busy st <= cap)%nat ->
    (forall t th o, nth_error (threads st) t = Some th -> nth_error os t = Some o -> threadOK (n t) th o) ->
    (busyThread x <= busyThread th \/ S (busy st) <= cap /\ busyThread x = S (busyThread th))%nat -> threadOK (n' t) x o' -> (forall i, i <> t -> n' i = n i) ->
    (forall P, Permutation (concat os) (o ++ P) -> I (o' ++ P) w') -> inv n' (mkState w' (setThread t x (threads st))).
  Proof using Hh.
    intros E Eo L Hb H Hx Hx' Hn HI. assert (t < length (threads st))%nat as Lt by (apply nth_error_Some; congruence). split.
    - pose proof (busy_set t th x w' (threads st) E) as B. unfold busy in Hb, Hx |- *. cbn [threads] in *. unfold busy in B. cbn [threads] in B. lia.
    - exists (setAt t o' os). change (setThread t x (threads st)) with (setAt t x (threads st)). cbn [threads shared]. split; [rewrite !setAt_length; lia|]. split.
      + apply (I_perm file u use0 out0 m0 h0 (o' ++ concat (without t os))); [|apply HI; exact (concat_perm _ _ (without_perm t os o Eo))]. symmetry. exact (concat_perm _ _ (setAt_perm t o' os)).
      + intros i th' o1. rewrite !setAt_nth by lia. destruct (Nat.eqb_spec i t) as [->|Ne]; [intros E1 E2; injection E1 as <-; injection E2 as <-; exact Hx'|]. rewrite Hn by exact Ne. apply H.
  Qed.
  Lemma step_all n st t a : inv n st -> admissible d u cap st a -> possible st t a -> exists st' evs, step t a st = Some (st', evs) /\ inv (counted t a n) st' /\ Forall goodEvent evs.
  Proof using D St Op Co room Hh Hcap.
    intros (Hb & os & L & HI & H) Ha (th & E & Hp). unfold ThreadsModel.step. rewrite E.
    assert (t < length os)%nat as Lt by (rewrite L; apply nth_error_Some; congruence). destruct (item_at os t Lt) as (o & Eo). destruct (H t th o E Eo) as (Hk & h & rs & P & F & Hr).
    assert (Cn : forall i, i <> t -> counted t a n i = n i) by (intros i Ne; unfold counted; destruct (Nat.eqb_spec i t); congruence).
    assert (Ct : counted t a n t = match a with Call _ => O | Go => S (n t) | GiveBack _ => n t end) by (unfold counted; now rewrite Nat.eqb_refl).
    assert (Tot : forall s, none s h -> running th <> None -> (srcCount s (concat os) < cap)%nat).
    { intros s Hs' Hrun. pose proof (total_count s n (threads st) os 0 L H) as T.
      assert (srcCount s o < busyThread th)%nat as To by (rewrite (srcCount_perm s _ _ P), srcCount_app, Hs'; pose proof (items_count s _ _ F); unfold busyThread; destruct (running th); [lia|congruence]).
      assert (forall l ol t0 i, length ol = length l -> (forall t th o, nth_error l t = Some th -> nth_error ol t = Some o -> threadOK (n (t0 + t)%nat) th o) -> nth_error l i = Some th -> nth_error ol i = Some o -> (srcCount s (concat ol) < list_sum (map busyThread l))%nat) as X.
      { induction l as [|x l IH]; intros [|y ol] t0 i Ll Hl E1 E2; try discriminate; [destruct i; discriminate|]. cbn [concat map]. rewrite srcCount_app. change (list_sum (busyThread x :: map busyThread l)) with (busyThread x + list_sum (map busyThread l))%nat.
        assert (Hl' : forall t th o, nth_error l t = Some th -> nth_error ol t = Some o -> threadOK (n (S t0 + t)%nat) th o) by (intros t' th' o' X1 X2; replace (S t0 + t')%nat with (t0 + S t')%nat by lia; exact (Hl (S t') th' o' X1 X2)).
        cbn [length] in Ll. destruct i as [|i]; cbn [nth_error] in E1, E2.
        - injection E1 as ->. injection E2 as ->. pose proof (total_count s n l ol (S t0) ltac:(lia) Hl'). lia.
        - pose proof (thread_count s _ _ _ (Hl 0%nat x y eq_refl eq_refl)). specialize (IH ol (S t0) i ltac:(lia) Hl' E1 E2). lia. }
      specialize (X (threads st) os 0%nat t L H E Eo). unfold busy in Hb. lia. }
    destruct a as [q| |k].
    - destruct (running th) as [(q0, p)|] eqn:Er; [discriminate Hp|]. do 2 eexists. split; [reflexivity|]. destruct Ha as (Hq & Hlt). split; [|constructor]. subst h. cbn [app] in P.
      eapply set_inv; [exact E|exact Eo|exact L|exact Hb|exact H| | |exact Cn|].
      + right. split; [lia|]. unfold busyThread. rewrite Er. cbn [running items]. lia.
      + rewrite Ct. split; [lia|]. exists [], rs. cbn [app items running]. split; [exact P|]. split; [exact F|]. split; [intros s; cbn; lia|]. destruct (call_safe q Hq) as (b & Hb' & S0). exists b. split; [lia|exact S0].
      + intros P' X. exact (I_perm file u use0 out0 m0 h0 _ _ _ X HI).
    - destruct (running th) as [(q, p)|] eqn:Er; [|congruence]. destruct Hr as (H1 & b & Hbud & S0).
      assert (Set_ : forall p' w' h', (forall s, (srcCount s h' <= 1)%nat) -> (exists b', (S (n t) + b' + 1 <= most d)%nat /\ safe (final q) b' h' p') -> (forall R, Permutation (concat os) (h ++ R) -> I (h' ++ R) w') ->
        inv (counted t Go n) (mkState w' (setThread t (mkThread (Some (q, p')) (items th)) (threads st)))).
      { intros p' w' h' C' (b' & Hb' & S') HI'. eapply set_inv; [exact E|exact Eo|exact L|exact Hb|exact H| |apply (fun x => x : threadOK _ _ (h' ++ concat rs))|exact Cn|].
        - left. unfold busyThread. rewrite Er. cbn [running items]. lia.
        - rewrite Ct. split; [lia|]. exists h', rs. split; [reflexivity|]. split; [exact F|]. cbn [running]. split; [exact C'|]. eauto.
        - intros P' X. rewrite <- app_assoc. apply HI'. rewrite app_assoc, X. now apply Permutation_app_tail. }
      destruct p as [r| |s i okay it k|s it k|s k]; cbn [ThreadsSafe.safe stepProg] in *; [|contradiction| | |].
      + do 2 eexists. split; [reflexivity|]. destruct S0 as (S1 & S2 & S3). split; [|constructor; [split; assumption|constructor]].
        eapply set_inv; [exact E|exact Eo|exact L|exact Hb|exact H| |apply (fun x => x : threadOK _ _ o)|exact Cn|].
        * left. unfold busyThread. rewrite Er. cbn [running items]. destruct (kept r); cbn [length]; lia.
        * rewrite Ct. split; [lia|]. cbn [running items]. destruct (kept r) as [(s, it)|].
          -- exists [], (h :: rs). split; [exact P|]. split; [constructor; [exact S3|exact F]|reflexivity].
          -- subst h. exists [], rs. auto.
        * intros P' X. exact (I_perm file u use0 out0 m0 h0 _ _ _ X HI).
      + destruct b as [|b]; [contradiction|]. destruct S0 as (-> & Hi & Hn & j & itm & -> & N & S0).
        assert (hasCache (collOf s) = true -> Z.of_nat (out0 s + srcCount s (concat os)) < concOf (ucfg (useOf u s))) as Rm.
        { intros X. specialize (Hcap s X). specialize (Tot s Hn ltac:(congruence)). lia. }
        destruct (get_step_room file pl d u D St Op use0 out0 m0 h0 room _ _ s j itm it HI Hh Hi N Rm) as (bb & it' & w' & r & G & Pb & Fb & HI' & Hd & C & _). rewrite G. do 2 eexists. split; [reflexivity|]. split; [|constructor].
        apply (Set_ _ _ (r ++ h)).
        * intros x. rewrite srcCount_app. destruct (src_eqb_spec x s) as [->|Ne]; [rewrite Hn; pose proof (count_length s r); pose proof (held_one _ _ _ Hd); lia|]. rewrite (C x Ne). exact (H1 x).
        * exists b. split; [lia|]. apply S0; auto. exists (skipn (length itm) bb). rewrite <- Fb at 1. symmetry. apply firstn_skipn.
        * intros R PR. apply (I_perm file u use0 out0 m0 h0 (r ++ concat os)); [|exact HI']. rewrite <- app_assoc. now apply Permutation_app_head.
      + destruct b as [|b]; [contradiction|]. unfold releaseIn. rewrite (method_in file u use0 out0 m0 h0 _ _ s HI). destruct S0 as [(s' & r & rest & Ph & Hd & Hf & S0)|(Ag & S0)].
        * destruct (release_step file pl d u D St Op use0 out0 m0 h0 (rest ++ concat rs ++ concat (without t os)) (shared st) s' it r _ ltac:(apply (I_perm file u use0 out0 m0 h0 (concat os)); [|exact HI];
            rewrite (concat_perm _ _ (without_perm t os o Eo)); cbn [concat]; rewrite P, Ph, <- !app_assoc; reflexivity) Hd Hf) as (it' & w' & Rl & HI' & Hi & Ag). rewrite Rl. do 2 eexists. split; [reflexivity|]. split; [|constructor]. apply (Set_ _ _ rest).
          -- intros x. specialize (H1 x). rewrite (srcCount_perm x _ _ Ph), srcCount_app in H1. lia.
          -- exists b. split; [lia|]. exact (S0 it' Hi Ag).
          -- intros R PR. apply (I_perm file u use0 out0 m0 h0 _ _ _ ) with (2 := HI'). apply Permutation_app_head. rewrite (concat_perm _ _ (without_perm t os o Eo)) in PR. cbn [concat] in PR. rewrite P, <- app_assoc in PR. exact (Permutation_app_inv_l _ _ _ PR).
        * rewrite Ag. do 2 eexists. split; [reflexivity|]. split; [|constructor]. apply (Set_ _ _ h H1); [exists b; split; [lia|exact S0]|]. intros R PR. exact (I_perm file u use0 out0 m0 h0 _ _ _ PR HI).
      + destruct b as [|b]; [contradiction|]. rewrite (count_in file u use0 out0 m0 h0 _ _ s HI). do 2 eexists. split; [reflexivity|]. split; [|constructor]. apply (Set_ _ _ h H1); [exists b; split; [lia|exact S0]|]. intros R PR. exact (I_perm file u use0 out0 m0 h0 _ _ _ PR HI).
    - destruct Hp as (Er & Hlt). rewrite Er. destruct (item_at (items th) k Hlt) as ((s, it) & Ek). rewrite Ek. rewrite Er in Hr. subst h. cbn [app] in P.
      destruct (F2_without _ _ _ F k _ Ek) as (r & Erk & Hd & F'). unfold holds in Hd. cbn [fst snd] in Hd.
      assert (Permutation o (r ++ concat (without k rs))) as Po by (rewrite P; exact (concat_perm _ _ (without_perm k rs r Erk))).
      unfold releaseIn. rewrite (method_in file u use0 out0 m0 h0 _ _ s HI).
      destruct (release_step file pl d u D St Op use0 out0 m0 h0 (concat (without k rs) ++ concat (without t os)) (shared st) s it r (methodOf (collOf s)) ltac:(apply (I_perm file u use0 out0 m0 h0 (concat os)); [|exact HI];
            rewrite (concat_perm _ _ (without_perm t os o Eo)); cbn [concat]; rewrite Po, <- !app_assoc; reflexivity) Hd (own_method file pl d u D St Op s)) as (it' & w' & Rl & HI' & _ & _). rewrite Rl. do 2 eexists. split; [reflexivity|]. split; [|constructor].
      eapply set_inv; [exact E|exact Eo|exact L|exact Hb|exact H| |apply (fun x => x : threadOK _ _ (concat (without k rs)))|exact Cn|].
      + left. unfold busyThread. rewrite Er. cbn [running items]. rewrite (Permutation_length (without_perm k (items th) _ Ek)). cbn [length]. lia.
      + rewrite Ct. split; [exact Hk|]. exists [], (without k rs). cbn [app items running]. auto.
      + intros P' X. apply (I_perm file u use0 out0 m0 h0 _ _ _ ) with (2 := HI'). apply Permutation_app_head. rewrite (concat_perm _ _ (without_perm t os o Eo)) in X. cbn [concat] in X. exact (Permutation_app_inv_l _ _ _ X).
  Qed.
  Lemma step_possible t a st st' evs : step t a st = Some (st', evs) -> possible st t a.
  Proof using Type.
    unfold ThreadsModel.step, possible. destruct (nth_error (threads st) t) as [th|]; [|discriminate]. intros H. exists th. split; [reflexivity|].
    destruct a as [q| |k]; destruct (running th) as [(q', p)|] eqn:Er; try discriminate; auto. split; [reflexivity|]. apply nth_error_Some. destruct (nth_error (items th) k); [discriminate|discriminate].
  Qed.
  Lemma step_inv n st t a st' evs : inv n st -> admissible d u cap st a -> step t a st = Some (st', evs) -> inv (counted t a n) st' /\ Forall goodEvent evs.
  Proof using D St Op Co room Hh Hcap.
    intros Hi Ha Hs. destruct (step_all n st t a Hi Ha (step_possible _ _ _ _ _ Hs)) as (st1 & evs1 & E & X). rewrite Hs in E. injection E as <- <-. exact X.
  Qed.
  Lemma exec_inv count w : I [] w -> forall tr n st, exec file d u compareOther cap count w tr n st -> inv n st /\ Forall goodEvent tr.
  Proof using D St Op Co room Hh Hcap.
    intros HI tr n st. induction 1 as [|tr n st t a st' evs _ (IH1 & IH2) Ha Hs].
    - split; [|constructor]. split; [unfold busy; cbn [threads]; clear; induction count; [cbn; lia|exact IHcount]|]. exists (repeat [] count). cbn [threads shared]. rewrite !repeat_length. split; [reflexivity|].
      assert (forall {A} c, concat (repeat (@nil A) c) = []) as Z by (clear; induction c; auto). rewrite Z. split; [exact HI|]. intros t th o E1 E2. apply nth_error_In, repeat_spec in E1, E2. subst. split; [lia|]. exists [], []. cbn. auto.
    - destruct (step_inv n st t a st' evs IH1 Ha Hs) as (X & Y). split; [exact X|]. apply Forall_app. auto.
  Qed.
  Lemma inv_idle n st : inv n st -> busy st = 0%nat -> I [] (shared st).
  Proof using Hh.
    intros (_ & os & L & HI & H) Hb. enough (concat os = []) as E by (now rewrite E in HI). unfold busy in Hb. destruct st as [w ths]. cbn [threads shared] in *. clear HI. revert os n L H Hb. induction ths as [|th ths IH]; intros [|o os] n L H Hb; try discriminate; [reflexivity|].
    cbn [map] in Hb. change (list_sum (busyThread th :: map busyThread ths)) with (busyThread th + list_sum (map busyThread ths))%nat in Hb. cbn [concat].
    rewrite (IH os (fun t => n (S t))); [|cbn [length] in L; lia|intros t th' o' E1 E2; exact (H (S t) th' o' E1 E2)|lia]. rewrite app_nil_r.
    destruct (H 0%nat th o eq_refl eq_refl) as (_ & h & rs & P & F & Hr). unfold busyThread in Hb. destruct (running th); [lia|]. subst h. destruct (items th); [|cbn [length] in Hb; lia]. inversion F; subst. cbn in P. apply Permutation_nil. now symmetry.
  Qed.
  Lemma inv_bound n st t : inv n st -> (t < length (threads st))%nat -> (n t <= most d)%nat.
  Proof using Hh.
    intros (_ & os & L & _ & H) Lt. destruct (item_at (threads st) t Lt) as (th & E1). destruct (item_at os t ltac:(lia)) as (o & E2). exact (proj1 (H t th o E1 E2)).
  Qed.
  Lemma step_length t a st st' evs : step t a st = Some (st', evs) -> length (threads st') = length (threads st).
  Proof using Type.
    unfold ThreadsModel.step. destruct (nth_error (threads st) t) as [th|] eqn:E; [|discriminate]. assert (t < length (threads st))%nat as Lt by (apply nth_error_Some; congruence).
    assert (forall w x, length (threads (mkState w (setThread t x (threads st)))) = length (threads st)) as X by (intros w x; exact (setAt_length t x _ Lt)).
    destruct a as [q| |k]; destruct (running th) as [(q', p)|]; try discriminate.
    - intros H. injection H as <- _. apply X.
    - destruct p as [r| |s i okay it kk|s it kk|s kk]; cbn [stepProg]; try discriminate; [intros H; injection H as <- _; apply X|..].
      + destruct (get file (fuelOf u) s i okay it (shared st)) as [(((b, ok), it'), w)|]; [|discriminate]. intros H; injection H as <- _; apply X.
      + destruct (releaseIn s it (shared st)) as [(it', w)|]; [|discriminate]. intros H; injection H as <- _; apply X.
      + intros H; injection H as <- _; apply X.
    - destruct (nth_error (items th) k) as [(s, it)|]; [|discriminate]. destruct (releaseIn s it (shared st)) as [(it', w)|]; [|discriminate]. intros H; injection H as <- _; apply X.
  Qed.
  (* a thread goes on alone *)
  Lemma go_on : forall k n st t th q p, inv n st -> nth_error (threads st) t = Some th -> running th = Some (q, p) -> (most d - n t <= k)%nat ->
    exists j r, (n t + j <= most d)%nat /\ returns file u compareOther t j st q r /\ correct d q (ans r) /\ clear r = true.
  Proof using D St Op Co room Hh Hcap.
    induction k as [|k IH]; intros n st t th q p Hi E Er Hk; (destruct (step_all n st t Go Hi Logic.I ltac:(exists th; split; [exact E|rewrite Er; discriminate])) as (st' & evs & Hs & Hi' & Hg));
      pose proof (inv_bound _ _ t Hi' ltac:(rewrite (step_length _ _ _ _ _ Hs); apply nth_error_Some; congruence)) as Hb;
      unfold counted in Hb; rewrite Nat.eqb_refl in Hb; [lia|].
    pose proof Hs as Hs'. unfold ThreadsModel.step in Hs. rewrite E, Er in Hs. assert (t < length (threads st))%nat as Lt by (apply nth_error_Some; congruence).
    assert (forall p' w, evs = [] -> st' = mkState w (setThread t (mkThread (Some (q, p')) (items th)) (threads st)) -> exists j r, (n t + j <= most d)%nat /\ returns file u compareOther t j st q r /\ correct d q (ans r) /\ clear r = true) as More.
    { intros p' w -> ->. destruct (IH _ _ t (mkThread (Some (q, p')) (items th)) q p' Hi') as (j & r & Hj & Rt & X).
      - cbn [threads]. change setThread with (@setAt thread). rewrite setAt_nth, Nat.eqb_refl by exact Lt. reflexivity.
      - reflexivity.
      - unfold counted. rewrite Nat.eqb_refl. lia.
      - unfold counted in Hj. rewrite Nat.eqb_refl in Hj. exists (S j), r. split; [lia|]. split; [|exact X]. eapply returns_later; [exact Hs'|exact Rt]. }
    destruct p as [r| |s i okay it kk|s it kk|s kk]; cbn [stepProg] in Hs.
    - injection Hs as <- <-. exists 1%nat, r. split; [lia|]. split; [eapply returns_now; exact Hs'|]. inversion Hg; subst. assumption.
    - discriminate.
    - destruct (get file (fuelOf u) s i okay it (shared st)) as [(((b, ok), it'), w)|]; [|discriminate]. injection Hs as <- <-. now apply (More (kk b ok it') w).
    - destruct (releaseIn s it (shared st)) as [(it', w)|]; [|discriminate]. injection Hs as <- <-. now apply (More (kk it') w).
    - injection Hs as <- <-. now apply (More (kk (CollectionGetCount (colls (shared st) s))) (shared st)).
  Qed.
End Threads.

Section Start.
  Context (file : list Z) (d : db) (u : uses).
  Notation collOf s := (ucoll (useOf u s)).
  Lemma startFor cap w : readyFor cap file d u w -> exists use0 out0, roomFor d u out0 /\ CallsWorld.I file u use0 out0 (ItemModel.live (heap w)) (handles w) [] w /\ (0 < handles w)%nat /\
    forall s, hasCache (collOf s) = true -> Z.of_nat (out0 s + cap) <= concOf (ucfg (useOf u s)).
  Proof using Type.
    intros (Hc & H & Hl & Hh & Hi). destruct (H Texts) as (t1 & X1 & Y1). destruct (H Props) as (t2 & X2 & Y2). destruct (H Vals) as (t3 & X3 & Y3). destruct (H Profs) as (t4 & X4 & Y4). destruct (H Offs) as (t5 & X5 & Y5).
    set (tr := fun s => match s with Texts => t1 | Props => t2 | Vals => t3 | Profs => t4 | Offs => t5 end).
    exists (fun s n => holding (tr s) n + leaked (tr s) n)%nat, (fun s => outstanding (tr s)).
    assert (Y : forall s, hasCache (collOf s) = true -> Z.of_nat (outstanding (tr s) + cap) <= concOf (ucfg (useOf u s)) /\ Z.of_nat (length (concat (itemsOf d s))) <= 2 ^ 31) by (intros []; assumption).
    split; [intros s X; destruct (Y s X); lia|]. split; [|split; [exact Hh|intros s X; exact (proj1 (Y s X))]].
    constructor; [|apply LifeProofs.owns_start; exact Hl|reflexivity|exact Hi].
    intros s. exists (tr s). split; [destruct s; assumption|]. unfold nodeCount, srcCount, list_sum. cbn [map fold_right]. split; [intros n; lia|]. split; [intros n; lia|lia].
  Qed.
End Start.
