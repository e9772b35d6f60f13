(* Each step of a call has what it needs, whatever the other threads do *)
From Coq Require Import Permutation.
From Verif Require Import TreeModel CacheModel CacheSpec CacheRun CacheProps CollectionModel CollectionSpec.
From Verif Require ItemModel LifeProofs.
From Verif Require Import SearchModel ProfileModel ProfileSpec ProfileProofs PropertiesProfile DbModel DbSpec DbProofs DbFound.
From Verif Require Import CallsModel CallsSpec CallsGet CallsWorld CallsProofs.
From Verif Require Import ThreadsModel.
Local Open Scope Z_scope.

Section Safe.
  Context (file : list Z) (pl : places) (d : db) (u : uses).
  Context (D : dbOK d) (St : stored file pl d) (Op : allOpened file pl u).
  Notation collOf s := (ucoll (useOf u s)).
  Context (out0 : src -> nat) (room : roomFor d u out0).
  Notation plain := (CallsWorld.plain file u).
  Notation heldBy := (CallsWorld.heldBy u).
  Notation gString := (plain textOf Texts).
  Notation gProperty := (plain propertyOf Props).
  Notation gValue := (plain valueNameOffset Vals).
  Notation gOffset := (plain offsetOf Offs).
  Notation gProfile := (plain profileOf Profs).
  Notation at_ s n := (position (kindOf s) (itemsOf d s) n).
  Notation idle it := (ItemModel.allocated (idata it) = 0).
  Notation meth s := (methodOf (collOf s)).
  Notation again s it := (forall w, CallsModel.release (meth s) it w = Some (it, w)).
  Notation none s l := (srcCount s l = 0%nat).

  (* a call that has at most n steps to go and holds h: its steps are defined with any
     nodes and blocks, and what it returns with what is then held and left of n is in Q *)
  Fixpoint safe {A} (Q : nat -> list res -> A -> Prop) (n : nat) (h : list res) (p : prog A) {struct p} : Prop :=
    match p with
    | Done a => Q n h a
    | Undefined => False
    | GetIt s i okay it k =>
      match n with
      | O => False
      | S n' => okay = true /\ idle it /\ none s h /\ exists j itm, i = at_ s j /\ nth_error (itemsOf d s) j = Some itm /\
          forall b it' r, plainBytes file (kindOf s) (collOf s) i = Some b -> (exists rest, b = itm ++ rest) -> heldBy s it' r -> (forall x, x <> s -> none x r) ->
            safe Q n' (r ++ h) (k (Some b) true it')
      end
    | Release s' it k =>
      match n with
      | O => False
      | S n' =>
        (exists s r rest, Permutation h (r ++ rest) /\ heldBy s it r /\ fits_method (meth s') (collOf s) = true /\ forall it', idle it' -> again s' it' -> safe Q n' rest (k it')) \/
        (again s' it /\ safe Q n' h (k it))
      end
    | CountOf s k => match n with O => False | S n' => safe Q n' h (k (CollectionGetCount (collOf s))) end
    end.

  Lemma safe_bind {A B} (p : prog A) (f : A -> prog B) Q : forall n h, safe (fun n h a => safe Q n h (f a)) n h p -> safe Q n h (bind p f).
  Proof using Type.
    induction p as [a| |s i okay it k IH|s it k IH|s k IH]; intros n h H; cbn [bind safe] in *; [exact H|exact H|destruct n; [exact H|]..].
    - destruct H as (E & Hi & Hs & j & itm & Ej & N & H). split; [exact E|]. split; [exact Hi|]. split; [exact Hs|]. exists j, itm. split; [exact Ej|]. split; [exact N|]. intros b it' r P R Hd Hx. apply IH. exact (H b it' r P R Hd Hx).
    - destruct H as [(s' & r & rest & P & Hd & Hf & H)|(Ag & H)]; [left|right].
      + exists s', r, rest. split; [exact P|]. split; [exact Hd|]. split; [exact Hf|]. intros it' Hi Ag. apply IH. exact (H it' Hi Ag).
      + split; [exact Ag|]. now apply IH.
    - now apply IH.
  Qed.
  Lemma safe_post {A} (p : prog A) (Q Q' : nat -> list res -> A -> Prop) : (forall n h a, Q n h a -> Q' n h a) -> forall n h, safe Q n h p -> safe Q' n h p.
  Proof using Type.
    intros X. induction p as [a| |s i okay it k IH|s it k IH|s k IH]; intros n h H; cbn [safe] in *; [auto|exact H|destruct n; [exact H|]..].
    - destruct H as (E & Hi & Hs & j & itm & Ej & N & H). split; [exact E|]. split; [exact Hi|]. split; [exact Hs|]. exists j, itm. split; [exact Ej|]. split; [exact N|]. intros b it' r P R Hd Hx. apply IH. exact (H b it' r P R Hd Hx).
    - destruct H as [(s' & r & rest & P & Hd & Hf & H)|(Ag & H)]; [left|right].
      + exists s', r, rest. split; [exact P|]. split; [exact Hd|]. split; [exact Hf|]. intros it' Hi Ag. apply IH. exact (H it' Hi Ag).
      + split; [exact Ag|]. now apply IH.
    - now apply IH.
  Qed.
  Lemma own s : fits_method (meth s) (collOf s) = true.
  Proof using D St Op. exact (own_method file pl d u D St Op s). Qed.
  Lemma none_app s a b : none s a -> none s b -> none s (a ++ b).
  Proof using Type. intros H K. rewrite srcCount_app. lia. Qed.

  (* gets and releases *)
  Lemma safe_release {A} Q n h s s' it r rest (k : item -> prog A) : Permutation h (r ++ rest) -> heldBy s it r -> fits_method (meth s') (collOf s) = true ->
    (forall it', idle it' -> again s' it' -> safe Q n rest (k it')) -> safe Q (S n) h (Release s' it k).
  Proof using Type. intros P Hd Hf H. cbn [safe]. left. exists s, r, rest. auto. Qed.
  Lemma safe_text {A} Q n h j t it (k : option (list Z) -> bool -> item -> prog A) : idle it -> none Texts h -> nth_error (texts d) j = Some t ->
    (forall b it' r, textOf b = Some t -> gString (textAt d j) = (Some t, true) -> heldBy Texts it' r -> (forall x, x <> Texts -> none x r) -> safe Q n (r ++ h) (k (Some b) true it')) ->
    safe Q (S n) h (GetIt Texts (textAt d j) true it k).
  Proof using D.
    intros Hi Hs N H. cbn [safe]. split; [reflexivity|]. split; [exact Hi|]. split; [exact Hs|]. exists j, (encText t). split; [reflexivity|]. split; [exact (text_item d j t N)|].
    intros b it' r P (rest & ->) Hd Hx. assert (isText t) as Ts by (pose proof D as (F & _); rewrite Forall_forall in F; apply F; exact (nth_error_In _ _ N)).
    apply H; auto; [exact (text_decode t rest Ts)|]. unfold CallsWorld.plain. rewrite P. now rewrite (text_decode t rest Ts).
  Qed.
  Lemma safe_prop {A} Q n h j p it (k : option (list Z) -> bool -> item -> prog A) : idle it -> none Props h -> nth_error (props d) j = Some p ->
    (forall b it' r, propertyOf b = Some (decoded d p) -> valueType b = Some (ptype p) -> gProperty (Z.of_nat j) = (Some (decoded d p), true) -> heldBy Props it' r -> (forall x, x <> Props -> none x r) -> safe Q n (r ++ h) (k (Some b) true it')) ->
    safe Q (S n) h (GetIt Props (Z.of_nat j) true it k).
  Proof using D.
    intros Hi Hs N H. cbn [safe]. split; [reflexivity|]. split; [exact Hi|]. split; [exact Hs|]. exists j, (encProp d p). split; [reflexivity|]. split; [exact (prop_item d j p N)|].
    intros b it' r P (rest & ->) Hd Hx. destruct (prop_members d p rest D (prop_in d D _ _ N)) as (E0 & E1 & _ & _ & _ & E2 & E3 & _).
    assert (propertyOf (encProp d p ++ rest) = Some (decoded d p)) as E by (unfold propertyOf, decoded; now rewrite E1, E2, E3).
    apply H; auto. unfold CallsWorld.plain. rewrite P. now rewrite E.
  Qed.
  Lemma safe_offs {A} Q n h i j f it (k : option (list Z) -> bool -> item -> prog A) : idle it -> none Offs h -> nth_error (order d) i = Some j -> nth_error (profs d) j = Some f ->
    (forall b it' r, offsetOf b = Some (mkOffset (prid f) (startOf (map encProf (profs d)) j)) -> gOffset (Z.of_nat i) = (Some (mkOffset (prid f) (startOf (map encProf (profs d)) j)), true) ->
      heldBy Offs it' r -> (forall x, x <> Offs -> none x r) -> safe Q n (r ++ h) (k (Some b) true it')) ->
    safe Q (S n) h (GetIt Offs (Z.of_nat i) true it k).
  Proof using D.
    intros Hi Hs N Nf H. cbn [safe]. split; [reflexivity|]. split; [exact Hi|]. split; [exact Hs|]. exists i, (encOffset d j). split; [reflexivity|]. split; [exact (offs_item d i j N)|].
    intros b it' r P (rest & ->) Hd Hx. assert (Forall profOK (profs d)) as F by apply D. rewrite Forall_forall in F. destruct (F f (nth_error_In _ _ Nf)) as (Fi & _).
    assert (nth j (profs d) noProf = f) as En by exact (nth_error_nth _ _ _ Nf). pose proof (offset_decode d j rest D ltac:(rewrite En; exact Fi)) as E. rewrite En in E.
    apply H; auto. unfold CallsWorld.plain. rewrite P. now rewrite E.
  Qed.
  Lemma safe_prof {A} Q n h j f it (k : option (list Z) -> bool -> item -> prog A) : idle it -> none Profs h -> nth_error (profs d) j = Some f ->
    (forall b it' r after, profileOf b = Some (mkProfile (prvalues f) after) -> gProfile (startOf (map encProf (profs d)) j) = (Some (mkProfile (prvalues f) after), true) ->
      heldBy Profs it' r -> (forall x, x <> Profs -> none x r) -> safe Q n (r ++ h) (k (Some b) true it')) ->
    safe Q (S n) h (GetIt Profs (startOf (map encProf (profs d)) j) true it k).
  Proof using D.
    intros Hi Hs N H. cbn [safe]. split; [reflexivity|]. split; [exact Hi|]. split; [exact Hs|]. exists j, (encProf f). split; [reflexivity|]. split; [exact (prof_item d j f N)|].
    intros b it' r P (rest & ->) Hd Hx. assert (Forall profOK (profs d)) as F by apply D. rewrite Forall_forall in F. destruct (F f (nth_error_In _ _ N)) as (_ & Fv & _).
    assert (fits 4 (Z.of_nat (length (prvalues f)))) as Fl.
    { apply fits4. assert (small (map encProf (profs d))) as Sm by apply D. unfold small in Sm. pose proof (item_len _ _ _ (prof_item d j f N)) as L. cbn [itemsOf] in L. rewrite encProf_length in L. lia. }
    destruct (profile_decode f rest Fl Fv) as (after & E). apply (H _ _ _ after); auto. unfold CallsWorld.plain. rewrite P. now rewrite E.
  Qed.

  (* ---- properties ---- *)
  Context (compareOther : list Z -> list Z -> Z).
  Lemma loop_safe : fits_method (meth Props) (collOf Texts) = true -> forall name m (Q : nat -> list res -> option (Z * Property) * bool * item -> Prop) h, none Props h -> none Texts h -> forall k i nameItem it,
    idle nameItem -> idle it -> (i + k <= length (props d))%nat ->
    (forall m' r it' rs t, (m <= m')%nat -> ProfileModel.PropertyGetByName gString gProperty k (Z.of_nat i) name = (r, true, t) ->
      match r with Some _ => heldBy Props it' rs | None => rs = [] /\ idle it' end -> (forall x, x <> Props -> none x rs) -> Q m' (rs ++ h) (r, true, it')) ->
    safe Q (4 * k + m) h (propertyLoop k (Z.of_nat i) name nameItem it).
  Proof using D St Op.
    intros Hf name m Q h Hp Ht. induction k as [|k IH]; intros i nameItem it Hn Hi L H.
    - cbn [propertyLoop safe]. apply (H (4 * 0 + m)%nat None it [] []); auto; lia.
    - destruct (item_at (props d) i ltac:(lia)) as (p & Np). destruct (prop_in d D _ _ Np) as (_ & _ & _ & _ & _ & Lt & _). destruct (item_at (texts d) (pname p) Lt) as (t & Nt).
      replace (4 * S k + m)%nat with (S (S (S (S (4 * k + m))))) by lia. cbn [propertyLoop]. apply (safe_prop _ _ _ i p); auto.
      intros b it1 r1 E1 _ P1 Hd1 C1. rewrite E1. cbn [need]. unfold decoded at 1. cbn [nameOffset]. apply (safe_text _ _ _ (pname p) t); auto; [apply none_app; [apply C1; discriminate|exact Ht]|].
      intros nb it2 r2 E2 P2 Hd2 C2. rewrite E2. cbn [need]. cbn [ProfileModel.PropertyGetByName] in H. rewrite P1 in H. unfold decoded in H at 1. cbn [nameOffset] in H. rewrite P2 in H. cbn [andb] in H.
      destruct (negb (strcmp t name =? 0)).
      + apply (safe_release _ _ _ Props Props it1 r1 (r2 ++ h)); [rewrite !app_assoc; apply Permutation_app_tail, Permutation_app_comm|exact Hd1|apply own|]. intros it3 Hi3 _.
        apply (safe_release _ _ _ Texts Props it2 r2 h); [reflexivity|exact Hd2|exact Hf|]. intros it4 Hi4 _.
        replace (Z.of_nat i + 1) with (Z.of_nat (S i)) in * by lia. apply IH; auto; [lia|]. intros m' r it' rs tt Hm E Hr C.
        destruct (ProfileModel.PropertyGetByName gString gProperty k (Z.of_nat (S i)) name) as ((r', ok'), tt') eqn:Ek. injection E as -> -> ->. eapply H; eauto.
      + apply (safe_release _ _ _ Texts Props it2 r2 (r1 ++ h)); [reflexivity|exact Hd2|exact Hf|]. intros it4 _ _. cbn [safe]. eapply H; eauto. lia.
  Qed.
  Lemma name_safe : fits_method (meth Props) (collOf Texts) = true -> forall name m (Q : nat -> list res -> option (Z * Property) * bool * item -> Prop) h it, none Props h -> none Texts h -> idle it ->
    (forall m' r it' rs t, (m <= m')%nat -> ProfileModel.PropertyGetByName gString gProperty (length (props d)) 0 name = (r, true, t) ->
      match r with Some _ => heldBy Props it' rs | None => rs = [] /\ idle it' end -> (forall x, x <> Props -> none x rs) -> Q m' (rs ++ h) (r, true, it')) ->
    safe Q (S (4 * length (props d) + m)) h (PropertyGetByName name it).
  Proof using D St Op.
    intros Hf name m Q h it Hp Ht Hi H. unfold PropertyGetByName. cbn [safe]. rewrite (count_props file pl d u D St Op). change 0 with (Z.of_nat 0). apply loop_safe; auto.
  Qed.

  (* ---- searches ---- *)
  Lemma plain_there s j itm : nth_error (itemsOf d s) j = Some itm -> exists b rest, plainBytes file (kindOf s) (collOf s) (at_ s j) = Some b /\ b = itm ++ rest.
  Proof using D St Op room.
    intros N. destruct (source_ok file pl d u D St Op s) as (hd & HR & HC & Hcr & Hconc). pose proof (position_small file pl d u D St Op s j itm N) as (Hp & Hp32).
    assert (wellUsed [] (collOf s) (Get (at_ s j) IoOk)) as Hw.
    { split; [lia|]. intros X. destruct (room s X) as (R1 & R2). split; [lia|]. intros sl. cbn. lia. }
    destruct (got_item file (kindOf s) (itemsOf d s) hd _ _ _ _ HR HC Hcr [] (collOf s) j itm (exec_nil _ _ _ _) N Hw) as (b & sl & c' & G & P & F & _).
    { intros X. split; [exact (Hconc X)|]. destruct (room s X). cbn [outstanding]. lia. }
    exists b, (skipn (length itm) b). split; [exact P|]. rewrite <- F at 1. symmetry. apply firstn_skipn.
  Qed.
  Section Search.
    Context {A : Type} (s : src) (decode : list Z -> option A) (cmp : list Z -> prog (Z * bool)) (cmpP : A -> Z -> Z * bool) (cost : nat).
    Context (Hk : kindOf s = Fixed) (Hne : s <> Texts).
    Context (Hdec : forall n itm rest, nth_error (itemsOf d s) n = Some itm -> exists a, decode (itm ++ rest) = Some a).
    Context (Hcmp : forall h b a i n itm rest, none Texts h -> nth_error (itemsOf d s) n = Some itm -> b = itm ++ rest -> decode b = Some a ->
      snd (cmpP a i) = true /\ forall m (Q : nat -> list res -> Z * bool -> Prop), Q m h (fst (cmpP a i), true) -> safe Q (cost + m) h (cmp b)).

    Lemma search_safe m (Q : nat -> list res -> Z * bool * item * option (list Z) -> Prop) h : none s h -> none Texts h -> forall n lower upper it tr, idle it -> 0 <= lower -> upper < Z.of_nat (length (itemsOf d s)) ->
      match SearchModel.search (plain decode s) cmpP n lower upper tr with
      | None => True
      | Some (r, ok, tr') => ok = true /\
        ((forall m' it' ob rs, (m <= m')%nat -> (forall x, x <> s -> none x rs) ->
          ((0 <= r /\ heldBy s it' rs /\ exists b tr'', tr' = SGet r :: tr'' /\ ob = Some b /\ plain decode s r = (decode b, true) /\ plainBytes file (kindOf s) (collOf s) r = Some b /\ decode b <> None) \/
           (r = -1 /\ rs = [] /\ idle it' /\ (again s it \/ lower <= upper -> again s it'))) -> Q m' (rs ++ h) (r, true, it', ob)) ->
        safe Q ((2 + cost) * n + m) h (search s cmp n lower upper it))
      end.
    Proof using D St Op room Hk Hne Hdec Hcmp.
      intros Hs Ht. induction n as [|n IH]; intros lower upper it tr Hi H0 H1; [exact Logic.I|]. cbn [SearchModel.search search].
      destruct (Z.leb_spec lower upper) as [Hlu|Hlu].
      2:{ split; [reflexivity|]. intros H. cbn [safe]. apply (H _ it None []); [lia|reflexivity|]. right. split; [reflexivity|]. split; [reflexivity|]. split; [exact Hi|]. intros [X|X]; [exact X|lia]. }
      set (mid := lower + (upper - lower) / 2) in *. assert (lower <= mid <= upper) as Hm.
      { unfold mid. pose proof (Z.div_pos (upper - lower) 2 ltac:(lia) ltac:(lia)). pose proof (Z.div_le_upper_bound (upper - lower) 2 (upper - lower) ltac:(lia) ltac:(lia)). lia. }
      destruct (item_at (itemsOf d s) (Z.to_nat mid) ltac:(lia)) as (itm & N).
      assert (at_ s (Z.to_nat mid) = mid) as Ea by (rewrite Hk; cbn [position]; lia).
      destruct (plain_there s _ itm N) as (b & rest & Pb & Eb). rewrite Ea in Pb.
      destruct (Hdec _ _ rest N) as (a & Ed). rewrite <- Eb in Ed.
      assert (plain decode s mid = (Some a, true)) as P1 by (unfold CallsWorld.plain; now rewrite Pb, Ed). rewrite P1.
      assert (Ok : snd (cmpP a mid) = true) by exact (proj1 (Hcmp [] b a mid _ itm rest eq_refl N Eb Ed)).
      destruct (cmpP a mid) as (r, ok) eqn:Er. cbn [snd] in Ok. subst ok.
      assert (Cut : forall h' m1 (Q1 : nat -> list res -> Z * bool -> Prop), none Texts h' -> Q1 m1 h' (r, true) -> safe Q1 (cost + m1) h' (cmp b)).
      { intros h' m1 Q1 X Y. apply (proj2 (Hcmp h' b a mid _ itm rest X N Eb Ed)). rewrite Er. exact Y. }
      assert (Start : forall R : Prop, R -> (R -> forall it1 r1, heldBy s it1 r1 -> (forall x, x <> s -> none x r1) ->
          safe (fun n0 h0 (x : Z * bool) => safe Q n0 h0 (let (r0, b0) := x in if b0 then
                  (if r0 =? 0 then Done (mid, true, it1, Some b) else Release s it1 (fun it3 => if 0 <? r0 then if mid =? 0 then search s cmp n ((lower + 1) mod 2 ^ 32) upper it3 else search s cmp n lower (mid - 1) it3
                     else search s cmp n ((mid + 1) mod 2 ^ 32) upper it3))
                  else Done (0, false, it1, Some b))) (cost + S ((2 + cost) * n + m)) (r1 ++ h) (cmp b)) ->
        safe Q ((2 + cost) * S n + m) h (GetIt s mid true it (fun b ok it1 => match b with None => Done (0, ok, it1, None) | Some b => bind (cmp b) (fun x => match x with (_, false) => Done (0, false, it1, Some b) | (r, true) =>
            if Z.eqb r 0 then Done (mid, true, it1, Some b) else Release s it1 (fun it3 => if Z.ltb 0 r then if Z.eqb mid 0 then search s cmp n ((lower + 1) mod 2 ^ 32) upper it3 else search s cmp n lower (mid - 1) it3
              else search s cmp n ((mid + 1) mod 2 ^ 32) upper it3) end) end))).
      { intros R HR X. replace ((2 + cost) * S n + m)%nat with (S (cost + S ((2 + cost) * n + m))) by lia. cbn [safe]. split; [reflexivity|]. split; [exact Hi|]. split; [exact Hs|].
        exists (Z.to_nat mid), itm. split; [symmetry; exact Ea|]. split; [exact N|]. intros b' it1 r1 Pb' _ Hd1 C1. rewrite Pb in Pb'. injection Pb' as <-. apply safe_bind. exact (X HR it1 r1 Hd1 C1). }
      destruct (Z.eqb_spec r 0) as [Hr|Hr].
      - split; [reflexivity|]. intros H. apply (Start True Logic.I). intros _ it1 r1 Hd1 C1. apply Cut; [apply none_app; [apply C1; congruence|exact Ht]|].
        cbv beta iota. destruct (Z.eqb_spec r 0); [|contradiction]. cbn [safe]. apply (H _ it1 (Some b) r1); [lia|exact C1|]. left. split; [lia|]. split; [exact Hd1|].
        exists b, tr. split; [reflexivity|]. split; [reflexivity|]. split; [now rewrite P1, Ed|]. split; [exact Pb|congruence].
      - assert (forall lo up, 0 <= lo -> up < Z.of_nat (length (itemsOf d s)) ->
          match SearchModel.search (plain decode s) cmpP n lo up (SRelease mid :: SGet mid :: tr) with
          | None => True
          | Some (r, ok, tr') => ok = true /\
            ((forall m' it' ob rs, (m <= m')%nat -> (forall x, x <> s -> none x rs) ->
              ((0 <= r /\ heldBy s it' rs /\ exists b tr'', tr' = SGet r :: tr'' /\ ob = Some b /\ plain decode s r = (decode b, true) /\ plainBytes file (kindOf s) (collOf s) r = Some b /\ decode b <> None) \/
              (r = -1 /\ rs = [] /\ idle it' /\ (again s it \/ lower <= upper -> again s it'))) -> Q m' (rs ++ h) (r, true, it', ob)) ->
            forall it3, idle it3 -> again s it3 -> safe Q ((2 + cost) * n + m) h (search s cmp n lo up it3))
          end) as Next.
        { intros lo up L1 L2. pose proof (fun it3 Hi3 => IH lo up it3 (SRelease mid :: SGet mid :: tr) Hi3 L1 L2) as X.
          destruct (SearchModel.search _ _ n lo up _) as [((r', ok'), tr')|]; [|exact Logic.I]. split; [exact (proj1 (X newItem eq_refl))|].
          intros H it3 Hi3 Ag. apply (proj2 (X it3 Hi3)). intros m' it' ob rs Hm' C Q4. apply H; [exact Hm'|exact C|]. destruct Q4 as [Q4|(Q4 & Q5 & Q6 & Q7)]; [left; exact Q4|right]. split; [exact Q4|]. split; [exact Q5|]. split; [exact Q6|]. intros _. apply Q7. left. exact Ag. }
        assert (Step : forall lo up, (forall it3, (if 0 <? r then if mid =? 0 then search s cmp n ((lower + 1) mod 2 ^ 32) upper it3 else search s cmp n lower (mid - 1) it3 else search s cmp n ((mid + 1) mod 2 ^ 32) upper it3) = search s cmp n lo up it3) ->
          (forall it3, idle it3 -> again s it3 -> safe Q ((2 + cost) * n + m) h (search s cmp n lo up it3)) ->
          forall it1 r1, heldBy s it1 r1 -> (forall x, x <> s -> none x r1) ->
          safe (fun n0 h0 (x : Z * bool) => safe Q n0 h0 (let (r0, b0) := x in if b0 then
                  (if r0 =? 0 then Done (mid, true, it1, Some b) else Release s it1 (fun it3 => if 0 <? r0 then if mid =? 0 then search s cmp n ((lower + 1) mod 2 ^ 32) upper it3 else search s cmp n lower (mid - 1) it3
                     else search s cmp n ((mid + 1) mod 2 ^ 32) upper it3))
                  else Done (0, false, it1, Some b))) (cost + S ((2 + cost) * n + m)) (r1 ++ h) (cmp b)).
        { intros lo up Eq X it1 r1 Hd1 C1. apply Cut; [apply none_app; [apply C1; congruence|exact Ht]|]. cbv beta iota. destruct (Z.eqb_spec r 0); [contradiction|].
          apply (safe_release _ _ _ s s it1 r1 h); [reflexivity|exact Hd1|apply own|]. intros it3 Hi3 Ag3. rewrite Eq. exact (X it3 Hi3 Ag3). }
        destruct (Z.ltb 0 r) eqn:Lr; [destruct (Z.eqb_spec mid 0) as [Z0|Z0]|].
        + specialize (Next ((lower + 1) mod 2 ^ 32) upper ltac:(apply Z.mod_pos_bound; lia) H1). destruct (SearchModel.search _ _ n _ _ _) as [((r', ok'), tr')|]; [|exact Logic.I]. split; [exact (proj1 Next)|].
          intros H. apply (Start True Logic.I). intros _. exact (Step _ _ (fun _ => eq_refl) (proj2 Next H)).
        + specialize (Next lower (mid - 1) ltac:(lia) ltac:(lia)). destruct (SearchModel.search _ _ n _ _ _) as [((r', ok'), tr')|]; [|exact Logic.I]. split; [exact (proj1 Next)|].
          intros H. apply (Start True Logic.I). intros _. exact (Step _ _ (fun _ => eq_refl) (proj2 Next H)).
        + specialize (Next ((mid + 1) mod 2 ^ 32) upper ltac:(apply Z.mod_pos_bound; lia) H1). destruct (SearchModel.search _ _ n _ _ _) as [((r', ok'), tr')|]; [|exact Logic.I]. split; [exact (proj1 Next)|].
          intros H. apply (Start True Logic.I). intros _. exact (Step _ _ (fun _ => eq_refl) (proj2 Next H)).
    Qed.
  End Search.

  (* ---- values ---- *)
  Lemma compare_safe name h b a i n itm rest : none Texts h -> nth_error (itemsOf d Vals) n = Some itm -> b = itm ++ rest -> valueNameOffset b = Some a ->
    snd (ProfileModel.compareValueByName gString compareOther name a i) = true /\ forall m (Q : nat -> list res -> Z * bool -> Prop), Q m h (fst (ProfileModel.compareValueByName gString compareOther name a i), true) ->
      safe Q (2 + m) h (compareValueByName compareOther name b).
  Proof using D St Op room.
    intros Ht N -> Ea. destruct (valueNames d D n itm rest N) as (v & Nv & E). rewrite E in Ea. injection Ea as <-.
    assert (valOK d v) as (L & _) by (pose proof D as (_ & _ & F & _); rewrite Forall_forall in F; apply F; exact (nth_error_In _ _ Nv)).
    destruct (item_at (texts d) (vname v) L) as (t & Nt). pose proof (got_string file pl d u _ _ _ _ _ D St Op (plain_readers file pl d u D St Op out0 room) _ _ Nt) as P.
    unfold ProfileModel.compareValueByName. rewrite P. cbn [fst snd]. split; [reflexivity|]. intros m Q H. unfold compareValueByName. rewrite E. cbn [need plus]. apply (safe_text _ _ _ (vname v) t); auto.
    intros nb it2 r2 E2 _ Hd2 C2. rewrite E2. cbn [need]. apply (safe_release _ _ _ Texts Texts it2 r2 h); [reflexivity|exact Hd2|apply own|]. intros it3 _ _. cbn [safe]. exact H.
  Qed.
  Lemma index_safe p name h : none Vals h -> none Texts h -> 0 <= firstValueIndex p -> lastValueIndex p < Z.of_nat (length (vals d)) -> firstValueIndex p <= lastValueIndex p \/ meth Vals = Nothing ->
    match ProfileModel.ValueGetIndexByName gString gValue compareOther p name with
    | None => True
    | Some (r, ok) => ok = true /\ forall m (Q : nat -> list res -> Z * bool -> Prop), (forall m', (m <= m')%nat -> Q m' h (r, true)) -> safe Q ((2 + 2) * 33 + S m) h (ValueGetIndexByName compareOther p name)
    end.
  Proof using D St Op room.
    intros Hv Ht H0 H1 Hor. unfold ProfileModel.ValueGetIndexByName, ValueGetIndexByName, BinarySearch.
    pose proof (fun m Q => search_safe Vals valueNameOffset (compareValueByName compareOther name) (ProfileModel.compareValueByName gString compareOther name) 2 eq_refl ltac:(discriminate)
      ltac:(intros n itm rest N; destruct (valueNames d D n itm rest N) as (v & _ & E); eauto) (compare_safe name) m Q h Hv Ht 33%nat (firstValueIndex p) (lastValueIndex p) newItem [] eq_refl H0
      ltac:(cbn [itemsOf]; rewrite map_length; exact H1)) as X. revert X. generalize 33%nat. intros fu X.
    destruct (SearchModel.search gValue _ fu _ _ []) as [((r, ok), tr)|]; [|exact Logic.I]. cbn [option_map fst]. split; [exact (proj1 (X 0%nat (fun _ _ _ => True)))|].
    intros m Q H. apply safe_bind. apply (proj2 (X (S m) _)). intros m' it' ob rs Hm C Z. destruct m' as [|m']; [lia|].
    destruct Z as [(Hr & Hd & _)|(-> & -> & Hi & Ag)].
    - apply (safe_release _ _ _ Vals Vals it' rs h); [reflexivity|exact Hd|apply own|]. intros it3 _ _. cbn [safe]. apply H. lia.
    - cbn [safe]. right. split; [|apply H; lia]. destruct Hor as [Hl|Hn]; [apply Ag; right; exact Hl|]. rewrite Hn. reflexivity.
  Qed.
  Lemma value_safe p name h it : none Vals h -> none Texts h -> 0 <= firstValueIndex p -> lastValueIndex p < Z.of_nat (length (vals d)) -> firstValueIndex p <> 2 ^ 32 - 1 ->
    match ProfileModel.ValueGetIndexByName gString gValue compareOther p name with
    | None => True
    | Some (r, ok) => ok = true /\ forall m (Q : nat -> list res -> option (list Z) * bool * item -> Prop),
        (forall m' ob it' rs, (m <= m')%nat -> (0 <= r /\ heldBy Vals it' rs /\ exists b, ob = Some b /\ plainBytes file Fixed (ucoll (vuse u)) r = Some b) \/ (r = -1 /\ rs = [] /\ ob = None) -> Q m' (rs ++ h) (ob, true, it')) ->
        safe Q ((2 + 2) * 33 + m) h (ValueGetByName compareOther p name it)
    end.
  Proof using D St Op room.
    intros Hv Ht H0 H1 Hf. unfold ProfileModel.ValueGetIndexByName, ValueGetByName, BinarySearch. destruct (Z.eqb_spec (firstValueIndex p) (2 ^ 32 - 1)) as [|_]; [contradiction|].
    pose proof (fun m Q => search_safe Vals valueNameOffset (compareValueByName compareOther name) (ProfileModel.compareValueByName gString compareOther name) 2 eq_refl ltac:(discriminate)
      ltac:(intros n itm rest N; destruct (valueNames d D n itm rest N) as (v & _ & E); eauto) (compare_safe name) m Q h Hv Ht 33%nat (firstValueIndex p) (lastValueIndex p) (mkItem ItemModel.DataReset (ihandle it) (icoll it)) [] eq_refl H0
      ltac:(cbn [itemsOf]; rewrite map_length; exact H1)) as X. revert X. generalize 33%nat. intros fu X.
    destruct (SearchModel.search gValue _ fu _ _ []) as [((r, ok), tr)|]; [|exact Logic.I]. cbn [option_map fst]. split; [exact (proj1 (X 0%nat (fun _ _ _ => True)))|].
    intros m Q H. apply safe_bind. apply (proj2 (X m _)). intros m' it' ob rs Hm C Z. rewrite andb_true_r. destruct Z as [(Hr & Hd & b & tr'' & _ & -> & P & Pb & _)|(-> & -> & Hi & Ag)].
    - destruct (Z.leb_spec 0 r); [|lia]. cbn [need safe]. apply H; [exact Hm|]. left. split; [exact Hr|]. split; [exact Hd|]. exists b. split; [reflexivity|exact Pb].
    - cbn [Z.leb Z.compare safe]. apply H; [exact Hm|]. right. auto.
  Qed.

  (* ---- profiles ---- *)
  Lemma profiles_safe p v : fits_method (meth Offs) (collOf Profs) = true -> forall n i h offsetItem profileItem, none Offs h -> none Profs h -> idle offsetItem -> idle profileItem -> (i + n <= length (order d))%nat ->
    match ProfileModel.profilesLoop gOffset gProfile n (Z.of_nat i) true p v with
    | None => True
    | Some (l, ok, t) => forall m (Q : nat -> list res -> list Z * bool -> Prop), Q m h (l, ok) -> safe Q (4 * n + m) h (profilesLoop n (Z.of_nat i) true p v offsetItem profileItem)
    end.
  Proof using D St Op room.
    intros Hf. induction n as [|n IH]; intros i h offsetItem profileItem Ho Hp Hi1 Hi2 L; [cbn [ProfileModel.profilesLoop profilesLoop safe]; auto|]. cbn [ProfileModel.profilesLoop profilesLoop].
    destruct (item_at (order d) i ltac:(lia)) as (k & Nk). destruct (order_prof d D _ _ Nk) as (f & Nf).
    pose proof (got_offset file pl d u _ _ _ _ _ D St Op (plain_readers file pl d u D St Op out0 room) _ _ _ Nk Nf) as P1. rewrite P1. cbn [andb offset].
    destruct (got_profile file pl d u _ _ _ _ _ D St Op (plain_readers file pl d u D St Op out0 room) _ _ Nf) as (after & P2). rewrite P2.
    match goal with |- context [match ?X with Some _ => _ | None => None end] => destruct X as [called|] eqn:Ec; [|exact Logic.I] end.
    replace (Z.of_nat i + 1) with (Z.of_nat (S i)) by lia. pose proof (fun oi pi X Y => IH (S i) h oi pi Ho Hp X Y ltac:(lia)) as Z. clear IH.
    destruct (ProfileModel.profilesLoop gOffset gProfile n (Z.of_nat (S i)) true p v) as [((l, ok), t)|]; [|exact Logic.I].
    intros m Q H. replace (4 * S n + m)%nat with (S (S (S (S (4 * n + m))))) by lia. apply (safe_offs _ _ _ i k f); auto.
    intros b it1 r1 E1 _ Hd1 C1. rewrite E1. cbn [need offset]. apply (safe_prof _ _ _ k f); auto; [apply none_app; [apply C1; discriminate|exact Hp]|].
    intros pb it2 r2 after' E2 P2' Hd2 C2. rewrite P2 in P2'. injection P2' as <-. rewrite E2. cbn [need]. rewrite Ec. cbn [need].
    apply (safe_release _ _ _ Profs Offs it2 r2 (r1 ++ h)); [reflexivity|exact Hd2|exact Hf|]. intros it3 Hi3 _.
    apply (safe_release _ _ _ Offs Offs it1 r1 h); [reflexivity|exact Hd1|apply own|]. intros it4 Hi4 _.
    apply safe_bind. apply (Z it4 it3 Hi4 Hi3). cbn [fst snd safe]. exact H.
  Qed.
  Lemma iterate_safe j p propertyName valueName : fits_method (meth Props) (collOf Texts) = true -> fits_method (meth Offs) (collOf Profs) = true ->
    nth_error (props d) j = Some p -> nth_error (texts d) (pname p) = Some propertyName -> (forall i, (i < j)%nat -> ~ nameOfProp d i propertyName) ->
    plast p < Z.of_nat (length (vals d)) -> pfirst p <= plast p \/ meth Vals = Nothing ->
    match ProfileModel.ProfileIterateProfilesForPropertyAndValue gString gProperty gValue gOffset gProfile compareOther
      (Z.to_nat (CollectionGetCount (ucoll (puse u)))) (Z.to_nat (CollectionGetCount (ucoll (ouse u)))) propertyName valueName with
    | None => True
    | Some (l, ok, t) => forall m (Q : nat -> list res -> list Z * bool -> Prop), (forall m', (m <= m')%nat -> Q m' [] (l, ok)) ->
        safe Q (S (4 * length (props d) + ((2 + 2) * 33 + S (S (4 * length (order d) + S m))))) [] (ProfileIterateProfilesForPropertyAndValue compareOther propertyName valueName)
    end.
  Proof using D St Op room.
    intros F1 F2 Np Nt First Hl Hor. unfold ProfileModel.ProfileIterateProfilesForPropertyAndValue, ProfileIterateProfilesForPropertyAndValue.
    destruct (db_property_by_name_found file pl d u _ _ _ _ _ D St Op (plain_readers file pl d u D St Op out0 room) j p propertyName Np Nt First) as (t' & P1 & _). rewrite P1.
    destruct (prop_in d D _ _ Np) as (_ & _ & _ & (P0 & _) & _).
    pose proof (fun h X Y => index_safe (decoded d p) valueName h X Y P0 Hl Hor) as V. revert V. generalize ((2 + 2) * 33)%nat. intros big V.
    destruct (ProfileModel.ValueGetIndexByName gString gValue compareOther (decoded d p) valueName) as [(v, ok)|]; [|exact Logic.I].
    pose proof (proj1 (V [] eq_refl eq_refl)) as Eok. subst ok. rewrite andb_true_r.
    assert (Go_ : forall mm (Q : nat -> list res -> list Z * bool -> Prop),
      (forall m' it rs, (mm <= m')%nat -> heldBy Props it rs -> (forall x, x <> Props -> none x rs) ->
        safe Q m' rs (bind (ValueGetIndexByName compareOther (decoded d p) valueName) (fun y => let (valueIndex, ok) := y in bind (if Z.leb 0 valueIndex && ok
                then CountOf Offs (fun n => profilesLoop (Z.to_nat n) 0 true (decoded d p) valueIndex newItem newItem) else Done ([], ok)) (fun z => Release Props it (fun _ => Done z))))) ->
      safe Q (S (4 * length (props d) + mm)) [] (bind (PropertyGetByName propertyName newItem) (fun x =>
      match x with
      | (Some (_, property), true, it) =>
        bind (ValueGetIndexByName compareOther property valueName) (fun y => let (valueIndex, ok) := y in bind (if Z.leb 0 valueIndex && ok
                then CountOf Offs (fun n => profilesLoop (Z.to_nat n) 0 true property valueIndex newItem newItem) else Done ([], ok)) (fun z => Release Props it (fun _ => Done z)))
      | (_, ok, _) => Done ([], ok)
      end))).
    { intros mm Q X. apply safe_bind. apply name_safe; auto. intros m' r it' rs t Hm E Hr C.
      rewrite (proj1 (counts file pl d u D St Op)), Nat2Z.id in P1. rewrite P1 in E. injection E as <- <-. rewrite app_nil_r. exact (X m' it' rs Hm Hr C). }
    destruct (Z.leb 0 v) eqn:Lv.
    - rewrite (proj2 (counts file pl d u D St Op)), Nat2Z.id.
      pose proof (fun h X Y => profiles_safe (decoded d p) v F2 (length (order d)) 0 h newItem newItem X Y eq_refl eq_refl (le_n _)) as Lp. change (Z.of_nat 0) with 0 in Lp.
      destruct (ProfileModel.profilesLoop gOffset gProfile _ 0 true (decoded d p) v) as [((l, ok), tt)|]; [|exact Logic.I].
      intros m Q H. apply Go_. intros m' it rs Hm Hd C. replace m' with (big + S (S (4 * length (order d) + S (m' - (big + S (S (4 * length (order d) + 1)))))))%nat by lia.
      assert (m <= m' - (big + S (S (4 * length (order d) + 1))))%nat as Hm2 by lia. revert Hm2. generalize (m' - (big + S (S (4 * length (order d) + 1))))%nat. intros m2 Hm2.
      apply safe_bind. apply (proj2 (V rs (C Vals ltac:(discriminate)) (C Texts ltac:(discriminate)))). intros m3 Hm3. rewrite Lv. cbn [andb]. destruct m3 as [|m3]; [lia|]. cbn [bind safe].
      rewrite (count_offs file pl d u D St Op). apply safe_bind. replace m3 with (4 * length (order d) + S (m3 - (4 * length (order d) + 1)))%nat by lia. apply Lp; [apply C; discriminate..|].
      apply (safe_release _ _ _ Props Props it rs []); [now rewrite app_nil_r|exact Hd|apply own|]. intros it4 _ _. cbn [safe]. apply H. lia.
    - intros m Q H. apply Go_. intros m' it rs Hm Hd C. replace m' with (big + S (S (m' - (big + 2))))%nat by lia. assert (m <= m' - (big + 2))%nat as Hm2 by lia. revert Hm2. generalize (m' - (big + 2))%nat. intros m2 Hm2.
      apply safe_bind. apply (proj2 (V rs (C Vals ltac:(discriminate)) (C Texts ltac:(discriminate)))). intros m3 Hm3. rewrite Lv. cbn [andb bind]. destruct m3 as [|m3]; [lia|].
      apply (safe_release _ _ _ Props Props it rs []); [now rewrite app_nil_r|exact Hd|apply own|]. intros it4 _ _. cbn [safe]. apply H. lia.
  Qed.
  Lemma unknown_name name : bytes name -> (forall i, ~ nameOfProp d i name) -> exists t, ProfileModel.PropertyGetByName gString gProperty (length (props d)) 0 name = (None, true, t).
  Proof using D St Op room.
    intros B No. destruct (property_missing gString gProperty name B (length (props d)) 0) as (t' & P1' & _); [|eauto].
    intros i Hi. destruct (every_prop file pl d u _ _ _ _ _ D St Op (plain_readers file pl d u D St Op out0 room) i ltac:(lia)) as (q & s & E & Bs & N). exists q, s. split; [exact E|]. split; [exact Bs|]. intros ->. exact (No _ N).
  Qed.
  Lemma known_name name j p : nth_error (props d) j = Some p -> nth_error (texts d) (pname p) = Some name -> (forall i, (i < j)%nat -> ~ nameOfProp d i name) ->
    exists t, ProfileModel.PropertyGetByName gString gProperty (length (props d)) 0 name = (Some (Z.of_nat j, decoded d p), true, t).
  Proof using D St Op room.
    intros Np Nt First. destruct (db_property_by_name_found file pl d u _ _ _ _ _ D St Op (plain_readers file pl d u D St Op out0 room) j p name Np Nt First) as (t' & P1 & _).
    rewrite (proj1 (counts file pl d u D St Op)), Nat2Z.id in P1. eauto.
  Qed.
  Lemma iterate_unknown_safe propertyName valueName : fits_method (meth Props) (collOf Texts) = true -> bytes propertyName -> (forall i, ~ nameOfProp d i propertyName) ->
    forall m (Q : nat -> list res -> list Z * bool -> Prop), (forall m', (m <= m')%nat -> Q m' [] ([], true)) -> safe Q (S (4 * length (props d) + m)) [] (ProfileIterateProfilesForPropertyAndValue compareOther propertyName valueName).
  Proof using D St Op room.
    intros F1 B No m Q H. destruct (unknown_name propertyName B No) as (t & P). unfold ProfileIterateProfilesForPropertyAndValue. apply safe_bind. apply name_safe; auto.
    intros m' r it' rs t' Hm E Hr C. rewrite P in E. injection E as <- <-. destruct Hr as (-> & _). cbn [app safe]. apply H. exact Hm.
  Qed.

  (* ---- profiles by id ---- *)
  Lemma compareId_safe id h b a i n itm rest : none Texts h -> nth_error (itemsOf d Offs) n = Some itm -> b = itm ++ rest -> offsetOf b = Some a ->
    snd (ProfileModel.compareProfileId id a i) = true /\ forall m (Q : nat -> list res -> Z * bool -> Prop), Q m h (fst (ProfileModel.compareProfileId id a i), true) -> safe Q (0 + m) h (compareProfileId id b).
  Proof using Type. intros _ _ _ Ea. unfold compareProfileId, ProfileModel.compareProfileId. rewrite Ea. cbn [fst snd need safe plus]. auto. Qed.
  Lemma offset_safe id h : none Offs h -> none Texts h -> order d <> [] ->
    match ProfileModel.ProfileGetOffsetForProfileId gOffset (length (order d)) id with
    | None => True
    | Some (r, ok) => forall m (Q : nat -> list res -> option Z * bool -> Prop), (forall m', (m <= m')%nat -> Q m' h (r, ok)) -> safe Q (S ((2 + 0) * 33 + S m)) h (ProfileGetOffsetForProfileId id)
    end.
  Proof using D St Op room.
    intros Ho Ht Hn. unfold ProfileModel.ProfileGetOffsetForProfileId, ProfileGetOffsetForProfileId, BinarySearch. destruct (Z.eqb id 0); [intros m Q H; cbn [safe]; apply H; lia|].
    set (up := (Z.of_nat (length (order d)) - 1) mod 2 ^ 32).
    assert (up < Z.of_nat (length (itemsOf d Offs))) as Hu.
    { cbn [itemsOf]. rewrite map_length. unfold up. pose proof (order_small d D). assert (0 < length (order d))%nat by (destruct (order d); [contradiction|cbn; lia]). rewrite Z.mod_small; lia. }
    pose proof (fun m Q => search_safe Offs offsetOf (compareProfileId id) (ProfileModel.compareProfileId id) 0 eq_refl ltac:(discriminate)
      ltac:(intros n itm rest N; destruct (offset_there d D n itm rest N) as (k & f & _ & _ & E); eauto) (compareId_safe id) m Q h Ho Ht 33%nat 0 up newItem [] eq_refl ltac:(lia) Hu) as X.
    revert X. generalize 33%nat. intros fu X.
    destruct (SearchModel.search gOffset _ fu _ _ []) as [((r, ok), tr)|]; [|exact Logic.I]. pose proof (proj1 (X 0%nat (fun _ _ _ => True))) as Eok. subst ok.
    assert (Go_ : forall r' m (Q : nat -> list res -> option Z * bool -> Prop), (forall m' it' ob rs, (S m <= m')%nat -> (forall x, x <> Offs -> none x rs) ->
      ((0 <= r /\ heldBy Offs it' rs /\ exists b tr'', tr = SGet r :: tr'' /\ ob = Some b /\ gOffset r = (offsetOf b, true) /\ plainBytes file (kindOf Offs) (collOf Offs) r = Some b /\ offsetOf b <> None) \/
           (r = -1 /\ rs = [] /\ idle it' /\ (again Offs newItem \/ 0 <= up -> again Offs it'))) ->
       safe Q m' (rs ++ h) (if 0 <=? r then need ob (fun b => need (offsetOf b) (fun o => Release Offs it' (fun _ => Done (Some (offset o), true)))) else Done (None, true))) -> r' = r ->
       safe Q (S ((2 + 0) * fu + S m)) h (CountOf Offs (fun n => bind (search Offs (compareProfileId id) fu 0 ((n - 1) mod 2 ^ 32) newItem) (fun x => match x with (r, ok, it, b) =>
          if Z.leb 0 r then need b (fun b => need (offsetOf b) (fun o => Release Offs it (fun _ => Done (Some (offset o), ok)))) else Done (None, ok) end)))).
    { intros r' m Q H _. cbn [safe useOf]. rewrite (proj2 (counts file pl d u D St Op)). fold up. apply safe_bind. apply (proj2 (X (S m) _)). intros m' it' ob rs Hm C Z. exact (H m' it' ob rs Hm C Z). }
    destruct (Z.leb_spec 0 r) as [Hr|Hr].
    - destruct tr as [|[g|g] tr]; try exact Logic.I. destruct (gOffset g) as (o0, b0) eqn:Eg. destruct o0 as [o0|]; [|exact Logic.I]. destruct b0; [|exact Logic.I].
      intros m Q H. apply (Go_ r); [|reflexivity]. intros m' it' ob rs Hm C [(_ & Hd & b & tr'' & Et & -> & P & _ & Nb)|(-> & _)]; [|lia]. injection Et as -> _. rewrite P in Eg. injection Eg as Eb.
      cbn [need]. rewrite Eb. cbn [need]. destruct m' as [|m']; [lia|]. apply (safe_release _ _ _ Offs Offs it' rs h); [reflexivity|exact Hd|apply own|]. intros it3 _ _. cbn [safe]. apply H. lia.
    - intros m Q H. apply (Go_ r); [|reflexivity]. intros m' it' ob rs Hm C [(Hx & _)|(_ & -> & _)]; [lia|]. cbn [app safe]. apply H. lia.
  Qed.
End Safe.
