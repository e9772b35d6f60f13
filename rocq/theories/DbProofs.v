(* Proofs about data sets stored in files *)
From Verif Require Import TreeModel CacheModel CollectionModel CollectionSpec CollectionProofs CollectionRun CollectionCreate CollectionProps PropertiesCollection ProfileModel ProfileSpec PropertiesProfile.
From Verif Require Import DbModel DbSpec.
From Verif Require ComponentModel ValueModel.
Local Open Scope Z_scope.

(* ---- numbers ---- *)
Lemma enc_length n : forall z, length (enc n z) = n.
Proof. induction n as [|n IH]; intros z; cbn [enc length]; [|rewrite IH]; reflexivity. Qed.
Lemma le_enc n : forall z rest, fits n z -> ComponentModel.le n (enc n z ++ rest) = Some z.
Proof.
  induction n as [|n IH]; intros z rest F; unfold fits in *.
  - change (256 ^ Z.of_nat 0) with 1 in F. cbn. apply f_equal. lia.
  - rewrite Nat2Z.inj_succ, Z.pow_succ_r in F by lia. cbn [enc app ComponentModel.le]. rewrite IH.
    + cbn [option_map]. apply f_equal. rewrite (Z.div_mod z 256) at 3 by lia. lia.
    + split; [apply Z.div_pos; lia|]. apply Z.div_lt_upper_bound; lia.
Qed.
Lemma member_skip (a b : list Z) k n : (length a <= k)%nat -> member k n (a ++ b) = member (k - length a) n b.
Proof. intros L. unfold member, ComponentModel.member. now rewrite skipn_app, (skipn_all2 a) by exact L. Qed.
Lemma member_enc_skip m z (b : list Z) k n : (m <= k)%nat -> member k n (enc m z ++ b) = member (k - m) n b.
Proof. intros L. rewrite member_skip; rewrite enc_length; [reflexivity|exact L]. Qed.
Lemma member_enc n z (b : list Z) : fits n z -> member 0 n (enc n z ++ b) = Some z.
Proof. intros F. apply le_enc. exact F. Qed.
Lemma fits4 z : 0 <= z < 2 ^ 32 -> fits 4 z.
Proof. intros H. unfold fits. change (256 ^ Z.of_nat 4) with (2 ^ 32). exact H. Qed.

(* ---- headers ---- *)
Lemma region file pos k es isCount items : storedAt file pos isCount items -> small items -> sizesOK k items es isCount ->
  exists h, HeaderFrom file pos es isCount = Some h /\ regionOK file k items h /\ hstart h = (pos + 4)%nat.
Proof.
  intros (Hp & rest & E) Sm Z0. unfold small in Sm.
  assert (Hn : Z.of_nat (length items) * (if isCount then es else 1) <= Z.of_nat (length (concat items)) \/ isCount = false).
  { destruct isCount; [left|now right]. destruct k; cbn in Z0; [|destruct Z0 as (_ & X & _); discriminate]. destruct Z0 as (P & Q).
    rewrite (concat_fixed_len items (Z.to_nat es)); [|intros it I; apply Nat2Z.inj; rewrite Q by exact I; lia]. rewrite Nat2Z.inj_mul, Z2Nat.id by lia. lia. }
  unfold HeaderFrom. unfold member, ComponentModel.member. rewrite E. rewrite Z.mod_small, Nat2Z.id by lia.
  assert (Fl : (length (concat items) + (pos + 4) <= length file)%nat).
  { pose proof (skipn_length pos file) as X. rewrite E, !app_length, enc_length in X. lia. }
  assert (Sl : slice file (pos + 4) (length (concat items)) = concat items).
  { unfold slice. rewrite Nat.add_comm, <- skipn_skipn, E. rewrite skipn_app, enc_length. rewrite (skipn_all2 (enc _ _)) by now rewrite enc_length. cbn [Nat.sub skipn app].
    rewrite firstn_app, firstn_all, Nat.sub_diag. cbn [firstn]. now rewrite app_nil_r. }
  rewrite le_enc.
  2:{ apply fits4. destruct isCount; [|lia]. destruct Hn as [Hn|]; [|discriminate]. destruct k; cbn in Z0; [|destruct Z0 as (_ & X & _); discriminate]. nia. }
  cbn [option_map]. eexists. split; [reflexivity|]. split; [|now destruct isCount].
  destruct k as [|init final]; cbn [sizesOK] in Z0.
  - destruct Z0 as (P & Q).
    assert (C : Z.of_nat (length (concat items)) = Z.of_nat (length items) * es).
    { rewrite (concat_fixed_len items (Z.to_nat es)); [|intros it I; apply Nat2Z.inj; rewrite Q by exact I; lia]. rewrite Nat2Z.inj_mul, Z2Nat.id by lia. lia. }
    unfold headerFrom. split.
    { exists (Z.to_nat es). split; [lia|]. intros it I. apply Nat2Z.inj. rewrite Q by exact I. lia. }
    destruct isCount; cbn [hlength hcount hstart].
    + rewrite <- C, Z.mod_small by lia. do 3 (split; [first [reflexivity|lia]|]). split; [lia|exact Sl].
    + destruct (Z.ltb_spec 0 es); [|lia]. do 2 (split; [first [reflexivity|lia]|]). split; [rewrite C; apply Z.div_mul; lia|]. split; [lia|exact Sl].
  - destruct Z0 as (-> & -> & Ho). change (headerFrom (pos + 4) 0 (Z.of_nat (length (concat items))) false) with (mkHd (pos + 4) (Z.of_nat (length (concat items))) 0). unfold regionOK. cbn [hlength hcount hstart]. split; [exact Ho|]. do 3 (split; [first [reflexivity|lia]|]). split; [lia|exact Sl].
Qed.

(* ---- counts ---- *)
Lemma second_count treeMem h cap conc c : createSecond treeMem h cap conc = Some (Some c) -> CollectionGetCount c = hcount h.
Proof.
  unfold createSecond. destruct (0 <? cap); destruct (0 <? conc); cbn [andb]; try (intros H; injection H as <-; reflexivity).
  destruct (cacheCreate treeMem cap conc []) as [[cc|]|]; try discriminate. intros H. injection H as <-. reflexivity.
Qed.
Lemma created_count file items h treeMem fuel cfg c : regionOK file Fixed items h -> configOK treeMem fuel cfg -> created file Fixed treeMem h cfg c ->
  CollectionGetCount c = Z.of_nat (length items).
Proof.
  intros HR HC Hc. pose proof HR as (Hi & Hl & Hb & Hn & _). cbn in Hn. destruct cfg as [|loaded cap conc]; cbn [created] in Hc.
  - unfold CreateFromMemory in Hc. destruct (hlength h <=? _); [|discriminate]. injection Hc as <-. cbn [CollectionGetCount].
    pose proof (elemSize _ _ _ _ HR) as He. unfold createCollection in *. cbn [celem csize ccount] in *.
    destruct (Z.eqb_spec (if hcount h =? 0 then 0 else hlength h / hcount h) 0) as [Q|Q]; cbn [ccount]; [exact Hn|].
    destruct He as [(-> & H0)|(es & He & Hes & Hall)]; [congruence|]. rewrite Hes, Hl, (concat_fixed_len items es Hall). rewrite Nat2Z.inj_mul. apply Z.div_mul. lia.
  - unfold CreateFromFile in Hc. destruct (Z.ltb_spec 0 loaded); [|now rewrite (second_count _ _ _ _ _ Hc)].
    destruct HC as (Lo & _). destruct (loaded_ok _ _ _ _ HR loaded ltac:(lia)) as (count & m & E & Lm & Em & Ec). rewrite E in Hc.
    destruct (fread file (hstart h) _); [|discriminate].
    destruct ((count =? loaded) && _)%bool eqn:Q.
    + destruct (createSecond treeMem h cap conc) as [[n|]|] eqn:X; try discriminate. injection Hc as <-. cbn [CollectionGetCount]. rewrite (second_count _ _ _ _ _ X). exact Hn.
    + injection Hc as <-. cbn [CollectionGetCount ccount].
      pose proof (elemSize _ _ _ _ HR) as He. cbn beta iota in He.
      destruct He as [(-> & H0)|(es & He & Hes & Hall)].
      * unfold calculateLoadedSize, createCollection in E. cbn [celem csize ccount] in E. rewrite Hn in E. cbn [length] in E. change (Z.of_nat 0 =? 0) with true in E. cbn [negb Z.eqb] in E.
        rewrite Hl in E. cbn [concat length] in E. destruct (Z.ltb_spec (Z.of_nat 0) loaded); [|lia]. cbn [Z.of_nat] in E. injection E as <- _. reflexivity.
      * specialize (Em ltac:(rewrite Hes; lia)). destruct Ec as [Ec|Ec]; [|now rewrite Em, Ec]. rewrite Ec, Z.eqb_refl in Q. cbn [andb] in Q. apply Z.ltb_ge in Q.
        unfold createCollection in Q. cbn [csize] in Q. rewrite Hl in Q.
        pose proof (prefix_len items m) as Pl. rewrite Z.mod_small in Q by lia. rewrite Em. apply f_equal.
        rewrite (concat_fixed_len items es Hall) in *. rewrite (concat_fixed_len (firstn m items) es) in * by (intros it I; apply Hall; exact (in_firstn _ _ _ I)). rewrite firstn_length_le in * by exact Lm. nia.
Qed.
Lemma get_count file k fuel : forall c f i e c', collGet file k fuel c f i = Some (e, c') -> CollectionGetCount c' = CollectionGetCount c.
Proof.
  fix IH 1. intros [ci b|ci st|ci st cc|ci b [n|]] f i e c'; cbn [collGet].
  - destruct (getMemory ci b i); intros H; injection H as _ <-; reflexivity.
  - destruct (getFile file k ci st f i); intros H; [injection H as _ <-; reflexivity|discriminate].
  - destruct (getFromCache file k fuel ci st cc f i) as [(e1, cc1)|]; intros H; [injection H as _ <-; reflexivity|discriminate].
  - destruct (getMemory ci b i); [intros H; injection H as _ <-; reflexivity|]. destruct (collGet file k fuel n f i) as [(e1, n1)|] eqn:X; [|discriminate]. intros H. injection H as _ <-. cbn [CollectionGetCount]. exact (IH _ _ _ _ _ X).
  - destruct (getMemory ci b i); intros H; injection H as _ <-; reflexivity.
Qed.
Lemma release_count : forall c s c', collRelease c s = Some c' -> CollectionGetCount c' = CollectionGetCount c.
Proof.
  fix IH 1. intros [ci b|ci st|ci st cc|ci b [n|]] s c'; cbn [collRelease]; try discriminate.
  - destruct (cacheRelease (fst s) (snd s) cc); [|discriminate]. intros H. injection H as <-. reflexivity.
  - destruct (collRelease n s) as [n1|] eqn:X; [|discriminate]. intros H. injection H as <-. cbn [CollectionGetCount]. exact (IH _ _ _ X).
Qed.
Lemma exec_count file k fuel c0 tr c : exec file k fuel c0 tr c -> CollectionGetCount c = CollectionGetCount c0.
Proof.
  induction 1 as [|tr c o e c' _ IH _ E]; [reflexivity|]. rewrite <- IH. destruct o as [i f|s]; cbn [cstep] in E; [exact (get_count _ _ _ _ _ _ _ _ E)|].
  destruct (collRelease c s) as [c1|] eqn:X; [|discriminate]. injection E as _ <-. exact (release_count _ _ _ X).
Qed.

(* ---- items ---- *)
Lemma answered {A} file k items h u (decode : list Z -> option A) n it r (P : A -> Prop) :
  regionOK file k items h -> configOK (umem u) (ufuel u) (ucfg u) -> created file k (umem u) h (ucfg u) (ucoll u) ->
  (hasCache (ucoll u) = true -> 0 < concOf (ucfg u) <= Z.of_nat (slotsOf (ucfg u))) ->
  nth_error items n = Some it -> answers file k u decode (position k items n) r ->
  (forall rest, exists a, decode (it ++ rest) = Some a /\ P a) -> exists a, r = (Some a, true) /\ P a.
Proof.
  intros HR HC Hc Hr Hn (tr & c & He & Hw & Ho & Ha) Hd.
  destruct (collection_get_succeeds_below_concurrency _ _ _ _ _ _ _ _ _ _ _ _ HR HC Hc He Hn Hw) as (acc & s & c' & E & F).
  { intros X. split; [exact (Hr X)|exact (Ho X)]. }
  specialize (Ha _ _ E). cbn beta iota in Ha. destruct (Hd (skipn (length it) acc)) as (a & D & Q).
  assert (acc = it ++ skipn (length it) acc) as Ea by (rewrite <- F at 1; symmetry; apply firstn_skipn).
  rewrite <- Ea in D. exists a. split; [exact (Ha _ D)|exact Q].
Qed.
Lemma answered_at {A} file k pos es isCount items u (decode : list Z -> option A) n it r (P : A -> Prop) :
  storedAt file pos isCount items -> small items -> sizesOK k items es isCount -> opened file k pos es isCount u ->
  nth_error items n = Some it -> answers file k u decode (position k items n) r ->
  (forall rest, exists a, decode (it ++ rest) = Some a /\ P a) -> exists a, r = (Some a, true) /\ P a.
Proof.
  intros St Sm So (h & Eh & HC & Hc & Hr) Hn Ha Hd. destruct (region _ _ _ _ _ _ St Sm So) as (h' & Eh' & HR & _). rewrite Eh in Eh'. injection Eh' as <-.
  exact (answered _ _ _ _ _ _ _ _ _ _ HR HC Hc Hr Hn Ha Hd).
Qed.


(* ---- strings ---- *)
Lemma cString_text s rest : Forall (fun c => 0 < c < 256) s -> cString (s ++ 0 :: rest) = Some s.
Proof.
  induction 1 as [|c s Hc _ IH]; [reflexivity|]. cbn [app cString]. destruct (Z.eqb_spec c 0); [lia|]. now rewrite IH.
Qed.
Lemma encText_length s : length (encText s) = (3 + length s)%nat.
Proof. unfold encText. rewrite !app_length, enc_length. cbn [length]. lia. Qed.
Lemma text_decode s rest : isText s -> textOf (encText s ++ rest) = Some s.
Proof.
  intros (B & L). unfold textOf. destruct (Nat.ltb_spec (length (encText s ++ rest)) 2) as [X|_]; [rewrite app_length, encText_length in X; lia|].
  unfold encText. rewrite <- !app_assoc, skipn_app, enc_length, (skipn_all2 (enc _ _)) by now rewrite enc_length. cbn [Nat.sub skipn app]. now apply cString_text.
Qed.
Lemma texts_ok (l : list (list Z)) : Forall isText l -> sizesOK stringKind (map encText l) 0 false.
Proof.
  intros F. split; [reflexivity|]. split; [reflexivity|]. cbn [stringKind itemsOK]. split; [lia|]. intros it I. apply in_map_iff in I. destruct I as (s & <- & I).
  rewrite Forall_forall in F. destruct (F s I) as (_ & L). rewrite encText_length. split; [lia|].
  unfold encText. cbn [enc app firstn]. unfold ValueModel.getFinalStringSize, ValueModel.int16Of. cbn [nth]. set (n := Z.of_nat (length s)) in *.
  assert (0 <= n) by (subst n; lia).
  assert ((n + 1) mod 256 + 256 * ((n + 1) / 256 mod 256) = n + 1) as ->.
  { rewrite (Z.mod_small ((n + 1) / 256)); [pose proof (Z.div_mod (n + 1) 256); lia|]. split; [apply Z.div_pos; lia|apply Z.div_lt_upper_bound; lia]. }
  destruct (Z.leb_spec (2 ^ 15) (n + 1)); [lia|]. rewrite Z.mod_small by lia. lia.
Qed.

(* ---- positions ---- *)
Lemma startOf_le (items : list (list Z)) n : (length (concat (firstn n items)) <= length (concat items))%nat.
Proof. apply prefix_len. Qed.
Lemma startOf_fits items n : small items -> fits 4 (startOf items n).
Proof. intros Sm. apply fits4. unfold small, startOf in *. pose proof (startOf_le items n). lia. Qed.
Lemma position_var init final items n : position (VarSize init final) items n = startOf items n.
Proof. reflexivity. Qed.
Lemma item_le (items : list (list Z)) it : In it items -> (length it <= length (concat items))%nat.
Proof. induction items as [|x items IH]; intros []; cbn [concat]; rewrite app_length; [subst; lia|]. specialize (IH H). lia. Qed.

(* ---- properties ---- *)
Lemma encProp_length d p : length (flags p) = 7%nat -> length (encProp d p) = 44%nat.
Proof. intros F. unfold encProp. rewrite !app_length, !enc_length, F. reflexivity. Qed.
Lemma encVal_length d v : length (encVal d v) = 14%nat.
Proof. unfold encVal. rewrite !app_length, !enc_length. reflexivity. Qed.
Lemma encOffset_length d n : length (encOffset d n) = 8%nat.
Proof. unfold encOffset. rewrite !app_length, !enc_length. reflexivity. Qed.
Ltac members F := rewrite ?(member_skip (flags _)) by (rewrite F; lia); rewrite ?F; cbn [Nat.sub]; repeat (rewrite member_enc_skip by lia; cbn [Nat.sub]); apply member_enc.
Lemma prop_members d p rest : dbOK d -> propOK d p ->
  valueType (encProp d p ++ rest) = Some (ptype p) /\ propertyNameOffset (encProp d p ++ rest) = Some (textAt d (pname p)) /\
  propertyDescriptionOffset (encProp d p ++ rest) = Some (textAt d (pdesc p)) /\ categoryOffset (encProp d p ++ rest) = Some (textAt d (pcat p)) /\
  propertyUrlOffset (encProp d p ++ rest) = Some (textAt d (purl p)) /\ firstValue (encProp d p ++ rest) = Some (pfirst p) /\ lastValue (encProp d p ++ rest) = Some (plast p) /\
  defaultValueIndex (encProp d p ++ rest) = Some (pdefault p).
Proof.
  intros D (F & Ft & Fd & Ff & Fl & _). assert (Tx : forall n, fits 4 (textAt d n)) by (intros n; apply startOf_fits; apply D).
  unfold valueType, defaultValueIndex, propertyNameOffset, propertyDescriptionOffset, categoryOffset, propertyUrlOffset, firstValue, lastValue, encProp. rewrite <- !app_assoc.
  do 7 (split; [members F; auto|]). members F. auto.
Qed.
Lemma val_members d v rest : dbOK d ->
  valueNameOffset (encVal d v ++ rest) = Some (textAt d (vname v)) /\ valueDescriptionOffset (encVal d v ++ rest) = Some (textAt d (vdesc v)) /\
  valueUrlOffset (encVal d v ++ rest) = Some (textAt d (vurl v)).
Proof.
  intros D. assert (Tx : forall n, fits 4 (textAt d n)) by (intros n; apply startOf_fits; apply D).
  unfold valueNameOffset, valueDescriptionOffset, valueUrlOffset, encVal. rewrite <- !app_assoc. 
  split; [|split]; repeat (rewrite member_enc_skip by lia; cbn [Nat.sub]); apply member_enc; auto.
Qed.
Lemma offset_decode d n rest : dbOK d -> fits 4 (prid (nth n (profs d) noProf)) ->
  offsetOf (encOffset d n ++ rest) = Some (mkOffset (prid (nth n (profs d) noProf)) (startOf (map encProf (profs d)) n)).
Proof.
  intros D F. unfold offsetOf, encOffset. rewrite <- !app_assoc. rewrite member_enc by exact F. rewrite member_enc_skip by lia. cbn [Nat.sub].
  rewrite member_enc; [reflexivity|]. apply startOf_fits. apply D.
Qed.

(* ---- profiles ---- *)
Lemma words_enc vs : forall rest, Forall (fits 4) vs -> words (length vs) (concat (map (enc 4) vs) ++ rest) = Some vs.
Proof.
  induction vs as [|v vs IH]; intros rest F; [reflexivity|]. inversion F as [|? ? F1 F2]; subst. cbn [length words map concat]. rewrite <- app_assoc, member_enc by exact F1.
  rewrite skipn_app, enc_length, (skipn_all2 (enc _ _)) by now rewrite enc_length. cbn [Nat.sub skipn app]. now rewrite IH.
Qed.
Lemma words_length vs : length (concat (map (enc 4) vs)) = (4 * length vs)%nat.
Proof. induction vs as [|v vs IH]; [reflexivity|]. cbn [map concat length]. rewrite app_length, enc_length, IH. lia. Qed.
Lemma encProf_length p : length (encProf p) = (9 + 4 * length (prvalues p))%nat.
Proof. unfold encProf. rewrite !app_length, !enc_length, words_length. lia. Qed.
Lemma valueCount_prof p rest : fits 4 (Z.of_nat (length (prvalues p))) -> valueCount (encProf p ++ rest) = Some (Z.of_nat (length (prvalues p))).
Proof. intros F. unfold valueCount, encProf. rewrite <- !app_assoc. do 2 (rewrite member_enc_skip by lia; cbn [Nat.sub]). now apply member_enc. Qed.
Lemma profile_decode p rest : fits 4 (Z.of_nat (length (prvalues p))) -> Forall (fits 4) (prvalues p) ->
  exists after, profileOf (encProf p ++ rest) = Some (mkProfile (prvalues p) after).
Proof.
  intros F V. unfold profileOf. rewrite valueCount_prof by exact F. rewrite Nat2Z.id.
  assert (skipn sizeofProfile (encProf p ++ rest) = concat (map (enc 4) (prvalues p)) ++ rest) as ->.
  { unfold encProf. rewrite !app_assoc. rewrite <- (app_assoc _ _ rest). rewrite skipn_app, (skipn_all2 ((enc 1 _ ++ enc 4 _) ++ enc 4 _)) by (rewrite !app_length, !enc_length; cbv [sizeofProfile]; lia). rewrite !app_length, !enc_length. reflexivity. }
  rewrite words_enc by exact V. eauto.
Qed.
Lemma profs_ok (l : list prof) : Forall profOK l -> small (map encProf l) -> sizesOK profileKind (map encProf l) 0 false.
Proof.
  intros F Sm. split; [reflexivity|]. split; [reflexivity|]. cbn [profileKind itemsOK]. split; [cbv; lia|]. intros it I. pose proof (item_le _ _ I) as Li. apply in_map_iff in I. destruct I as (p & <- & I).
  rewrite encProf_length in *. split; [cbv [sizeofProfile]; lia|]. unfold small in Sm.
  assert (firstn sizeofProfile (encProf p) = enc 1 (prcomponent p) ++ enc 4 (prid p) ++ enc 4 (Z.of_nat (length (prvalues p))) ++ []) as ->.
  { unfold encProf. rewrite app_nil_r, !app_assoc, firstn_app, (firstn_all2 ((enc 1 _ ++ enc 4 _) ++ enc 4 _)) by (rewrite !app_length, !enc_length; cbv [sizeofProfile]; lia). rewrite !app_length, !enc_length. cbn [Nat.add Nat.sub sizeofProfile firstn]. now rewrite app_nil_r. }
  unfold getFinalProfileSize, valueCount. do 2 (rewrite member_enc_skip by lia; cbn [Nat.sub]). rewrite member_enc by (apply fits4; lia).
  change (Z.of_nat sizeofProfile) with 9. rewrite Z.mod_small by lia. lia.
Qed.

(* ---- what the readers give ---- *)
Section Readers.
  Context (file : list Z) (w : places) (d : db) (u : uses).
  Context (D : dbOK d) (St : stored file w d) (Op : allOpened file w u).

  Lemma text_answer n s r : nth_error (texts d) n = Some s -> answers file stringKind (tuse u) textOf (textAt d n) r -> r = (Some s, true).
  Proof using D St Op.
    intros N A. pose proof D as (T & _ & _ & _ & _ & S1 & _). destruct St as (St1 & _). destruct Op as (Op1 & _).
    assert (isText s) as Ts by (rewrite Forall_forall in T; apply T; exact (nth_error_In _ _ N)).
    destruct (answered_at file stringKind _ _ _ _ _ textOf n (encText s) r (eq s) St1 S1 (texts_ok _ T) Op1) as (a & -> & <-); [now apply map_nth_error|exact A|intros rest; exists s; split; [now apply text_decode|reflexivity]|reflexivity].
  Qed.
  Lemma props_ok : sizesOK Fixed (map (encProp d) (props d)) sizeofProperty (pcount w).
  Proof using D.
    split; [reflexivity|]. intros it I. apply in_map_iff in I. destruct I as (p & <- & I). rewrite encProp_length; [reflexivity|].
    pose proof D as (_ & P & _). rewrite Forall_forall in P. apply (P p I).
  Qed.
  Lemma vals_ok : sizesOK Fixed (map (encVal d) (vals d)) sizeofValue (vcount w).
  Proof using Type. split; [reflexivity|]. intros it I. apply in_map_iff in I. destruct I as (v & <- & _). now rewrite encVal_length. Qed.
  Lemma offsets_ok : sizesOK Fixed (map (encOffset d) (order d)) sizeofOffset (ocount w).
  Proof using Type. split; [reflexivity|]. intros it I. apply in_map_iff in I. destruct I as (v & <- & _). now rewrite encOffset_length. Qed.
  Lemma prop_in n p : nth_error (props d) n = Some p -> propOK d p.
  Proof using D. intros N. pose proof D as (_ & P & _). rewrite Forall_forall in P. apply P. exact (nth_error_In _ _ N). Qed.

  Lemma prop_answer {A} (decode : list Z -> option A) (P : A -> Prop) n p r : nth_error (props d) n = Some p -> answers file Fixed (puse u) decode (Z.of_nat n) r ->
    (forall rest, exists a, decode (encProp d p ++ rest) = Some a /\ P a) -> exists a, r = (Some a, true) /\ P a.
  Proof using D St Op.
    intros N A1 H. destruct St as (_ & St1 & _). destruct Op as (_ & Op1 & _).
    assert (small (map (encProp d) (props d))) as S1 by apply D.
    exact (answered_at file Fixed _ _ _ _ _ decode n _ r P St1 S1 props_ok Op1 (map_nth_error _ _ _ N) A1 H).
  Qed.
  Lemma val_answer {A} (decode : list Z -> option A) (P : A -> Prop) n v r : nth_error (vals d) n = Some v -> answers file Fixed (vuse u) decode (Z.of_nat n) r ->
    (forall rest, exists a, decode (encVal d v ++ rest) = Some a /\ P a) -> exists a, r = (Some a, true) /\ P a.
  Proof using D St Op.
    intros N A1 H. destruct St as (_ & _ & St1 & _). destruct Op as (_ & _ & Op1 & _).
    assert (small (map (encVal d) (vals d))) as S1 by apply D.
    exact (answered_at file Fixed _ _ _ _ _ decode n _ r P St1 S1 vals_ok Op1 (map_nth_error _ _ _ N) A1 H).
  Qed.
  Lemma property_answer n p r : nth_error (props d) n = Some p -> answers file Fixed (puse u) propertyOf (Z.of_nat n) r -> r = (Some (mkProperty (textAt d (pname p)) (pfirst p) (plast p)), true).
  Proof using D St Op.
    intros N A. destruct (prop_answer propertyOf (eq (mkProperty (textAt d (pname p)) (pfirst p) (plast p))) n p r N A) as (a & -> & <-); [|reflexivity].
    intros rest. destruct (prop_members d p rest D (prop_in _ _ N)) as (_ & E1 & _ & _ & _ & E2 & E3 & _). eexists. split; [unfold propertyOf; rewrite E1, E2, E3; reflexivity|reflexivity].
  Qed.
  Lemma value_answer n v r : nth_error (vals d) n = Some v -> answers file Fixed (vuse u) valueNameOffset (Z.of_nat n) r -> r = (Some (textAt d (vname v)), true).
  Proof using D St Op.
    intros N A. destruct (val_answer valueNameOffset (eq (textAt d (vname v))) n v r N A) as (a & -> & <-); [|reflexivity].
    intros rest. eexists. split; [apply (val_members d v rest D)|reflexivity].
  Qed.
  Lemma offset_answer i n p r : nth_error (order d) i = Some n -> nth_error (profs d) n = Some p -> answers file Fixed (ouse u) offsetOf (Z.of_nat i) r ->
    r = (Some (mkOffset (prid p) (startOf (map encProf (profs d)) n)), true).
  Proof using D St Op.
    intros N P A. destruct St as (_ & _ & _ & _ & St1). destruct Op as (_ & _ & _ & _ & Op1). assert (small (map (encOffset d) (order d))) as S1 by apply D.
    assert (nth n (profs d) noProf = p) as En by exact (nth_error_nth _ _ _ P).
    assert (fits 4 (prid p)) as Fp. { pose proof D as (_ & _ & _ & F & _). rewrite Forall_forall in F. apply (F p (nth_error_In _ _ P)). }
    destruct (answered_at file Fixed _ _ _ _ _ offsetOf i (encOffset d n) r (eq (mkOffset (prid p) (startOf (map encProf (profs d)) n))) St1 S1 offsets_ok Op1 (map_nth_error _ _ _ N) A) as (a & -> & <-); [|reflexivity].
    intros rest. eexists. split; [|reflexivity]. rewrite (offset_decode d n rest D); rewrite En; [reflexivity|exact Fp].
  Qed.
  Lemma profile_id_answer n p r : nth_error (profs d) n = Some p -> answers file profileKind (fuse u) profileIdOf (startOf (map encProf (profs d)) n) r -> r = (Some (prid p), true).
  Proof using D St Op.
    intros P A. destruct St as (_ & _ & _ & St1 & _). destruct Op as (_ & _ & _ & Op1 & _). assert (small (map encProf (profs d))) as S1 by apply D.
    assert (Forall profOK (profs d)) as F by apply D. pose proof F as F'. rewrite Forall_forall in F'. destruct (F' p (nth_error_In _ _ P)) as (Fi & _).
    destruct (answered_at file profileKind _ _ _ _ _ profileIdOf n (encProf p) r (eq (prid p)) St1 S1 (profs_ok _ F S1) Op1 (map_nth_error _ _ _ P) A) as (a & -> & <-); [|reflexivity].
    intros rest. eexists. split; [|reflexivity]. unfold profileIdOf, encProf. rewrite <- !app_assoc. rewrite member_enc_skip by lia. cbn [Nat.sub]. now apply member_enc.
  Qed.
  Lemma profile_answer n p r : nth_error (profs d) n = Some p -> answers file profileKind (fuse u) profileOf (startOf (map encProf (profs d)) n) r ->
    exists after, r = (Some (mkProfile (prvalues p) after), true).
  Proof using D St Op.
    intros P A. destruct St as (_ & _ & _ & St1 & _). destruct Op as (_ & _ & _ & Op1 & _). assert (small (map encProf (profs d))) as S1 by apply D.
    assert (Forall profOK (profs d)) as F by apply D. pose proof F as F'. rewrite Forall_forall in F'. destruct (F' p (nth_error_In _ _ P)) as (_ & Fv & _).
    assert (fits 4 (Z.of_nat (length (prvalues p)))) as Fn.
    { apply fits4. pose proof (item_le _ _ (nth_error_In _ _ (map_nth_error encProf _ _ P))) as L. rewrite encProf_length in L. unfold small in S1. lia. }
    destruct (answered_at file profileKind _ _ _ _ _ profileOf n (encProf p) r (fun a => exists after, a = mkProfile (prvalues p) after) St1 S1 (profs_ok _ F S1) Op1 (map_nth_error _ _ _ P) A) as (a & -> & (after & ->)).
    { intros rest. destruct (profile_decode p rest Fn Fv) as (after & E). exists (mkProfile (prvalues p) after). split; [exact E|eauto]. }
    eauto.
  Qed.
End Readers.
