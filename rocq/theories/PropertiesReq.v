(* C54, C76: RequiredPropertiesConfig.cpp *)
From Verif Require Import ReqProofs.

(* C54: made from a list, every query answers for the list, in every sequence of
   queries *)
Theorem config_list : forall names qs, Forall (Forall textChar) names -> Forall askable qs ->
  exists as_, askAll qs (fromVector (Some names)) = Some as_ /\ Forall2 (isAnswer names) qs as_.
Proof.
  intros names qs T Q. cbn [fromVector].
  assert (E : map cstring names = names) by (rewrite <- (map_id names) at 2; apply map_ext_in; intros a I; rewrite Forall_forall in T; apply cstring_text; auto).
  rewrite E. clear E. induction Q as [|q qs Qq Q IH]; [exists []; split; [reflexivity|constructor]|].
  destruct IH as (as_ & E & F). destruct q as [|p|]; cbn [askAll ask getProperties containsProperty option_map getCount]; rewrite E; eexists; (split; [reflexivity|]); constructor; auto; cbn.
  - reflexivity.
  - now apply exists_same.
  - reflexivity.
Qed.
Print Assumptions config_list.

(* made from nothing: no names *)
Theorem config_default : forall qs, Forall askable qs ->
  exists as_, askAll qs (fromVector None) = Some as_ /\ askAll qs (fromString None) = Some as_ /\ Forall2 (isAnswer []) qs as_.
Proof.
  intros qs Q. cbn [fromVector fromString]. induction Q as [|q qs Qq Q IH]; [exists []; repeat split; constructor|].
  destruct IH as (as_ & E & _ & F). destruct q as [|p|]; cbn [askAll ask getProperties containsProperty option_map getCount]; rewrite E; eexists; (split; [reflexivity|]); (split; [reflexivity|]); constructor; auto; cbn.
  - reflexivity.
  - split; [discriminate|]. intros H. inversion H.
  - reflexivity.
Qed.
Print Assumptions config_default.

(* made from a string: every sequence of queries is defined, and these are its
   answers *)
Theorem config_string : forall s qs, Forall textChar s -> Forall askable qs ->
  exists as_, askAll qs (fromString (Some s)) = Some as_ /\ answersText s qs as_.
Proof. intros s qs T Q. cbn [fromString]. rewrite (cstring_text s T). now apply ask_text. Qed.
Print Assumptions config_string.

(* so with at most one name the list and the names are right in every sequence of
   queries *)
Theorem config_string_one : forall s names qs, Forall textChar s -> Forall askable qs -> namesIn s names -> length names <= 1 -> ~ In AskCount qs ->
  exists as_, askAll qs (fromString (Some s)) = Some as_ /\ Forall2 (isAnswer names) qs as_.
Proof.
  intros s names qs T Q H L NC. destruct (config_string s qs T Q) as (as_ & E & A). exists as_. split; [exact E|]. eapply answers_one; eassumption.
Qed.
Print Assumptions config_string_one.
(* and with any number of names the first query of a list or name is *)
Theorem config_string_first : forall s names p, Forall textChar s -> Forall textChar p -> namesIn s names ->
  askAll [AskList] (fromString (Some s)) = Some [IsList names] /\
  exists b, askAll [AskContains p] (fromString (Some s)) = Some [IsBool b] /\ (b = true <-> Exists (sameText p) names).
Proof.
  intros s names p T Tp H. split.
  - destruct (config_string s [AskList] T) as (as_ & E & A); [repeat constructor|]. rewrite E. inversion A as [|? ? l ? as0 H' C A'| |]; subst.
    inversion A'; subst. now rewrite (names_unique _ _ H _ H').
  - destruct (config_string s [AskContains p] T) as (as_ & E & A); [now repeat constructor|]. inversion A as [| |? ? l ? b ? as0 H' C B A'|]; subst.
    inversion A'; subst. exists b. split; [exact E|]. now rewrite (names_unique _ _ H _ H') in B.
Qed.
Print Assumptions config_string_first.

Definition abText : list Z := [97; 98; 44; 99]%Z. (* ab,c *)
Example config_example : Forall textChar abText /\ namesIn abText [[97; 98]; [99]]%Z /\
  askAll [AskList] (fromString (Some abText)) = Some [IsList [[97; 98]; [99]]%Z] /\
  askAll [AskContains [67%Z]] (fromString (Some abText)) = Some [IsBool true] /\
  askAll [AskCount; AskContains [67%Z]; AskList; AskList] (fromVector (Some [[97; 98]; [99]]%Z)) = Some [IsCount 2; IsBool true; IsList [[97; 98]; [99]]%Z; IsList [[97; 98]; [99]]%Z] /\
  namesIn [44; 99; 44]%Z [[99%Z]] /\ askAll [AskList; AskContains [67%Z]; AskList] (fromString (Some [44; 99; 44]%Z)) = Some [IsList [[99%Z]]; IsBool true; IsList [[99%Z]]].
Proof.
  split; [repeat constructor; discriminate|]. split.
  { apply (names_more [] [97; 98]%Z [99%Z] [[99%Z]]); [constructor|discriminate|repeat constructor; discriminate|]. apply (names_last [] [99%Z]); [constructor|discriminate|repeat constructor; discriminate]. }
  repeat (split; [reflexivity|]). split; [|reflexivity].
  apply (names_more [44%Z] [99%Z] [] []); [repeat constructor|discriminate|repeat constructor; discriminate|]. constructor. constructor.
Qed.

(* Refuted: asking again, asking after another query, and the count *)
Theorem config_string_refuted :
  (forall names, namesIn abText names -> length names = 2) /\
  askAll [AskList; AskList] (fromString (Some abText)) = Some [IsList [[97; 98]; [99]]%Z; IsList [[97; 98]]%Z] /\
  askAll [AskContains [99%Z]; AskContains [99%Z]] (fromString (Some abText)) = Some [IsBool true; IsBool false] /\
  askAll [AskCount; AskContains [120%Z]; AskCount; AskList] (fromString (Some abText)) = Some [IsCount 1; IsBool false; IsCount 0; IsList [[97; 98]]%Z].
Proof.
  split; [|repeat split]. intros names H. destruct config_example as (_ & E & _). now rewrite (names_unique _ _ E _ H).
Qed.
Print Assumptions config_string_refuted.

(* C76: the names of the configuration are those that properties.c takes from the same
   string, when it has no other separators than commas and no empty parts *)
Theorem config_same_names : forall s l, Forall textChar s -> parts s l -> (forall c, In c s -> separator c -> c = 44%Z) -> ~ In [] l ->
  askAll [AskList] (fromString (Some s)) = Some [IsList l] /\ splitFrom s [] = l.
Proof.
  intros s l T P NS NE. assert (H : namesIn s l).
  { clear T. induction P as [a F|a c s l F Sc P IH].
    - apply (names_last [] a); [constructor|intros ->; apply NE; now left|]. eapply Forall_impl; [|exact F]. intros x H C. apply H. right. now left.
    - assert (C44 : c = 44%Z) by (apply NS; [apply in_or_app; right; now left|exact Sc]). subst c.
      apply (names_more [] a s l); [constructor|intros ->; apply NE; now left|eapply Forall_impl; [|exact F]; intros x H C; apply H; right; now left|].
      apply IH; [|intros I; apply NE; now right]. intros c I. apply NS. apply in_or_app. right. now right. }
  split; [now apply (config_string_first s l [])|].
  clear -P. enough (G : forall s l, parts s l -> forall p, splitFrom s p = match l with [] => [] | a :: l' => (p ++ a) :: l' end) by (rewrite (G s l P); destruct l; reflexivity).
  clear. induction 1 as [a F|a c s l F Sc P IH]; intros p.
  - revert p. induction a as [|x a IHa]; intros p; cbn [splitFrom]; [now rewrite app_nil_r|].
    apply Forall_cons_iff in F. destruct F as (Fx & F). destruct (isSeparator x) eqn:E.
    + exfalso. apply Fx. unfold isSeparator in E. unfold separator. apply orb_prop in E. destruct E as [E|E]; [apply orb_prop in E; destruct E as [E|E]|]; apply Z.eqb_eq in E; auto.
    + rewrite (IHa F). now rewrite <- app_assoc.
  - revert p. induction a as [|x a IHa]; intros p; cbn [splitFrom app].
    + assert (E : isSeparator c = true) by (destruct Sc as [->|[->| ->]]; reflexivity). rewrite E, app_nil_r. rewrite (IH []). destruct l; [inversion P|reflexivity].
    + apply Forall_cons_iff in F. destruct F as (Fx & F). destruct (isSeparator x) eqn:E.
      * exfalso. apply Fx. unfold isSeparator in E. unfold separator. apply orb_prop in E. destruct E as [E|E]; [apply orb_prop in E; destruct E as [E|E]|]; apply Z.eqb_eq in E; auto.
      * rewrite (IHa F). now rewrite <- app_assoc.
Qed.
Print Assumptions config_same_names.
Example config_same_example : parts abText [[97; 98]; [99]]%Z /\ (forall c, In c abText -> separator c -> c = 44%Z) /\ ~ In [] [[97; 98]; [99]]%Z.
Proof.
  split; [|split].
  - apply (parts_more [97; 98]%Z 44 [99%Z] [[99%Z]]); [repeat constructor; unfold separator; lia|right; now left|]. constructor. repeat constructor; unfold separator; lia.
  - intros c I. unfold separator. cbn in I. lia.
  - cbn. intuition discriminate.
Qed.

(* Refuted: '|' and ' ' separate names in properties.c but not here, and the example
   in RequiredPropertiesConfig.hpp has a space after the comma *)
Theorem config_same_names_refuted :
  askAll [AskList] (fromString (Some [97; 124; 98]%Z)) = Some [IsList [[97; 124; 98]]%Z] /\ splitFrom [97; 124; 98]%Z [] = [[97]; [98]]%Z /\
  askAll [AskContains [98%Z]] (fromString (Some [97; 44; 32; 98]%Z)) = Some [IsBool false] /\ splitFrom [97; 44; 32; 98]%Z [] = [[97]; []; [98]]%Z.
Proof. repeat split. Qed.
Print Assumptions config_same_names_refuted.
