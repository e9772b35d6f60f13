(* What a required properties configuration says *)
From Verif Require Export StringSpec PropsSpec ReqModel.

Definition comma (c : Z) : Prop := c = 44%Z.
(* the names in a text: its non-empty parts between commas *)
Inductive namesIn : list Z -> list (list Z) -> Prop :=
| names_none s : Forall comma s -> namesIn s []
| names_last c w : Forall comma c -> w <> [] -> Forall (fun x => ~ comma x) w -> namesIn (c ++ w) [w]
| names_more c w s l : Forall comma c -> w <> [] -> Forall (fun x => ~ comma x) w -> namesIn s l -> namesIn (c ++ w ++ 44%Z :: s) (w :: l).
(* the text up to the end of its first name *)
Inductive cutAfterFirst : list Z -> list Z -> Prop :=
| cut_none s : Forall comma s -> cutAfterFirst s s
| cut_last c w : Forall comma c -> w <> [] -> Forall (fun x => ~ comma x) w -> cutAfterFirst (c ++ w) (c ++ w)
| cut_more c w s : Forall comma c -> w <> [] -> Forall (fun x => ~ comma x) w -> cutAfterFirst (c ++ w ++ 44%Z :: s) (c ++ w).

Inductive query := AskList | AskContains (p : list Z) | AskCount.
Inductive answer := IsList (l : list (list Z)) | IsBool (b : bool) | IsCount (n : Z).
(* a query of the model *)
Definition ask (q : query) (c : Config) : option (answer * Config) :=
  match q with
  | AskList => option_map (fun '(l, c') => (IsList l, c')) (getProperties c)
  | AskContains p => option_map (fun '(b, c') => (IsBool b, c')) (containsProperty c p)
  | AskCount => Some (IsCount (getCount c), c)
  end.
Fixpoint askAll (qs : list query) (c : Config) : option (list answer) :=
  match qs with
  | [] => Some []
  | q :: qs' => match ask q c with None => None | Some (a, c') => option_map (cons a) (askAll qs' c') end
  end.
(* the answer that a list of names should give *)
Definition isAnswer (names : list (list Z)) (q : query) (a : answer) : Prop :=
  match q, a with
  | AskList, IsList l => l = names
  | AskContains p, IsBool b => b = true <-> Exists (sameText p) names
  | AskCount, IsCount n => n = Z.of_nat (length names)
  | _, _ => False
  end.
(* the answers given for a text: the first query of a list or a name cuts it *)
Inductive answersText : list Z -> list query -> list answer -> Prop :=
| at_none s : answersText s [] []
| at_list s s' l qs as_ : namesIn s l -> cutAfterFirst s s' -> answersText s' qs as_ -> answersText s (AskList :: qs) (IsList l :: as_)
| at_contains s s' l p b qs as_ : namesIn s l -> cutAfterFirst s s' -> (b = true <-> Exists (sameText p) l) -> answersText s' qs as_ ->
    answersText s (AskContains p :: qs) (IsBool b :: as_)
| at_count s qs as_ : answersText s qs as_ -> answersText s (AskCount :: qs) (IsCount (Z.of_nat (count_occ Z.eq_dec s 44%Z)) :: as_).

(* the names that can be asked for *)
Definition askable (q : query) : Prop := match q with AskContains p => Forall textChar p | _ => True end.
