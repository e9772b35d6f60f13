(* What a configuration is after calls *)
From Verif Require Export ConfigModel.

(* the setting of the last call of a kind, or the first *)
Fixpoint lastOf {A} (which : call -> option A) (first : A) (l : list call) : A :=
  match l with [] => first | c :: l' => lastOf which (match which c with Some a => a | None => first end) l' end.
Definition upperOf c := match c with SetUpper b => Some b | _ => None end.
Definition useOf c := match c with SetUse b => Some b | _ => None end.
Definition reuseOf c := match c with SetReuse b => Some b | _ => None end.
Definition dirsOf c := match c with SetDirs l => Some l | _ => None end.
(* the text before the first zero *)
Definition textBefore (s t : list Z) : Prop := ~ In 0 t /\ (s = t \/ exists rest, s = t ++ 0 :: rest).
(* how often directories are set *)
Fixpoint setsDirs (l : list call) : nat := match l with [] => 0 | SetDirs _ :: l' => S (setsDirs l') | _ :: l' => setsDirs l' end.
