(* RequiredPropertiesConfig.cpp.  The configuration holds either an array of names,
   or a string in memory that strtok writes to.  None is undefined: a read outside
   the memory, or fuel used up.  Not modelled: Malloc failing, more than 2^31 names,
   other threads that use strtok. *)
From Verif Require Export PropsModel.

(* RequiredPropertiesConfig.hpp: what a configuration holds *)
Inductive Config := Default | Names (names : list (list Z)) | Text (memory : list Z).

(* the characters up to the first zero *)
Fixpoint cstring (l : list Z) : list Z :=
  match l with
  | [] => []
  | c :: l' => if Z.eqb c 0 then [] else c :: cstring l'
  end.
(* RequiredPropertiesConfig.cpp:44-56: strcpy ends at a zero *)
Definition fromVector (properties : option (list (list Z))) : Config :=
  match properties with
  | None => Default
  | Some l => Names (map cstring l)
  end.
(* RequiredPropertiesConfig.cpp:63-79 *)
Definition fromString (properties : option (list Z)) : Config :=
  match properties with
  | None => Default
  | Some s => Text (cstring s ++ [0%Z])
  end.

(* strtok with "," as the separators: how many separators, and how many characters
   that are not, there are; None when no zero follows *)
Fixpoint spanSeparators (l : list Z) : option nat :=
  match l with
  | [] => None
  | c :: l' => if Z.eqb c 44 then option_map S (spanSeparators l') else Some 0
  end.
(* strtok: the characters before a separator *)
Fixpoint spanToken (l : list Z) : option nat :=
  match l with
  | [] => None
  | c :: l' => if Z.eqb c 44 || Z.eqb c 0 then Some 0 else option_map S (spanToken l')
  end.
(* a character of memory is assigned *)
Fixpoint set (i : nat) (x : Z) (l : list Z) : list Z :=
  match l, i with
  | [], _ => []
  | _ :: l', O => x :: l'
  | y :: l', S j => y :: set j x l'
  end.
(* strtok (C11 7.24.5.8) from a position: the token or NULL, the memory, and the
   position for the next call *)
Definition strtok (memory : list Z) (position : nat) : option (option nat * list Z * nat) :=
  match spanSeparators (skipn position memory) with
  | None => None
  | Some n =>
    let start := position + n in
    match nth_error memory start with
    | None => None
    | Some c =>
      if Z.eqb c 0 then Some (None, memory, start)
      else
        match spanToken (skipn start memory) with
        | None => None
        | Some k =>
          match nth_error memory (start + k) with
          | None => None
          | Some e => if Z.eqb e 0 then Some (Some start, memory, start + k) else Some (Some start, set (start + k) 0 memory, S (start + k))
          end
        end
    end
  end.
(* RequiredPropertiesConfig.cpp:100-104, 122-128: the tokens up to the first that
   found is true for, whether there is one, and the memory after *)
Fixpoint tokens (fuel : nat) (found : list Z -> bool) (memory : list Z) (position : nat) : option (list (list Z) * bool * list Z) :=
  match fuel with
  | O => None
  | S fuel' =>
    match strtok memory position with
    | None => None
    | Some (None, memory', _) => Some ([], false, memory')
    | Some (Some start, memory', next) =>
      let current := cstring (skipn start memory') in
      if found current then Some ([current], true, memory')
      else option_map (fun '(l, b, m) => (current :: l, b, m)) (tokens fuel' found memory' next)
    end
  end.

(* RequiredPropertiesConfig.cpp:91-108 getProperties *)
Definition getProperties (c : Config) : option (list (list Z) * Config) :=
  match c with
  | Default => Some ([], c)
  | Names l => Some (l, c)
  | Text m => option_map (fun '(l, _, m') => (l, Text m')) (tokens (S (length m)) (fun _ => false) m 0)
  end.
(* RequiredPropertiesConfig.cpp:110-131 containsProperty *)
Definition containsProperty (c : Config) (property : list Z) : option (bool * Config) :=
  match c with
  | Default => Some (false, c)
  | Names l => Some (existsb (fun n => Z.eqb (strcasecmp property n) 0) l, c)
  | Text m => option_map (fun '(_, b, m') => (b, Text m')) (tokens (S (length m)) (fun n => Z.eqb (strcasecmp property n) 0) m 0)
  end.
(* RequiredPropertiesConfig.cpp:138-157 getCount *)
Definition getCount (c : Config) : Z :=
  match c with
  | Default => 0
  | Names l => Z.of_nat (length l)
  | Text m => Z.of_nat (length (filter (Z.eqb 44) (cstring m)))
  end.
