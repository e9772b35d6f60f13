(* ResultsBase.cpp, Value.hpp and the exceptions of Exceptions.cpp that they throw.  The
   virtual methods of the engine are any functions, the available properties those of
   PropsModel.  A std::string is any list of characters. *)
From Coq Require Export String Ascii.
From Verif Require Export PropsModel.
Open Scope Z_scope.

(* results.h:55-91 fiftyoneDegreesResultsNoValueReason *)
Inductive reason := DIFFERENCE | NO_MATCHED_NODES | INVALID_PROPERTY | NO_RESULT_FOR_PROPERTY | NO_RESULTS | TOO_MANY_VALUES | NULL_PROFILE | UNKNOWN.
(* a literal *)
Fixpoint literal (s : String.string) : list Z :=
  match s with EmptyString => [] | String a s' => Z.of_N (N_of_ascii a) :: literal s' end.
(* the text that a C function sees in c_str() *)
Fixpoint cText (s : list Z) : list Z :=
  match s with [] => [] | c :: s' => if Z.eqb c 0 then [] else c :: cText s' end.
(* std::string::compare(...) == 0 *)
Fixpoint same (a b : list Z) : bool :=
  match a, b with [], [] => true | x :: a', y :: b' => Z.eqb x y && same a' b' | _, _ => false end.

(* Value.hpp:199-206 *)
Record Value (T : Type) := mkValue { hasValue : bool; value : T; noValueMessage : option (list Z); noValueReason : reason }.
Arguments mkValue {T}. Arguments hasValue {T}. Arguments value {T}. Arguments noValueMessage {T}. Arguments noValueReason {T}.
(* Value.hpp:84-87 *)
Definition newValue {T} (zero : T) : Value T := mkValue false zero None UNKNOWN.
(* Value.hpp:159-162 *)
Definition setValue {T} (v : Value T) (x : T) : Value T := mkValue true x (noValueMessage v) (noValueReason v).
(* Value.hpp:172-177 *)
Definition setNoValueReason {T} (v : Value T) (r : reason) (m : option (list Z)) : Value T := mkValue (hasValue v) (value v) m r.
(* Value.hpp:129-153 getValue; Exceptions.cpp:73-92 *)
Inductive outcome (T : Type) := Returns (x : T) | InvalidPropertyException (message : list Z) | TooManyValuesException (message : list Z) | NoValuesAvailableException (message : list Z).
Arguments Returns {T}. Arguments InvalidPropertyException {T}. Arguments TooManyValuesException {T}. Arguments NoValuesAvailableException {T}.
(* Exceptions.cpp:85-88 *)
Definition noValues {T} (message : option (list Z)) : outcome T :=
  NoValuesAvailableException (match message with None => literal "No values are available for the property requested" | Some m => m end).
(* Value.hpp:129-153 *)
Definition getValue {T} (v : Value T) : outcome T :=
  if hasValue v then Returns (value v)
  else
    match noValueReason v with
    | INVALID_PROPERTY => match noValueMessage v with Some m => InvalidPropertyException m | None => InvalidPropertyException (literal "Requested property is not available") end
    | TOO_MANY_VALUES => TooManyValuesException (literal "Type conversation only available for properties with a single value")
    | DIFFERENCE | NO_RESULT_FOR_PROPERTY | NO_RESULTS | UNKNOWN => noValues (noValueMessage v)
    | NO_MATCHED_NODES | NULL_PROFILE => noValues None
    end.

(* the virtual methods *)
Record Results := mkResults {
  available : list PropertyAvailable;
  hasValuesInternal : Z -> bool;
  getNoValueReasonInternal : Z -> reason;
  getNoValueMessageInternal : reason -> option (list Z);
  getValuesInternal : Z -> list (list Z) }.

(* ResultsBase.cpp:39-41 getAvailableProperties, an int *)
Definition getAvailableProperties (r : Results) : Z := Z.of_nat (List.length (available r)).
(* ResultsBase.cpp:43-48 containsProperty *)
Definition containsProperty (r : Results) (propertyName : list Z) : option bool :=
  option_map (Z.leb 0) (PropertiesGetRequiredPropertyIndexFromName (available r) (cText propertyName)).
(* ResultsBase.cpp:59-73 getPropertyName; the names are not NULL *)
Definition getPropertyName (r : Results) (i : Z) : option (list Z) :=
  if Z.leb 0 i && Z.ltb i (getAvailableProperties r) then PropertiesGetNameFromRequiredIndex (available r) i else Some [].
(* ResultsBase.cpp:50-57 getProperties *)
Fixpoint getPropertiesFrom (r : Results) (i : Z) (n : nat) : option (list (list Z)) :=
  match n with
  | O => Some []
  | S n' =>
    match getPropertyName r i, getPropertiesFrom r (i + 1) n' with
    | Some x, Some l => Some (x :: l)
    | _, _ => None
    end
  end.
(* ResultsBase.cpp:50-57 *)
Definition getProperties (r : Results) : option (list (list Z)) := getPropertiesFrom r 0 (List.length (available r)).

(* no value, for the reason of the engine: the same in all the methods, for example
   ResultsBase.cpp:77-83 *)
Definition noValue {T} (r : Results) (i : Z) (zero : T) : Value T :=
  let rs := getNoValueReasonInternal r i in setNoValueReason (newValue zero) rs (getNoValueMessageInternal r rs).
(* ResultsBase.cpp:88-96 the loop of getValueAsString *)
Fixpoint joined (l : list (list Z)) (first : bool) : list Z :=
  match l with
  | [] => []
  | x :: l' => (if first then [] else literal "|") ++ x ++ joined l' false
  end.
(* ResultsBase.cpp:75-104 getValueAsString *)
Definition getValueAsString (r : Results) (i : Z) : Value (list Z) :=
  if hasValuesInternal r i then
    match getValuesInternal r i with
    | [] => newValue []
    | [x] => setValue (newValue []) x
    | l => setValue (newValue []) (joined l true)
    end
  else noValue r i [].
(* ResultsBase.cpp:118-140, 154-176, 190-212: the methods that need a single value *)
Definition getSingle {T} (r : Results) (i : Z) (zero : T) (convert : list Z -> option T) : option (Value T) :=
  if hasValuesInternal r i then
    match getValuesInternal r i with
    | [] => Some (newValue zero)
    | [x] => option_map (setValue (newValue zero)) (convert x)
    | _ => Some (setNoValueReason (newValue zero) TOO_MANY_VALUES None)
    end
  else Some (noValue r i zero).
(* ResultsBase.cpp:118-140 getValueAsBool *)
Definition getValueAsBool (r : Results) (i : Z) : option (Value bool) := getSingle r i false (fun x => Some (same x (literal "True"))).
(* atoi of the C library: white space, a sign, digits; undefined if it is no int *)
Definition isspace (c : Z) : bool := Z.eqb c 32 || (Z.leb 9 c && Z.leb c 13).
(* the digits *)
Fixpoint digitsFrom (s : list Z) (n : Z) : Z :=
  match s with
  | c :: s' => if Z.leb 48 c && Z.leb c 57 then digitsFrom s' (10 * n + (c - 48)) else n
  | [] => n
  end.
(* the white space before *)
Fixpoint skipSpace (s : list Z) : list Z := match s with c :: s' => if isspace c then skipSpace s' else s | [] => [] end.
(* atoi *)
Definition atoi (s : list Z) : option Z :=
  let n :=
    match skipSpace s with
    | c :: s' => if Z.eqb c 45 then - digitsFrom s' 0 else if Z.eqb c 43 then digitsFrom s' 0 else digitsFrom (c :: s') 0
    | [] => 0
    end in
  if Z.leb (- 2 ^ 31) n && Z.ltb n (2 ^ 31) then Some n else None.
(* ResultsBase.cpp:154-176 getValueAsInteger *)
Definition getValueAsInteger (r : Results) (i : Z) : option (Value Z) := getSingle r i 0 (fun x => atoi (cText x)).
(* ResultsBase.cpp:190-212 getValueAsDouble; strtod is any function *)
Definition getValueAsDouble {T} (zero : T) (strtod : list Z -> T) (r : Results) (i : Z) : option (Value T) := getSingle r i zero (fun x => Some (strtod (cText x))).
(* ResultsBase.cpp:226-242 getValues *)
Definition getValues (r : Results) (i : Z) : Value (list (list Z)) :=
  if hasValuesInternal r i then setValue (newValue []) (getValuesInternal r i) else noValue r i [].

(* ResultsBase.cpp:106-116 and the like: by name; the index is -1 if there is none *)
Definition byName {T} (r : Results) (get : Results -> Z -> T) (propertyName : list Z) : option T :=
  option_map (get r) (PropertiesGetRequiredPropertyIndexFromName (available r) propertyName).
