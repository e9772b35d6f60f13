(* EngineBase.cpp: the evidence keys that an engine accepts and the update URL.  A
   std::string is any list of bytes; the C strings that are appended end before their
   terminator and have no zero. *)
From Coq Require Export String Ascii.
From Verif Require Export EvidenceBaseModel.
Open Scope Z_scope.

(* a literal *)
Fixpoint literal (s : string) : list Z :=
  match s with EmptyString => [] | String a s' => Z.of_N (N_of_ascii a) :: literal s' end.
(* operator== of std::string *)
Fixpoint same (a b : list Z) : bool :=
  match a, b with [], [] => true | x :: a', y :: b' => Z.eqb x y && same a' b' | _, _ => false end.

(* EngineBase.cpp:53-57 addKey *)
Definition addKey (keys : list (list Z)) (key : list Z) : list (list Z) :=
  if existsb (same key) keys then keys else keys ++ [key].

(* the keys afterwards, and whether an exception was thrown *)
(* EngineBase.cpp:64-91 the loop of initOverrideKeys; the names of the properties, which
   may be NULL *)
Fixpoint overrideLoop (prefixed : bool) (names : list (option (list Z))) (keys : list (list Z)) : list (list Z) * bool :=
  match names with
  | [] => (keys, false)
  | None :: _ => (keys, true)
  | Some name :: names' =>
    let tag := if prefixed then literal "51D_" else [] in
    let keys := addKey keys (literal "cookie." ++ tag ++ name) in
    let keys := addKey keys (literal "query." ++ tag ++ name) in
    overrideLoop prefixed names' keys
  end.
(* EngineBase.cpp:59-93 initOverrideKeys; None is nullptr *)
Definition initOverrideKeys (overrideProperties : option (bool * list (option (list Z)))) (keys : list (list Z)) : list (list Z) * bool :=
  match overrideProperties with
  | None => (keys, false)
  | Some (prefixed, names) => overrideLoop prefixed names keys
  end.

(* EngineBase.cpp:95-113 initHttpHeaderKeys; the names of the headers *)
Fixpoint initHttpHeaderKeys (upper : bool) (names : list (list Z)) (keys : list (list Z)) : list (list Z) :=
  match names with
  | [] => keys
  | name :: names' =>
    let keys :=
      if existsb (Z.eqb 31) name then keys
      else
        let tag := if upper then literal "HTTP_" else [] in
        addKey (addKey keys (literal "header." ++ tag ++ name)) (literal "query." ++ tag ++ name) in
    initHttpHeaderKeys upper names' keys
  end.

(* EngineBase.cpp:123-135 getDataUpdateUrl; type and product are virtual *)
Definition getDataUpdateUrl (updateUrl licenceKey type product : list Z) : list Z :=
  match updateUrl with
  | _ :: _ => updateUrl
  | [] =>
    match licenceKey with
    | [] => []
    | _ => literal "https://distributor.51degrees.com/api/v2/download" ++ literal "?LicenceKeys=" ++ cText licenceKey ++ literal "&Type=" ++ type ++ literal "&Product=" ++ product
    end
  end.
(* EngineBase.cpp:141-143 getAutomaticUpdatesEnabled *)
Definition getAutomaticUpdatesEnabled (updateUrl licenceKey type product : list Z) : bool :=
  match getDataUpdateUrl updateUrl licenceKey type product with [] => false | _ => true end.
