(* The functions of property.c, value.c and profile.c called by several threads on the
   same collections.  The functions are those of CallsModel.v, here cut into the steps
   that use what the threads share: a get or a release of a collection is one step, and
   between two steps of a call the other threads may do any number of theirs.  A get
   from a cache and a release of its node run with the lock of the shard
   (cache.c:391-411, 424-432), those of the other collections share the memory and the
   file handles only.
   Simplifications: those of CallsModel.v except that a call runs alone; the shards of a
   cache are locked together; a file handle is taken and given back in one step, so that
   one is enough (in C there is one for each thread that may use the collection). *)
From Verif Require Import TreeModel CacheModel CacheSpec CollectionModel.
From Verif Require ItemModel.
From Verif Require Import SearchModel ProfileModel DbModel CallsModel.
Local Open Scope Z_scope.

(* a call in progress: a value, undefined behaviour, or a step and what is done with its
   answer - collection->get, COLLECTION_RELEASE or the count of a collection *)
Inductive prog (A : Type) :=
| Done (a : A)
| Undefined
| GetIt (s : src) (i : Z) (okay : bool) (it : item) (k : option (list Z) -> bool -> item -> prog A)
| Release (s : src) (it : item) (k : item -> prog A)
| CountOf (s : src) (k : Z -> prog A).
Arguments Done {A}. Arguments Undefined {A}. Arguments GetIt {A}. Arguments Release {A}. Arguments CountOf {A}.
(* one call after another *)
Fixpoint bind {A B} (p : prog A) (f : A -> prog B) : prog B :=
  match p with
  | Done a => f a
  | Undefined => Undefined
  | GetIt s i okay it k => GetIt s i okay it (fun b ok it => bind (k b ok it) f)
  | Release s it k => Release s it (fun it => bind (k it) f)
  | CountOf s k => CountOf s (fun n => bind (k n) f)
  end.
(* a value that is there or undefined behaviour *)
Definition need {A B} (o : option A) (k : A -> prog B) : prog B := match o with Some a => k a | None => Undefined end.

Section Programs.
  Variable compareOther : list Z -> list Z -> Z.

  (* property.c:111-144, with n properties left *)
  Fixpoint propertyLoop (n : nat) (i : Z) (name : list Z) (nameItem it : item) : prog (option (Z * Property) * bool * item) :=
    match n with
    | O => Done (None, true, it)
    | S n' =>
      GetIt Props i true it (fun b ok it =>
        match b, ok with
        | None, true => propertyLoop n' (i + 1) name nameItem it
        | None, false => Done (None, false, it)
        | Some b, _ =>
          need (propertyOf b) (fun p =>
          GetIt Texts (nameOffset p) true nameItem (fun nb ok nameItem =>
            match nb with
            | None => Done (Some (i, p), ok, it)
            | Some nb =>
              need (textOf nb) (fun s =>
              if negb (Z.eqb (strcmp s name) 0) then
                Release Props it (fun it => Release Props nameItem (fun nameItem => propertyLoop n' (i + 1) name nameItem it))
              else Release Props nameItem (fun _ => Done (Some (i, p), true, it)))
            end))
        end)
    end.
  (* property.c:99-145 fiftyoneDegreesPropertyGetByName *)
  Definition PropertyGetByName (name : list Z) (it : item) : prog (option (Z * Property) * bool * item) :=
    CountOf Props (fun n => propertyLoop (Z.to_nat n) 0 name newItem it).
  (* property.c:147-161 fiftyoneDegreesPropertyGetValueType *)
  Definition PropertyGetValueType (index : Z) : prog (Z * bool) :=
    GetIt Props index true newItem (fun b ok it =>
      match b with
      | Some b => need (valueType b) (fun t => Release Props it (fun _ => Done (t, true)))
      | None => Done (0, ok)
      end).

  Section Search.
    Variable s : src.
    Variable cmp : list Z -> prog (Z * bool).
    (* collection.c:1177-1228 *)
    Fixpoint search (n : nat) (lower upper : Z) (it : item) : prog (Z * bool * item * option (list Z)) :=
      match n with
      | O => Undefined
      | S n' =>
        if Z.leb lower upper then
          let middle := lower + (upper - lower) / 2 in
          GetIt s middle true it (fun b ok it =>
            match b with
            | None => Done (0, ok, it, None)
            | Some b =>
              bind (cmp b) (fun x =>
                match x with
                | (_, false) => Done (0, false, it, Some b)
                | (r, true) =>
                  if Z.eqb r 0 then Done (middle, true, it, Some b)
                  else
                    Release s it (fun it =>
                      if Z.ltb 0 r then
                        if Z.eqb middle 0 then search n' ((lower + 1) mod 2 ^ 32) upper it
                        else search n' lower (middle - 1) it
                      else search n' ((middle + 1) mod 2 ^ 32) upper it)
                end)
            end)
        else Done (-1, true, it, None)
      end.
  End Search.

  (* value.c:127-157 compareValueByName *)
  Definition compareValueByName (name : list Z) (value : list Z) : prog (Z * bool) :=
    need (valueNameOffset value) (fun o =>
    GetIt Texts o true newItem (fun nb ok it =>
      match nb with
      | None => Done (0, ok)
      | Some nb =>
        need (textOf nb) (fun t =>
        Release Texts it (fun _ =>
          Done (match t with
                | c :: _ => if Z.eqb c 1 || Z.eqb c 2 then compareOther t name else strcmp t name
                | [] => strcmp t name
                end, true)))
      end)).
  (* value.c:198-222 fiftyoneDegreesValueGetIndexByName *)
  Definition ValueGetIndexByName (property : Property) (name : list Z) : prog (Z * bool) :=
    bind (search Vals (compareValueByName name) 33 (firstValueIndex property) (lastValueIndex property) newItem) (fun x =>
      match x with
      | (r, true, it, _) => Release Vals it (fun _ => Done (r, true))
      | (r, false, _, _) => Done (r, false)
      end).
  (* value.c:224-249 fiftyoneDegreesValueGetByName *)
  Definition ValueGetByName (property : Property) (name : list Z) (it : item) : prog (option (list Z) * bool * item) :=
    if Z.eqb (firstValueIndex property) (2 ^ 32 - 1) then Done (None, true, it)
    else
      bind (search Vals (compareValueByName name) 33 (firstValueIndex property) (lastValueIndex property) (mkItem ItemModel.DataReset (ihandle it) (icoll it))) (fun x =>
        match x with
        | (r, ok, it, b) =>
          if Z.leb 0 r && ok then need b (fun b => Done (Some b, true, it))
          else Done (None, ok, it)
        end).

  (* profile.c:303-342 *)
  Fixpoint profilesLoop (n : nat) (i : Z) (okay : bool) (property : Property) (valueIndex : Z) (offsetItem profileItem : item) : prog (list Z * bool) :=
    match n with
    | O => Done ([], okay)
    | S n' =>
      GetIt Offs i okay offsetItem (fun ob ok offsetItem =>
        match ob, ok with
        | Some ob, true =>
          need (offsetOf ob) (fun o =>
          GetIt Profs (offset o) true profileItem (fun pb ok profileItem =>
            match pb, ok with
            | Some pb, true =>
              need (profileOf pb) (fun p =>
              need match getFirstValueForProfileAndProperty p property with
                   | None => None
                   | Some None => Some false
                   | Some (Some k) => findValue (S (length (values p))) p property valueIndex k
                   end (fun called =>
              Release Offs profileItem (fun profileItem =>
              Release Offs offsetItem (fun offsetItem =>
              bind (profilesLoop n' (i + 1) true property valueIndex offsetItem profileItem) (fun x =>
                Done (if called then i :: fst x else fst x, snd x))))))
            | _, ok => Release Offs offsetItem (fun offsetItem => profilesLoop n' (i + 1) ok property valueIndex offsetItem profileItem)
            end))
        | _, ok => profilesLoop n' (i + 1) ok property valueIndex offsetItem profileItem
        end)
    end.
  (* profile.c:272-347 fiftyoneDegreesProfileIterateProfilesForPropertyAndValue *)
  Definition ProfileIterateProfilesForPropertyAndValue (propertyName valueName : list Z) : prog (list Z * bool) :=
    bind (PropertyGetByName propertyName newItem) (fun x =>
      match x with
      | (Some (_, property), true, it) =>
        bind (ValueGetIndexByName property valueName) (fun y =>
          let (valueIndex, ok) := y in
          bind (if Z.leb 0 valueIndex && ok
                then CountOf Offs (fun n => profilesLoop (Z.to_nat n) 0 true property valueIndex newItem newItem)
                else Done ([], ok)) (fun z =>
          Release Props it (fun _ => Done z)))
      | (_, ok, _) => Done ([], ok)
      end).

  (* profile.c:50-60 compareProfileId *)
  Definition compareProfileId (id : Z) (bytes : list Z) : prog (Z * bool) :=
    need (offsetOf bytes) (fun o => Done (if Z.ltb (profileId o) id then -1 else if Z.ltb id (profileId o) then 1 else 0, true)).
  (* profile.c:151-175 fiftyoneDegreesProfileGetOffsetForProfileId *)
  Definition ProfileGetOffsetForProfileId (id : Z) : prog (option Z * bool) :=
    if Z.eqb id 0 then Done (None, false)
    else
      CountOf Offs (fun n =>
      bind (search Offs (compareProfileId id) 33 0 ((n - 1) mod 2 ^ 32) newItem) (fun x =>
        match x with
        | (r, ok, it, b) =>
          if Z.leb 0 r then
            need b (fun b => need (offsetOf b) (fun o => Release Offs it (fun _ => Done (Some (offset o), ok))))
          else Done (None, ok)
        end)).
  (* profile.c:177-197 fiftyoneDegreesProfileGetByProfileId *)
  Definition ProfileGetByProfileId (id : Z) (it : item) : prog (option (list Z) * bool * item) :=
    bind (ProfileGetOffsetForProfileId id) (fun x =>
      match x with
      | (Some o, true) => GetIt Profs o true it (fun b ok it => Done (b, ok, it))
      | (_, ok) => Done (None, ok, it)
      end).
  (* profile.c:199-224 fiftyoneDegreesProfileGetByIndex *)
  Definition ProfileGetByIndex (index : Z) (it : item) : prog (option (list Z) * bool * item) :=
    GetIt Offs index true newItem (fun ob ok oit =>
      match ob with
      | Some ob =>
        need (offsetOf ob) (fun o =>
        GetIt Profs (offset o) true it (fun b ok it =>
        Release Offs oit (fun _ => Done (b, ok, it))))
      | None => Done (None, ok, it)
      end).

  (* the calls, and what they return: with an item of a collection, if one is held *)
  Inductive query :=
  | QProperty (name : list Z) | QType (index : Z)
  | QIndex (property : Property) (name : list Z) | QValue (property : Property) (name : list Z)
  | QProfiles (propertyName valueName : list Z) | QProfileIndex (index : Z) | QProfileId (id : Z).
  Inductive answer :=
  | AProperty (p : option (Z * Property)) | AType (t : Z) | AIndex (i : Z) | ABytes (b : option (list Z)) | AProfiles (l : list Z).
  Record result := mkResult { ans : answer; clear : bool; kept : option (src * item) }.
  (* the item is held if there is something in it *)
  Definition held {A} (o : option A) (s : src) (it : item) : option (src * item) := match o with Some _ => Some (s, it) | None => None end.
  (* a thread calls a function, with an item of its own *)
  Definition call (q : query) : prog result :=
    match q with
    | QProperty name => bind (PropertyGetByName name newItem) (fun x => match x with (r, ok, it) => Done (mkResult (AProperty r) ok (held r Props it)) end)
    | QType index => bind (PropertyGetValueType index) (fun x => Done (mkResult (AType (fst x)) (snd x) None))
    | QIndex property name => bind (ValueGetIndexByName property name) (fun x => Done (mkResult (AIndex (fst x)) (snd x) None))
    | QValue property name => bind (ValueGetByName property name newItem) (fun x => match x with (r, ok, it) => Done (mkResult (ABytes r) ok (held r Vals it)) end)
    | QProfiles a b => bind (ProfileIterateProfilesForPropertyAndValue a b) (fun x => Done (mkResult (AProfiles (fst x)) (snd x) None))
    | QProfileIndex index => bind (ProfileGetByIndex index newItem) (fun x => match x with (r, ok, it) => Done (mkResult (ABytes r) ok (held r Profs it)) end)
    | QProfileId id => bind (ProfileGetByProfileId id newItem) (fun x => match x with (r, ok, it) => Done (mkResult (ABytes r) ok (held r Profs it)) end)
    end.
End Programs.

Section Threads.
  Variable file : list Z.
  Variable fuel : src -> nat.
  Variable compareOther : list Z -> list Z -> Z.

  (* one step of a call on what is shared; the end of a call is no step *)
  Definition stepProg {A} (p : prog A) (w : world) : option (prog A * world) :=
    match p with
    | Done _ | Undefined => None
    | GetIt s i okay it k => match get file fuel s i okay it w with Some (b, ok, it, w) => Some (k b ok it, w) | None => None end
    | Release s it k => match releaseIn s it w with Some (it, w) => Some (k it, w) | None => None end
    | CountOf s k => Some (k (CollectionGetCount (colls w s)), w)
    end.
  (* the steps of a call with no others in between *)
  Fixpoint alone {A} (p : prog A) (w : world) : option (A * world) :=
    match p with
    | Done a => Some (a, w)
    | Undefined => None
    | GetIt s i okay it k => match get file fuel s i okay it w with Some (b, ok, it, w) => alone (k b ok it) w | None => None end
    | Release s it k => match releaseIn s it w with Some (it, w) => alone (k it) w | None => None end
    | CountOf s k => alone (k (CollectionGetCount (colls w s))) w
    end.

  (* a thread: the call it is in, and the items that were returned and not released *)
  Record thread := mkThread { running : option (query * prog result); items : list (src * item) }.
  (* what the threads share, and each of them *)
  Record state := mkState { shared : world; threads : list thread }.
  (* a thread calls a function, goes on with its call, or releases one of its items *)
  Inductive action := Call (q : query) | Go | GiveBack (k : nat).
  Inductive event := Returned (t : nat) (q : query) (r : result).
  (* a thread is changed *)
  Definition setThread (t : nat) (x : thread) (l : list thread) : list thread := firstn t l ++ x :: skipn (S t) l.
  (* an item is taken from a list *)
  Definition without {A} (k : nat) (l : list A) : list A := firstn k l ++ skipn (S k) l.
  (* one step of a thread; None: it cannot be done or is undefined *)
  Definition step (t : nat) (a : action) (st : state) : option (state * list event) :=
    match nth_error (threads st) t with
    | None => None
    | Some th =>
      match a, running th with
      | Call q, None => Some (mkState (shared st) (setThread t (mkThread (Some (q, call compareOther q)) (items th)) (threads st)), [])
      | Go, Some (q, Done r) =>
        Some (mkState (shared st) (setThread t (mkThread None (match kept r with Some i => i :: items th | None => items th end)) (threads st)), [Returned t q r])
      | Go, Some (q, p) =>
        match stepProg p (shared st) with
        | Some (p', w) => Some (mkState w (setThread t (mkThread (Some (q, p')) (items th)) (threads st)), [])
        | None => None
        end
      | GiveBack k, None =>
        match nth_error (items th) k with
        | Some (s, it) =>
          match releaseIn s it (shared st) with
          | Some (_, w) => Some (mkState w (setThread t (mkThread None (without k (items th))) (threads st)), [])
          | None => None
          end
        | None => None
        end
      | _, _ => None
      end
    end.
End Threads.
