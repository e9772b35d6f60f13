(* Model of /repo/tree.c: the intrusive red-black tree with parent links, a
   root record and an "empty" sentinel (tree.h 60-100).

   Simplifications: one tree per heap, so TREE_ROOT(n) / TREE_EMPTY(n)
   (tree.c 36-43, which go through n->root) are the constants ROOT and EMPTY.
   A heap maps addresses to nodes; reading or writing an address that holds no
   node (NULL, an unallocated node) is the outcome [None] (undefined
   behaviour).  A failed assert is also [None].  Loops carry fuel and give
   [None] when it runs out, so a theorem that an operation gives [Some] says
   that it terminates, passes its asserts and follows only valid links. *)
From Coq Require Export List Arith ZArith Lia Bool.
Export ListNotations.

Notation ptr := nat (only parsing).
(* the null pointer *)
Definition NULLP : ptr := 0.
Definition ROOT : ptr := 1.   (* &root->root  *)
Definition EMPTY : ptr := 2.  (* &root->empty *)

(* tree.h: fiftyoneDegreesTreeNode; colour true = COLOUR_RED (tree.c 33-34) *)
Record node := mk {
  parent : ptr; left : ptr; right : ptr; colour : bool; key : Z }.

(* the memory of one tree *)
Definition heap := ptr -> option node.
(* a node is written *)
Definition upd (p : ptr) (n : node) (h : heap) : heap :=
  fun q => if Nat.eqb q p then Some n else h q.

(* a computation on the heap; None is undefined *)
Definition M (A : Type) := heap -> option (A * heap).
(* no access *)
Definition ret {A} (a : A) : M A := fun h => Some (a, h).
(* undefined behaviour *)
Definition fail {A} : M A := fun _ => None.
(* one computation after another *)
Definition bind {A B} (m : M A) (f : A -> M B) : M B :=
  fun h => match m h with Some (a, h') => f a h' | None => None end.
Notation "x <- m ;; k" := (bind m (fun x => k))
  (at level 61, m at next level, right associativity).
Notation "m ;;; k" := (bind m (fun _ => k)) (at level 61, right associativity).

(* a member of a node is read *)
Definition ld {A} (f : node -> A) (p : ptr) : M A :=
  fun h => match h p with Some n => Some (f n, h) | None => None end.
(* a node is changed *)
Definition modn (g : node -> node) (p : ptr) : M unit :=
  fun h => match h p with Some n => Some (tt, upd p (g n) h) | None => None end.
(* assignment to parent *)
Definition set_parent v := modn (fun n => mk v (left n) (right n) (colour n) (key n)).
(* assignment to left *)
Definition set_left v := modn (fun n => mk (parent n) v (right n) (colour n) (key n)).
(* assignment to right *)
Definition set_right v := modn (fun n => mk (parent n) (left n) v (colour n) (key n)).
(* assignment to colour *)
Definition set_colour v := modn (fun n => mk (parent n) (left n) (right n) v (key n)).
(* assignment to key *)
Definition set_key v := modn (fun n => mk (parent n) (left n) (right n) (colour n) v).

(* assert *)
Definition guard (b : bool) : M unit := if b then ret tt else fail.

(* tree.c 62-67 / 86-91 (part of both rotations) and 340-345: make the parent
   of [node] point to [child] instead *)
Definition relink (nd child : ptr) : M unit :=
  np <- ld parent nd ;;
  npl <- ld left np ;;
  if Nat.eqb nd npl then set_left child np else set_right child np.

(* tree.c 53-71 *)
Definition rotateLeft (nd : ptr) : M unit :=
  child <- ld right nd ;;
  cl <- ld left child ;;
  set_right cl nd ;;;
  (if negb (Nat.eqb cl EMPTY) then set_parent nd cl else ret tt) ;;;
  np <- ld parent nd ;;
  set_parent np child ;;;
  relink nd child ;;;
  set_left nd child ;;;
  set_parent child nd.

(* tree.c 77-95 *)
Definition rotateRight (nd : ptr) : M unit :=
  child <- ld left nd ;;
  cr <- ld right child ;;
  set_left cr nd ;;;
  (if negb (Nat.eqb cr EMPTY) then set_parent nd cr else ret tt) ;;;
  np <- ld parent nd ;;
  set_parent np child ;;;
  relink nd child ;;;
  set_right nd child ;;;
  set_parent child nd.

(* tree.c 101-142 *)
Fixpoint insertRepair (fuel : nat) (nd : ptr) : M unit :=
  match fuel with
  | 0 => fail
  | S fuel' =>
    p <- ld parent nd ;;
    pc <- ld colour p ;;
    if pc then
      g <- ld parent p ;;
      gl <- ld left g ;;
      if Nat.eqb p gl then
        uncle <- ld right g ;;
        uc <- ld colour uncle ;;
        if uc then
          set_colour false p ;;;
          set_colour false uncle ;;;
          set_colour true g ;;;
          insertRepair fuel' g
        else
          pr <- ld right p ;;
          nd1 <- (if Nat.eqb nd pr
                  then rotateLeft p ;;; ret p
                  else ret nd) ;;
          p1 <- ld parent nd1 ;;
          set_colour false p1 ;;;
          g1 <- ld parent p1 ;;
          set_colour true g1 ;;;
          rotateRight g1 ;;;
          insertRepair fuel' nd1
      else
        uncle <- ld left g ;;
        uc <- ld colour uncle ;;
        if uc then
          set_colour false p ;;;
          set_colour false uncle ;;;
          set_colour true g ;;;
          insertRepair fuel' g
        else
          pl <- ld left p ;;
          nd1 <- (if Nat.eqb nd pl
                  then rotateRight p ;;; ret p
                  else ret nd) ;;
          p1 <- ld parent nd1 ;;
          set_colour false p1 ;;;
          g1 <- ld parent p1 ;;
          set_colour true g1 ;;;
          rotateLeft g1 ;;;
          insertRepair fuel' nd1
    else ret tt
  end.

(* tree.c 152-154 *)
Fixpoint leftmost (fuel : nat) (s : ptr) : M ptr :=
  match fuel with
  | 0 => fail
  | S fuel' =>
    l <- ld left s ;;
    if Nat.eqb l EMPTY then ret s else leftmost fuel' l
  end.

(* tree.c 157-161 *)
Fixpoint climb (fuel : nat) (nd s : ptr) : M ptr :=
  match fuel with
  | 0 => fail
  | S fuel' =>
    r <- ld right s ;;
    if Nat.eqb nd r then
      s' <- ld parent s ;;
      climb fuel' s s'
    else ret s
  end.

(* tree.c 149-167 *)
Definition successor (fuel : nat) (nd : ptr) : M ptr :=
  s <- ld right nd ;;
  if negb (Nat.eqb s EMPTY) then leftmost fuel s
  else
    s0 <- ld parent nd ;;
    s1 <- climb fuel nd s0 ;;
    ret (if Nat.eqb s1 ROOT then EMPTY else s1).

(* tree.c 173-233 *)
Fixpoint deleteRepair (fuel : nat) (nd : ptr) : M unit :=
  match fuel with
  | 0 => fail
  | S fuel' =>
    c <- ld colour nd ;;
    first <- ld left ROOT ;;
    if negb c && negb (Nat.eqb nd first) then
      p <- ld parent nd ;;
      pl <- ld left p ;;
      if Nat.eqb nd pl then
        sib0 <- ld right p ;;
        sc <- ld colour sib0 ;;
        sib <- (if sc then
                  set_colour false sib0 ;;;
                  p1 <- ld parent nd ;;
                  set_colour true p1 ;;;
                  rotateLeft p1 ;;;
                  p2 <- ld parent nd ;;
                  ld right p2
                else ret sib0) ;;
        sr <- ld right sib ;;
        src <- ld colour sr ;;
        sl <- ld left sib ;;
        slc <- ld colour sl ;;
        if negb src && negb slc then
          set_colour true sib ;;;
          p3 <- ld parent nd ;;
          deleteRepair fuel' p3
        else
          sib1 <- (if negb src then
                     set_colour false sl ;;;
                     set_colour true sib ;;;
                     rotateRight sib ;;;
                     p4 <- ld parent nd ;;
                     ld right p4
                   else ret sib) ;;
          p5 <- ld parent nd ;;
          p5c <- ld colour p5 ;;
          set_colour p5c sib1 ;;;
          set_colour false p5 ;;;
          s1r <- ld right sib1 ;;
          set_colour false s1r ;;;
          rotateLeft p5 ;;;
          f <- ld left ROOT ;;
          deleteRepair fuel' f
      else
        sib0 <- ld left p ;;
        sc <- ld colour sib0 ;;
        sib <- (if sc then
                  set_colour false sib0 ;;;
                  p1 <- ld parent nd ;;
                  set_colour true p1 ;;;
                  rotateRight p1 ;;;
                  p2 <- ld parent nd ;;
                  ld left p2
                else ret sib0) ;;
        sr <- ld right sib ;;
        src <- ld colour sr ;;
        sl <- ld left sib ;;
        slc <- ld colour sl ;;
        if negb src && negb slc then
          set_colour true sib ;;;
          p3 <- ld parent nd ;;
          deleteRepair fuel' p3
        else
          sib1 <- (if negb slc then
                     set_colour false sr ;;;
                     set_colour true sib ;;;
                     rotateLeft sib ;;;
                     p4 <- ld parent nd ;;
                     ld left p4
                   else ret sib) ;;
          p5 <- ld parent nd ;;
          p5c <- ld colour p5 ;;
          set_colour p5c sib1 ;;;
          set_colour false p5 ;;;
          s1l <- ld left sib1 ;;
          set_colour false s1l ;;;
          rotateRight p5 ;;;
          f <- ld left ROOT ;;
          deleteRepair fuel' f
    else set_colour false nd
  end.

(* tree.c 245-257; the callback is recorded as the list of nodes it is called
   with, in call order *)
Fixpoint iterate (fuel : nat) (nd : ptr) : M (list ptr) :=
  match fuel with
  | 0 => fail
  | S fuel' =>
    if Nat.eqb nd EMPTY then ret []
    else
      k <- ld key nd ;;
      l <- ld left nd ;;
      ls <- (if negb (Nat.eqb l EMPTY) then
               lk <- ld key l ;;
               guard (Z.ltb lk k) ;;;
               iterate fuel' l
             else ret []) ;;
      r <- ld right nd ;;
      rs <- (if negb (Nat.eqb r EMPTY) then
               rk <- ld key r ;;
               guard (Z.ltb k rk) ;;;
               iterate fuel' r
             else ret []) ;;
      ret (ls ++ rs ++ [nd])
  end.

(* tree.c 264-269 *)
Fixpoint findFrom (fuel : nat) (k : Z) (nd : ptr) : M (option ptr) :=
  match fuel with
  | 0 => fail
  | S fuel' =>
    if Nat.eqb nd EMPTY then ret None
    else
      nk <- ld key nd ;;
      if Z.eqb k nk then ret (Some nd)
      else
        next <- (if Z.ltb k nk then ld left nd else ld right nd) ;;
        findFrom fuel' k next
  end.

(* tree.c 259-272 *)
Definition TreeFind (fuel : nat) (k : Z) : M (option ptr) :=
  first <- ld left ROOT ;;
  findFrom fuel k first.

(* tree.c 279-285: gives the parent under which to insert *)
Fixpoint insertPoint (fuel : nat) (k : Z) (par cur : ptr) : M ptr :=
  match fuel with
  | 0 => fail
  | S fuel' =>
    if Nat.eqb cur EMPTY then ret par
    else
      ck <- ld key cur ;;
      guard (negb (Z.eqb k ck)) ;;;
      next <- (if Z.ltb k ck then ld left cur else ld right cur) ;;
      insertPoint fuel' k cur next
  end.

(* tree.c 274-303 *)
Definition TreeInsert (fuel : nat) (nd : ptr) : M unit :=
  first <- ld left ROOT ;;
  k <- ld key nd ;;
  par <- insertPoint fuel k ROOT first ;;
  set_left EMPTY nd ;;;
  set_right EMPTY nd ;;;
  set_parent par nd ;;;
  (if Nat.eqb par ROOT then set_left nd par
   else
     pk <- ld key par ;;
     if Z.ltb k pk then set_left nd par else set_right nd par) ;;;
  set_colour true nd ;;;
  insertRepair fuel nd ;;;
  f <- ld left ROOT ;;
  set_colour false f.

(* tree.c 305-347 *)
Definition TreeDelete (fuel : nat) (nd : ptr) : M unit :=
  l <- ld left nd ;;
  r <- ld right nd ;;
  y <- (if Nat.eqb l EMPTY || Nat.eqb r EMPTY then ret nd
        else successor fuel nd) ;;
  yl <- ld left y ;;
  x <- (if Nat.eqb yl EMPTY then ld right y else ret yl) ;;
  yp <- ld parent y ;;
  set_parent yp x ;;;
  xp <- ld parent x ;;
  (if Nat.eqb xp ROOT then set_left x ROOT
   else
     yp1 <- ld parent y ;;
     ypl <- ld left yp1 ;;
     if Nat.eqb y ypl then set_left x yp1 else set_right x yp1) ;;;
  yc <- ld colour y ;;
  (if negb yc then deleteRepair fuel x else ret tt) ;;;
  (if negb (Nat.eqb y nd) then
     nl <- ld left nd ;; set_left nl y ;;;
     nr <- ld right nd ;; set_right nr y ;;;
     np <- ld parent nd ;; set_parent np y ;;;
     nc <- ld colour nd ;; set_colour nc y ;;;
     nl' <- ld left nd ;; set_parent y nl' ;;;
     nr' <- ld right nd ;; set_parent y nr' ;;;
     relink nd y
   else ret tt).

(* tree.c 349-354 *)
Definition TreeNodeRemove (nd : ptr) : M unit :=
  set_left EMPTY nd ;;;
  set_right EMPTY nd ;;;
  set_parent EMPTY nd ;;;
  set_colour false nd.

(* tree.c 371-377 (the root field is fixed in this model) *)
Definition TreeNodeInit (nd : ptr) : M unit :=
  set_key 0%Z nd ;;; TreeNodeRemove nd.

(* tree.c 356-369: both records of the root are written completely *)
Definition TreeRootInit : M unit := fun h =>
  match h EMPTY, h ROOT with
  | Some _, Some _ =>
    Some (tt, upd ROOT (mk NULLP EMPTY EMPTY false 0%Z)
               (upd EMPTY (mk NULLP EMPTY EMPTY false 0%Z) h))
  | _, _ => None
  end.

(* tree.c 379-384 *)
Definition TreeIterateNodes (fuel : nat) : M (list ptr) :=
  first <- ld left ROOT ;; iterate fuel first.

(* tree.c 386-390: a uint32_t counter incremented per callback (238-240) *)
Definition TreeCount (fuel : nat) : M Z :=
  ns <- TreeIterateNodes fuel ;;
  ret (fold_left (fun c (_ : ptr) => ((c + 1) mod 2 ^ 32)%Z) ns 0%Z).
