(* C53, C75: list.c and data.c *)
From Verif Require Import ListProofs.

(* C53: every sequence of operations used as list.h says is defined, gives what the
   abstract list gives, and each item added is held or was released once, in order *)
Theorem list_refines : forall ops s rels ress, usesAll Closed ops s rels ress ->
  exists w, performAll ops closed0 = Some (ress, w) /\ released w = rels /\ released w ++ heldBy s = added ops /\
    count (list_ w) = Z.of_nat (length (heldBy s)) /\ length (liveBlocks (blocks w)) = match s with Closed => 0 | Open _ _ => 1 end.
Proof.
  intros ops s rels ress U. destruct (steps_ok _ _ _ _ _ U closed0) as (w & P & R & ST); [cbn; auto|].
  exists w. cbn in R. split; [exact P|]. split; [exact R|]. split; [rewrite R; exact (uses_added _ _ _ _ _ U)|].
  destruct s as [|c held]; cbn in ST |- *.
  - destruct ST as (_ & T & V). rewrite V. auto.
  - destruct ST as (b & cells & rest & E & N & EC & L & K & C & T & V & F). split; [exact T|].
    clear -N V. revert b N V. generalize (blocks w). intros l. induction l as [|y l IH]; intros [|b] N V; cbn in N; try discriminate N.
    + injection N as ->. unfold liveBlocks in *. cbn in V |- *. now rewrite V.
    + unfold liveBlocks in *. cbn in V |- *. destruct y; [discriminate V|]. exact (IH b N V).
Qed.
Print Assumptions list_refines.

(* once the list is freed every item added was released, exactly once, and the memory
   is freed *)
Theorem list_freed : forall ops rels ress, usesAll Closed ops Closed rels ress ->
  exists w, performAll ops closed0 = Some (ress, w) /\ released w = added ops /\ liveBlocks (blocks w) = [] /\ items (list_ w) = None.
Proof.
  intros ops rels ress U. destruct (steps_ok _ _ _ _ _ U closed0) as (w & P & R & (E & _ & V)); [cbn; auto|].
  exists w. split; [exact P|]. cbn in R. split; [|auto]. pose proof (uses_added _ _ _ _ _ U) as A. cbn in A. rewrite app_nil_r in A. congruence.
Qed.
Print Assumptions list_freed.

Definition itemA := mkItem (Some 7%Z) 100 1.
Definition itemB := mkItem (Some 8%Z) 200 2.
Definition listOps := [Init 2; Add itemA; Add itemB; Get 1; Release; Add itemB; Get 0; Close; Close].
Example list_example : usesAll Closed listOps Closed [itemA; itemB; itemB] [None; None; None; Some 200; None; None; Some 200; None; None]%Z /\
  added listOps = [itemA; itemB; itemB] /\
  option_map (fun '(r, w) => (r, released w, blocks w)) (performAll listOps closed0) = Some ([None; None; None; Some 200; None; None; Some 200; None; None]%Z, [itemA; itemB; itemB], [None]).
Proof.
  split; [|split; reflexivity].
  change [itemA; itemB; itemB] with ([] ++ [] ++ [] ++ [] ++ [itemA; itemB] ++ [] ++ [] ++ [itemB] ++ [] ++ []).
  eapply uses_more; [apply uses_init; lia|]. eapply uses_more; [apply uses_add; cbn; [lia|discriminate]|]. eapply uses_more; [apply uses_add; cbn; [lia|discriminate]|].
  eapply uses_more; [apply (uses_get 2 _ 1 itemB); [lia|reflexivity]|]. eapply uses_more; [apply uses_release|].
  eapply uses_more; [apply uses_add; cbn; [lia|discriminate]|]. eapply uses_more; [apply (uses_get 2 _ 0 itemB); [lia|reflexivity]|].
  eapply uses_more; [apply uses_close|]. eapply uses_more; [apply uses_close_closed|]. constructor.
Qed.

(* Refuted: ListInit that fails leaves the count what it was in memory that was never
   set, so freeing the list is undefined *)
Theorem list_failed_init_refuted : forall c w, (0 < count (list_ w))%Z -> ListFree (snd (ListInit false c w)) = None.
Proof.
  intros c w H. unfold ListFree, ListRelease. cbn [ListInit snd list_ count].
  destruct (Z.to_nat (count (list_ w))) as [|n] eqn:E; [lia|]. reflexivity.
Qed.
Print Assumptions list_failed_init_refuted.
Example list_failed_init_example : (0 < count (list_ (mkWorld (mkList (Some 3%nat) 9 5) [] [])))%Z /\ ListFree (snd (ListInit false 2 (mkWorld (mkList (Some 3) 9 5) [] []))) = None.
Proof. split; [cbn; lia|reflexivity]. Qed.

(* Refuted: ListReset, or ListInit of a list in use, loses the items and the memory *)
Theorem list_reset_refuted :
  (exists w, performAll [Init 1; Add itemA; Reset; Close] closed0 = Some ([None; None; None; None], w) /\ released w = [] /\ length (liveBlocks (blocks w)) = 1) /\
  (exists w, performAll [Init 1; Add itemA; Init 1; Close] closed0 = Some ([None; None; None; None], w) /\ released w = [] /\ length (liveBlocks (blocks w)) = 1).
Proof. split; eexists; (split; [vm_compute; reflexivity|split; reflexivity]). Qed.
Print Assumptions list_reset_refuted.

(* C75: whatever sizes are asked for, and whichever allocations fail, the memory given
   is large enough, the block before it is freed, none is freed twice *)
Theorem data_malloc : forall calls n ok d, Forall (fun c => 0 < fst c < 2 ^ 32)%Z calls -> (0 < n < 2 ^ 32)%Z ->
  exists ps p s, mallocs (calls ++ [(n, ok)]) (DataReset d, []) = Some (ps ++ [p], s) /\
    match p with
    | Some b => exists size, nth_error (snd s) b = Some (Some size) /\ (n <= size)%Z /\ liveBlocks (snd s) = [size] /\ ptr (fst s) = Some b
    | None => ok = false /\ liveBlocks (snd s) = []
    end.
Proof.
  intros calls n ok d F Hn.
  assert (O : owns (DataReset d, [])) by (left; cbn; auto). revert O. generalize (DataReset d, @nil (option Z)).
  induction calls as [|(m, okm) calls IH]; intros s O; cbn [app mallocs].
  - destruct (malloc_ok ok n s O Hn) as (p & s' & E & _ & P). rewrite E. exists [], p, s'. split; [reflexivity|exact P].
  - inversion_clear F as [|? ? Hm F']. cbn in Hm. destruct (malloc_ok okm m s O Hm) as (q & s' & E & O' & _). rewrite E.
    destruct (IH F' s' O') as (ps & p & s2 & E2 & P). rewrite E2. exists (q :: ps), p, s2. split; [reflexivity|exact P].
Qed.
Print Assumptions data_malloc.
Example data_example : Forall (fun c => 0 < fst c < 2 ^ 32)%Z [(10, true); (5, true); (20, false)]%Z /\
  mallocs [(10, true); (5, true); (20, false); (30, true)]%Z (mkData None 0 0, []) = Some ([Some 0; Some 0; None; Some 1], (mkData (Some 1) 30 0, [None; Some 30%Z])).
Proof. split; [repeat constructor|reflexivity]. Qed.

(* Refuted: 0 bytes, or a size that is 0 in 32 bits: the block is forgotten by the
   next call *)
Theorem data_malloc_refuted :
  (exists s, mallocs [(0, true); (10, true)]%Z (mkData None 0 0, []) = Some ([Some 0; Some 1], s) /\ length (liveBlocks (snd s)) = 2) /\
  (exists s, mallocs [(2 ^ 32, true); (10, true)]%Z (mkData None 0 0, []) = Some ([Some 0; Some 1], s) /\ length (liveBlocks (snd s)) = 2).
Proof. split; eexists; (split; [vm_compute; reflexivity|reflexivity]). Qed.
Print Assumptions data_malloc_refuted.
