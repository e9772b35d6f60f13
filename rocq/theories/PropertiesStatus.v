(* The properties of the messages of status codes and exceptions (status.c, exceptionsc.c) *)
From Verif Require Import StatusProofs.
Open Scope Z_scope.

(* C84, the message of a status is its text with the file name in it, whole *)
Theorem status_message : forall s m fileName malloc2, In (s, m) messages ->
  exists r, StatusGetMessage s fileName true malloc2 = Some r /\ filled m (match fileName with Some n => n | None => text "null" end) r.
Proof.
  intros s m fileName malloc2 I. unfold StatusGetMessage. rewrite (findMessage_in _ _ _ messages_nodup I). set (name := match fileName with Some n => n | None => text "null" end).
  destruct (good_cases m (messages_good s m I)) as [N|(a & b & Na & Nb & ->)].
  - exists m. split; [|left; auto]. rewrite strstr_none by exact N. apply Snprintf_fits; [now apply printf_plain|lia].
  - exists (a ++ name ++ b). split; [|right; exists a, b; auto]. rewrite strstr_some. apply Snprintf_fits.
    + rewrite printf_app by exact Na. cbn [app]. rewrite printf_s, printf_plain by exact Nb. reflexivity.
    + rewrite !app_length. cbn [List.length]. lia.
Qed.
Print Assumptions status_message.
(* every status of the enum has one message, but for FILE_BUSY and NOT_SET *)
Theorem status_known : NoDup (map fst messages) /\ forall s, In s (map fst messages) <-> 0 <= s <= 32 /\ s <> 5 /\ s <> 7.
Proof.
  split; [exact messages_nodup|]. intros s. split.
  - intros I. assert (H : forallb (fun s => (0 <=? s) && (s <=? 32) && negb (s =? 5) && negb (s =? 7)) (map fst messages) = true) by (vm_compute; reflexivity). rewrite forallb_forall in H. specialize (H s I). lia.
  - intros (R & N1 & N2). assert (H : forallb (fun s => (s =? 5) || (s =? 7) || existsb (Z.eqb s) (map fst messages)) (map Z.of_nat (seq 0 33)) = true) by (vm_compute; reflexivity).
    rewrite forallb_forall in H. assert (I : In s (map Z.of_nat (seq 0 33))) by (apply in_map_iff; exists (Z.to_nat s); split; [lia|apply in_seq; lia]). specialize (H s I).
    apply orb_true_iff in H. destruct H as [H|H]; [lia|]. apply existsb_exists in H. destruct H as (y & Iy & Q). apply Z.eqb_eq in Q. now subst y.
Qed.
Print Assumptions status_known.
Example status_message_example : StatusGetMessage 29 (Some (text "a.dat")) true true = Some (text "A seek operation on a file ('a.dat') failed.") /\
  StatusGetMessage 30 None true true = Some (text "A read operation on a file ('null') failed.") /\ StatusGetMessage 0 (Some (text "%s")) true true = Some (text "The operation was successful.").
Proof. vm_compute. auto. Qed.

(* C84, any other status, or lack of memory, gives the number if it has at most 7
   characters *)
Theorem status_default : forall s fileName malloc1, ~ In s (map fst messages) \/ malloc1 = false -> - 10 ^ 6 < s < 10 ^ 7 ->
  exists d, isDecimal d s /\ StatusGetMessage s fileName malloc1 true = Some (text "Status code " ++ d ++ text " does not have any message text.").
Proof.
  intros s fileName malloc1 N R. exists (decimal s). split; [apply decimal_is|].
  assert (D : defaultFor s true = Some (text "Status code " ++ decimal s ++ text " does not have any message text.")).
  { unfold defaultFor. apply Snprintf_fits.
    - change defaultMessage with (text "Status code " ++ 37 :: 105 :: text " does not have any message text."). rewrite printf_app by (vm_compute; intuition discriminate). rewrite printf_i, printf_plain by (vm_compute; intuition discriminate). reflexivity.
    - assert (L : (List.length (decimal s) <= 7)%nat). { unfold decimal. destruct (Z.ltb_spec s 0); [cbn [List.length]; pose proof (digits_length (Z.abs s) 6 ltac:(lia) ltac:(lia)); lia|apply digits_length; lia]. }
      rewrite !app_length. change (List.length defaultMessage) with 46%nat. change (List.length (text "Status code ")) with 12%nat. change (List.length (text " does not have any message text.")) with 32%nat. lia. }
  unfold StatusGetMessage. destruct N as [N|M]; [rewrite findMessage_none by exact N; exact D|]. rewrite M. destruct (findMessage messages s); exact D.
Qed.
Print Assumptions status_default.
Example status_default_example : StatusGetMessage 5 None true true = Some (text "Status code 5 does not have any message text.") /\ StatusGetMessage 0 None false true = Some (text "Status code 0 does not have any message text.").
Proof. vm_compute. auto. Qed.
(* the end of the text is lost for longer numbers, and memory is not checked *)
Theorem status_default_refuted : StatusGetMessage 12345678 None true true = Some (text "Status code 12345678 does not have any message text") /\ forall s, StatusGetMessage s None false false = None.
Proof. split; [vm_compute; reflexivity|]. intros s. unfold StatusGetMessage. now destruct (findMessage messages s). Qed.
Print Assumptions status_default_refuted.

(* C84, the message of an exception is whole: the one of its status, the file, the
   function and the line *)
Theorem exception_message : forall e f g, file e = Some f -> func e = Some g -> - 2 ^ 31 <= line e < 2 ^ 31 ->
  forall m malloc2, StatusGetMessage (status e) None true malloc2 = Some m ->
  exists d, isDecimal d (line e) /\ ExceptionGetMessage e true malloc2 true =
    Some (text "Message:  " ++ m ++ [13; 10] ++ text "Source:   " ++ f ++ [13; 10] ++ text "Function: " ++ g ++ [13; 10] ++ text "Line:     " ++ d ++ [13; 10]).
Proof.
  intros e f g F G R m malloc2 M. exists (decimal (line e)). split; [apply decimal_is|]. unfold ExceptionGetMessage. rewrite M, F, G. apply Snprintf_fits.
  - change format with (text "Message:  " ++ 37 :: 115 :: ([13; 10] ++ text "Source:   ") ++ 37 :: 115 :: ([13; 10] ++ text "Function: ") ++ 37 :: 115 :: ([13; 10] ++ text "Line:     ") ++ 37 :: 100 :: [13; 10]).
    rewrite printf_app by (vm_compute; intuition discriminate). rewrite printf_s. rewrite printf_app by (vm_compute; intuition discriminate). rewrite printf_s. rewrite printf_app by (vm_compute; intuition discriminate). rewrite printf_s. rewrite printf_app by (vm_compute; intuition discriminate). rewrite printf_d.
    rewrite printf_plain by (vm_compute; intuition discriminate). cbn [option_map]. rewrite <- !app_assoc. reflexivity.
  - assert (L : (List.length (decimal (line e)) <= 11)%nat). { unfold decimal. destruct (Z.ltb_spec (line e) 0); [cbn [List.length]; pose proof (digits_length (Z.abs (line e)) 10 ltac:(lia) ltac:(lia)); lia|pose proof (digits_length (Z.abs (line e)) 10 ltac:(lia) ltac:(lia)); lia]. }
    rewrite !app_length. change (List.length format) with 56%nat. change (List.length (text "Message:  ")) with 10%nat. change (List.length (text "Source:   ")) with 10%nat. change (List.length (text "Function: ")) with 10%nat. change (List.length (text "Line:     ")) with 10%nat. cbn [List.length]. lia.
Qed.
Print Assumptions exception_message.
Example exception_message_example : ExceptionGetMessage (mkException 22 (Some (text "a.c")) (Some (text "f")) (-3)) true true true =
  Some (text "Message:  End of file." ++ [13; 10] ++ text "Source:   a.c" ++ [13; 10] ++ text "Function: f" ++ [13; 10] ++ text "Line:     -3" ++ [13; 10]).
Proof. vm_compute. reflexivity. Qed.
(* memory is not checked, nor that the file is set *)
Theorem exception_message_refuted : (forall e, ExceptionGetMessage e true true false = None) /\ ExceptionGetMessage (mkException 22 None (Some (text "f")) 1) true true true = None.
Proof.
  split; [|vm_compute; reflexivity]. intros e. unfold ExceptionGetMessage. destruct (StatusGetMessage (status e) None true true); [|reflexivity]. now destruct (file e), (func e).
Qed.
Print Assumptions exception_message_refuted.
