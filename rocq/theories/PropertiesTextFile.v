(* C50: textfile.c *)
From Coq Require Import String Ascii.
From Verif Require Import TextFileProofs.
Open Scope list_scope.

(* what is not negative is a limit on the strings given to callback *)
Definition upTo (limit : Z) (l : list (list Z)) : list (list Z) := if Z.ltb limit 0 then l else firstn (Z.to_nat limit) l.

(* every line that is not empty is delivered, in order and once, if no text from the
   beginning or from after an end of line to the end has just the length of the
   buffer, or if the file does not end with an end of line *)
Theorem text_file_lines : forall buf file, file <> [] -> ~ In 0%Z file -> fits (length buf) file ->
  (unaligned (length buf) file \/ ~ endsInEol file) ->
  exists out, linesOf file (nonEmpty out) /\ (singleEols file -> linesOf file out) /\
    forall limit, TextFileIterateWithLimit buf limit file = Some (upTo limit out).
Proof.
  intros buf file N0 Nz Hf Hu.
  assert (L0 : 0 < length buf) by exact (Hf [] [] file eq_refl (Forall_nil _)).
  destruct (deliv_exists (length buf) file Hf Hu (length file) [] [] file) as (ds & Hd & E); [lia|reflexivity|now left|exact L0|exact N0|intros ->; now destruct N0|].
  exists ds. cbn [app] in E. split; [rewrite E; apply lines_linesOf|]. split.
  - intros S. apply (deliv_single _ _ _ _ Hd) in S. rewrite <- S, E. apply lines_linesOf.
  - intros limit. pose proof (readLoop_ok (length buf) (S (length file)) [] file ds Hd buf 0 0 limit [] eq_refl L0 Nz ltac:(lia)) as R.
    cbn [app length] in R. unfold limited in R. rewrite Nat.sub_0_r in R. exact R.
Qed.
Print Assumptions text_file_lines.
(* there is one list of lines *)
Theorem lines_unique : forall text l1 l2, linesOf text l1 -> linesOf text l2 -> l1 = l2.
Proof. intros text l1 l2 A B. apply linesOf_lines in A, B. congruence. Qed.
Print Assumptions lines_unique.
(* so always with a buffer that is longer than the file *)
Theorem text_file_large_buffer : forall buf file, file <> [] -> ~ In 0%Z file -> length file < length buf ->
  exists out, TextFileIterate buf file = Some out /\ linesOf file (nonEmpty out) /\ (singleEols file -> linesOf file out).
Proof.
  intros buf file N0 Nz L. destruct (text_file_lines buf file N0 Nz) as (out & A & B & C).
  - intros a line b -> _. rewrite !app_length in L. lia.
  - left. intros a b -> _. rewrite app_length in L. lia.
  - exists out. split; [apply (C (-1)%Z)|]. now split.
Qed.
Print Assumptions text_file_large_buffer.

Definition text (s : string) : list Z := map (fun a => Z.of_nat (nat_of_ascii a)) (list_ascii_of_string s).
Definition nl : list Z := [10%Z].
Definition crlf : list Z := [13%Z; 10%Z].
Definition buffer (n : nat) : list Z := repeat 65%Z n.
Definition sample : list Z := text "aa" ++ nl ++ text "bbbb" ++ nl ++ text "c" ++ nl.
Example text_file_example :
  TextFileIterate (buffer 8) sample = Some [text "aa"; text "bbbb"; text "c"] /\
  TextFileIterateWithLimit (buffer 8) 2 sample = Some [text "aa"; text "bbbb"] /\
  TextFileIterate (buffer 5) (text "aa" ++ nl ++ text "bbbb" ++ nl ++ text "c") = Some [text "aa"; text "bbbb"; text "c"] /\
  fits 8 sample /\ unaligned 8 sample /\ linesOf sample [text "aa"; text "bbbb"; text "c"].
Proof.
  do 3 (split; [vm_compute; reflexivity|]). split; [|split].
  - intros a line b E F. destruct (Nat.lt_ge_cases (length line) 8) as [|L]; [assumption|exfalso].
    assert (LE : length a + (length line + length b) = 10) by (rewrite <- !app_length, <- E; reflexivity).
    do 3 (destruct a as [|? a]; [do 8 (destruct line as [|? line]; [cbn in L; lia|]); vm_compute in E; injection E; intros; subst;
      repeat (apply Forall_cons_iff in F; destruct F as (? & F)); unfold eol in *; intuition congruence|]). cbn in LE. lia.
  - intros a b E A L. vm_compute in E. assert (LA : length a = 2) by (apply (f_equal (@length Z)) in E; rewrite app_length, L in E; cbn in E; lia).
    do 2 (destruct a as [|? a]; [discriminate LA|]). destruct a; [|discriminate LA]. cbn in E. injection E; intros; subst.
    destruct A as [A|(a' & c & A & C)]; [discriminate A|]. do 2 (destruct a' as [|? a']; [try discriminate A|]).
    + injection A; intros; subst. destruct C; discriminate.
    + apply (f_equal (@length Z)) in A. cbn in A. rewrite app_length in A. cbn in A. lia.
  - apply (lines_more (text "aa") 10 (text "bbbb" ++ nl ++ text "c" ++ nl)); [discriminate|repeat constructor; intros [H|H]; discriminate|now right|].
    apply (lines_more (text "bbbb") 10 (text "c" ++ nl)); [discriminate|repeat constructor; intros [H|H]; discriminate|now right|].
    apply (lines_more (text "c") 10 []); [discriminate|repeat constructor; intros [H|H]; discriminate|now right|]. constructor.
Qed.

(* refuted without: the last line is lost; the byte before the buffer is read; a
   line end that is cut in two gives an empty line, which counts for the limit; the
   empty file *)
Theorem text_file_lost_refuted : fits 7 sample /\ TextFileIterate (buffer 7) sample = Some [text "aa"; text "bbbb"].
Proof.
  split; [|vm_compute; reflexivity]. intros a line b E F. destruct (Nat.lt_ge_cases (length line) 7) as [|L]; [assumption|exfalso].
  assert (LE : length a + (length line + length b) = 10) by (rewrite <- !app_length, <- E; reflexivity).
  do 4 (destruct a as [|? a]; [do 7 (destruct line as [|? line]; [cbn in L; lia|]); vm_compute in E; injection E; intros; subst;
    repeat (apply Forall_cons_iff in F; destruct F as (? & F)); unfold eol in *; intuition congruence|]). cbn in LE. lia.
Qed.
Print Assumptions text_file_lost_refuted.
Theorem text_file_read_before_refuted : TextFileIterate (buffer 3) (text "aa" ++ nl) = None /\ TextFileIterate (buffer 3) [] = None.
Proof. vm_compute. split; reflexivity. Qed.
Print Assumptions text_file_read_before_refuted.
Theorem text_file_empty_line_refuted :
  TextFileIterate (buffer 3) (text "aa" ++ crlf ++ text "b") = Some [text "aa"; []; text "b"] /\
  TextFileIterateWithLimit (buffer 3) 2 (text "aa" ++ crlf ++ text "b") = Some [text "aa"; []].
Proof. vm_compute. repeat split. Qed.
Print Assumptions text_file_empty_line_refuted.
