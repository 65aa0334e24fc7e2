(** C108, C109, C125: the reader and the printer of the preprocessor. *)
From Coq Require Import String.
From Verif Require Import Base Ppr_model Ppr_spec.
From Verif Require Ppr_proofs Ppr2_proofs Ppr3_proofs Ppr4_proofs.
Local Open Scope Z_scope.

(** * C108: what the preprocessor writes is read back as it was *)

(** False in general: a label moves, an empty set is lost, a tail swallows a parenthesis. *)
Theorem C108_round_trip_refuted :
  exists a b c a' b' c',
    (reads (print_root a) a' /\ a' <> a) /\ (reads (print_root b) b' /\ b' <> b) /\ (reads (print_root c) c' /\ c' <> c).
Proof. do 6 eexists. exact Ppr3_proofs.round_trip_refuted. Qed.
Print Assumptions C108_round_trip_refuted.

(** True of all structures, nested to any depth, without these. *)
Theorem C108_round_trip_partial : forall l, Forall top_fine l -> reads (print_root l) l.
Proof. exact Ppr2_proofs.read_print. Qed.
Print Assumptions C108_round_trip_partial.

(** A text is read in one way only. *)
Theorem C108_one_partial : forall t l l', reads t l -> reads t l' -> l = l'.
Proof. exact Ppr3_proofs.reads_one. Qed.
Print Assumptions C108_one_partial.

Definition sample : list rs :=
  [Rs Structure (txt "mk.val") (txt "x:") (txt ":y") [atom (txt "3.5"); Rs Set_ [] [] [] [Rs Set_ [] [] [] []; atom (txt "a"); Rs Set_ [] [] [] []]; Rs Development [] [] [] [atom (txt "b")]];
   atom (34 :: txt "one (" ++ [34]); Rs Structure [] [] [] [Rs Structure (txt "c") [] [] []]].
Ltac plain_word := lazymatch goal with |- word _ => vm_compute; repeat (apply word_char; [split; [lia|cbn; intuition discriminate]|]); try apply word_nil end.
Example C108_case : Forall top_fine sample /\ read 60 (print_root sample) = Structures sample.
Proof.
  split; [|vm_compute; reflexivity]. unfold sample. repeat constructor; try (cbv; discriminate).
  - exists Structure, (txt "mk.val"), (txt "x:"), (txt ":y"), [atom (txt "3.5"); Rs Set_ [] [] [] [Rs Set_ [] [] [] []; atom (txt "a"); Rs Set_ [] [] [] []]; Rs Development [] [] [] [atom (txt "b")]].
    split; [reflexivity|]. split; [|split; [right; exists (txt "y"); split; [reflexivity|repeat constructor]|intros _; left; reflexivity]].
    cbn [fine fold_right kind_of]. repeat split; try (left; reflexivity); try discriminate; try plain_word.
    right. exists (txt "x"). split; [reflexivity|]. plain_word.
  - exists Atom, (34 :: txt "one (" ++ [34]), [], [], []. split; [reflexivity|]. split; [|split; [left; reflexivity|intros H; congruence]].
    split; [|repeat split; discriminate]. apply (word_string (txt "one (") []); [cbn; intuition discriminate..|constructor].
  - exists Structure, [], [], [], [Rs Structure (txt "c") [] [] []]. split; [reflexivity|]. split; [|split; [left; reflexivity|intros H; congruence]].
    cbn [fine fold_right kind_of]. repeat split; try (left; reflexivity); try plain_word; try discriminate.
    intros _ a [<-|[]]. discriminate.
Qed.

(** * C109: reading ends *)

(** False in general: a string that is not closed before the end of the file, or a last
    line made of a space, and the reader never stops. *)
Theorem C109_reading_ends_refuted : never_read [34] /\ never_read [10; 32].
Proof. exact (conj Ppr_proofs.open_string_stuck Ppr_proofs.trailing_space_stuck). Qed.
Print Assumptions C109_reading_ends_refuted.

(** True of all texts that end with a newline, whatever they are made of. *)
Theorem C109_reading_ends_partial : forall t fuel, (List.length t + 3 <= fuel)%nat -> read fuel (t ++ [10]) <> Unfinished.
Proof. exact Ppr_proofs.read_ends. Qed.
Print Assumptions C109_reading_ends_partial.

(** More steps do not change the outcome. *)
Theorem C109_outcome_partial : forall f f' t, (f <= f')%nat -> read f t <> Unfinished -> read f' t = read f t.
Proof. exact Ppr3_proofs.read_more. Qed.
Print Assumptions C109_outcome_partial.

Example C109_case : read 20 (txt "(a" ++ [10]) = Structures [Rs Structure (txt "a") [] [] []] /\ read 20 (txt "a" ++ [9; 10]) = Refused.
Proof. split; vm_compute; reflexivity. Qed.

(** * C125: comments are not code, and the whole text is read *)

(** False in general: after a comment that ends in two dots, the next line is a comment as well. *)
Theorem C125_comments_refuted : reads (txt ";.." ++ [10] ++ txt "(a)" ++ [10] ++ txt "(b)" ++ [10]) [Rs Structure (txt "b") [] [] []].
Proof. exact Ppr4_proofs.dots_refuted. Qed.
Print Assumptions C125_comments_refuted.

(** True of all lines of code, with comments between them and at their ends, that do not end so. *)
Theorem C125_comments_partial : forall l, Forall line_ok l -> reads (List.concat (map line_text l)) (List.concat (map line_code l)).
Proof. exact Ppr4_proofs.comments_read. Qed.
Print Assumptions C125_comments_partial.

(** A closing bracket that was not opened: the text is refused, whatever follows it. *)
Theorem C125_whole_partial : forall l d e t, Forall line_ok l -> d = 41 \/ d = 125 \/ d = 93 -> e <> 58 ->
  exists n, forall fuel, (n <= fuel)%nat -> read fuel (List.concat (map line_text l) ++ d :: e :: t) = Refused.
Proof. exact Ppr4_proofs.superfluous_refused. Qed.
Print Assumptions C125_whole_partial.

Definition noted : list line := [Remark (txt " (b) [ .. ! "); Noted (Rs Structure (txt "c") [] [] [atom (txt "d")]) (34 :: txt "e"); Code (Rs Structure (txt "f") [] [] [])].
Example C125_case : Forall line_ok noted /\ List.concat (map line_code noted) = [Rs Structure (txt "c") [] [] [atom (txt "d")]; Rs Structure (txt "f") [] [] []].
Proof.
  split; [|reflexivity].
  assert (forall w args, (w = txt "c" /\ args = [atom (txt "d")] \/ w = txt "f" /\ args = []) -> top_fine (Rs Structure w [] [] args)) as T.
  { intros w args H. split; [unfold bare_empty_set; discriminate|].
    exists Structure, w, [], [], args. split; [reflexivity|]. split; [|split; [left; reflexivity|intros X; congruence]].
    destruct H as [[-> ->]|[-> ->]]; cbn [fine fold_right kind_of]; repeat split; try (left; reflexivity); try discriminate; try plain_word. }
  assert (forall b, Forall (fun c => c <> 10 /\ c <> 13) b -> last b 0 <> 46 -> comment b) as C.
  { intros b F L. rewrite Forall_forall in F. split; [|split]; try (intros I; destruct (F _ I); congruence).
    intros b' ->. apply L. change [46; 46] with ([46] ++ [46]). rewrite app_assoc, last_last. reflexivity. }
  repeat constructor; try discriminate; try (apply T; auto); apply C; try (vm_compute; discriminate); vm_compute; repeat constructor; discriminate.
Qed.
