(** Property theorems C70: the logo at the top of the files. *)
From Coq Require Import String Ascii List NArith.
From Verif.Model Require Import Logo.
From Verif.Spec Require Import TxtSpec LogoSpec.
From Verif.Proofs Require Import LogoProofs.
Import ListNotations.

(** Every line begins with the comment. *)
Theorem C70_comment : forall info line_length flat comment, Forall one_line info -> one_line (comment_of comment) ->
  Forall (starts (comment_of comment)) (lines (logo info line_length flat comment)).
Proof. exact logo_starts. Qed.
Print Assumptions C70_comment.
(** With [comment=True] it can stand in a text file: nothing but comments (what C42 assumes of it). *)
Theorem C70_text_file : forall info line_length flat, Forall one_line info ->
  let ls := map to_string (lines (logo info line_length flat (CBool true))) in
  ls <> [] /\ Forall (fun l => exists t, l = String "#" t /\ all_chars (fun c => c <> ascii_of_nat 10) t) ls.
Proof. exact logo_comments. Qed.
Print Assumptions C70_text_file.
Theorem C70_count : forall info line_length flat comment, Forall one_line info -> one_line (comment_of comment) ->
  List.length (lines (logo info line_length flat comment))
    = ((if flat then 5 else 6) + match info with [] => 0 | _ => Nat.max 7 (List.length info) end)%nat.
Proof. exact logo_count. Qed.
Print Assumptions C70_count.
(** Lines of equal length, at least as wide as the picture. *)
Theorem C70_length : forall info line_length flat comment, Forall one_line info -> one_line (comment_of comment) ->
  Forall (fun x => (List.length x <= width flat - 12)%nat) info ->
  Forall (fun l => List.length l = (List.length (comment_of comment) + match line_length with None => width flat | Some n => Nat.max n (width flat) end)%nat)
    (lines (logo info line_length flat comment)).
Proof. exact logo_length. Qed.
Print Assumptions C70_length.

(** The full claim is C70_order_partial without the bound on the number of lines; C70_order_refuted shows that it fails. *)
Theorem C70_order_partial : forall info line_length flat comment, Forall one_line info -> one_line (comment_of comment) ->
  (List.length info <= 8)%nat -> shown_in_order info (lines (logo info line_length flat comment)).
Proof. exact logo_shown. Qed.
Print Assumptions C70_order_partial.
Theorem C70_order_refuted : exists info, Forall one_line info /\ Forall (fun x => (List.length x <= 58)%nat) info /\
  ~ shown_in_order info (lines (logo info None false CNone)).
Proof. exact shown_refuted. Qed.
Print Assumptions C70_order_refuted.
(** [comment=False] is not "no comment": every line begins with "False". *)
Theorem C70_false_refuted : exists info, Forall one_line info /\ logo info None false (CBool false) <> logo info None false CNone /\
  Forall (starts [70; 97; 108; 115; 101]%N) (lines (logo info None false (CBool false))).
Proof. exact false_refuted. Qed.
Print Assumptions C70_false_refuted.

Example C70_case : Forall one_line [[97; 98]; [99]]%N /\ one_line (comment_of (CStr [33]%N)) /\ Forall (fun x => (List.length x <= width false - 12)%nat) [[97; 98]; [99]]%N.
Proof. exact logo_case. Qed.
