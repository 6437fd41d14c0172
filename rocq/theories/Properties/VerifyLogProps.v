(** C83: messages of the text file verifier. Vocabulary: Spec/VerifyLogSpec.v; model: Model/VerifyLog.v. *)
From Coq Require Import List String Ascii QArith Qcanon ZArith.
From Verif.Base Require Import Scalar Linear3 QcLit PyDict PyString PyText.
From Verif.Model Require Import MatrixParam Hamiltonian TxtVerify TxtRead VerifyLog.
From Verif.Spec Require Import TxtSpec TxtFormat VerifyLogSpec.
From Verif.Proofs Require Import TextGlue TextWitness TextCases TextCases2 LogAdequate LogCut LogFinal LogSays LogCases.
Import ListNotations.
Local Open Scope string_scope.

(** The model with messages decides as the model without does, and raises what that raises. *)
Theorem C83_verdict : forall (F : Type) (is_float is_integer : string -> bool) (SF : Scalar F) (to_float : string -> option F) (ls : list line),
  snd (log_file is_float is_integer to_float ls) =
  match verify_file is_float is_integer to_float (map fst ls) with Ret (_, e) => Ret e | Raise x => Raise x end.
Proof. intros. apply snd_file. Qed.
Print Assumptions C83_verdict.

(** A file is accepted exactly when nothing is logged as an error. *)
Theorem C83_reported : forall (F : Type) (SF : Scalar F) (X : externals F) (content : list string),
  accepts X content <-> messages (isfloat X) (isint X) (x_float X) content = [].
Proof. exact @reported. Qed.
Print Assumptions C83_reported.

(** What a message says holds of the file. *)
Theorem C83_truth : forall (F : Type) (SF : Scalar F) (X : externals F) (content : list string),
  exists L secs, numbered content L /\ sections L secs
  /\ forall m, In m (messages (isfloat X) (isint X) (x_float X) content) -> exists c, m = text c /\ tells_truth X L secs c.
Proof. exact @truth. Qed.
Print Assumptions C83_truth.

(** The text contains what the message is about; numbers are written so that they can be told apart. *)
Theorem C83_says : forall (c : complaint) (w : string), In w (mentions c) -> contains (text c) w.
Proof. exact says. Qed.
Print Assumptions C83_says.
Theorem C83_decimal : forall n m : nat, dec n = dec m -> n = m.
Proof. exact dec_inj. Qed.
Print Assumptions C83_decimal.

(** The line named stands in the file. *)
Theorem C83_lines : forall (F : Type) (SF : Scalar F) (X : externals F) (content : list string) (m : string),
  In m (messages (isfloat X) (isint X) (x_float X) content) -> nameless m \/ exists n t, names_line m n /\ stands content n t.
Proof. exact @lines. Qed.
Print Assumptions C83_lines.

(** ** What does not hold *)
(** The block named does not hold the word quoted. *)
Theorem C83_block_refuted : exists (content : list string) (n b : nat) (w : string),
  In ("Line " ++ dec n ++ ", block " ++ dec b ++ ": expected a number, got """ ++ w ++ """") (messages (isfloat QX) (isint QX) (x_float QX) content)
  /\ forall t, stands content n t -> nth_error (low t) (b - 1) <> Some w.
Proof. exact block_off. Qed.
Print Assumptions C83_block_refuted.

(** Mending one line brings up a fault of a later line of which nothing was said. *)
Theorem C83_complete_refuted : exists (p q : list string) (l l' m : string) (n : nat),
  In m (messages (isfloat QX) (isint QX) (x_float QX) (p ++ l' :: q)) /\ ~ In m (messages (isfloat QX) (isint QX) (x_float QX) (p ++ l :: q))
  /\ messages (isfloat QX) (isint QX) (x_float QX) (p ++ l :: q) <> [] /\ names_line m n /\ (List.length p + 1 < n)%nat.
Proof. exact not_complete. Qed.
Print Assumptions C83_complete_refuted.

(** Duplicate names are reported within a single line. *)
Theorem C83_duplicates_refuted : exists (content : list string) (n u : nat) m,
  m = "Line " ++ dec n ++ "-" ++ dec n ++ ": expected to have unique atom's names, got duplicates. " ++ dec u ++ " unique names found."
  /\ In m (messages (isfloat QX) (isint QX) (x_float QX) content).
Proof. exact one_duplicate. Qed.
Print Assumptions C83_duplicates_refuted.

(** The same message may be logged twice. *)
Theorem C83_once_refuted : exists content, ~ NoDup (messages (isfloat QX) (isint QX) (x_float QX) content).
Proof. exact logged_twice. Qed.
Print Assumptions C83_once_refuted.

Example C83_case : messages (isfloat QX) (isint QX) (x_float QX) full = []
  /\ messages (isfloat QX) (isint QX) (x_float QX) (two_faults "1") =
     ["Line 22, block 2: atom name Cr3 is not present in the atoms section"; "Line 22: found more than one ""iso"" entry. Check the bond on lines 22-24"].
Proof. exact (conj log_full log_two_mended). Qed.
