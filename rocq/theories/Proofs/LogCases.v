(** Files with faults and the messages of the verifier on them. *)
From Coq Require Import List String Ascii QArith Qcanon ZArith Lia.
From Verif.Base Require Import Scalar Linear3 QcLit PyDict PyString PyText.
From Verif.Model Require Import MatrixParam Hamiltonian TxtVerify TxtRead VerifyLog.
From Verif.Spec Require Import TxtSpec TxtFormat VerifyLogSpec.
From Verif.Proofs Require Import TextGlue TextWitness TextCases TextCases2 LogCut LogFinal.
Import ListNotations.
Local Open Scope string_scope.

Definition logged_q (f : list string) : list string := messages (isfloat QX) (isint QX) (x_float QX) f.
Definition s_two (w : string) : list string :=
  ["Exchange meV"; line_sub; "Cr1 Cr2 1 0 0"; "isotropic " ++ w; line_sub; "Cr1 Cr3 0 1 0"; "isotropic 3"; "iso 4"; line_sub].
Definition two_faults (w : string) : list string := join [s_cell; s_atoms; s_notation; s_two w].
Definition no_names : list string := join [s_cell; ["Atoms"; "r1 r2 r3"; "0 0 0"]].
Definition one_line : list string := "# a comment" :: join [s_cell; ["Atoms"]].

Lemma log_full : logged_q full = [].
Proof. vm_compute. reflexivity. Qed.
Lemma log_two : logged_q (two_faults "J1") = ["Line 20, block 1: expected a number, got ""j1"""].
Proof. vm_compute. reflexivity. Qed.
Lemma log_two_mended : logged_q (two_faults "1") =
  ["Line 22, block 2: atom name Cr3 is not present in the atoms section"; "Line 22: found more than one ""iso"" entry. Check the bond on lines 22-24"].
Proof. vm_compute. reflexivity. Qed.
Lemma log_no_names : logged_q no_names =
  ["Line 7: expected to have the atom's name in the data header, got none"; "Line 8-8: expected to have unique atom's names, got duplicates. 0 unique names found."].
Proof. vm_compute. reflexivity. Qed.
Lemma log_one_line : logged_q one_line =
  ["Line 7: expected to have atoms section with at least 3 lines, got 1 lines"; "Line 7: expected to have atoms section with at least 3 lines, got 1 lines"].
Proof. vm_compute. reflexivity. Qed.

Lemma stands_in content n t : stands content n t -> In (t, n) (kept content).
Proof. intros H. destruct (kept_numbered content) as ([_ K] & _). apply K. exact H. Qed.
Lemma block_off : exists (content : list string) (n b : nat) (w : string),
  In ("Line " ++ dec n ++ ", block " ++ dec b ++ ": expected a number, got """ ++ w ++ """") (logged_q content)
  /\ forall t, stands content n t -> nth_error (low t) (b - 1) <> Some w.
Proof.
  exists (two_faults "J1"), 20%nat, 1%nat, "j1". split; [rewrite log_two; left; reflexivity|]. intros t H. apply stands_in in H.
  assert (E : t = "isotropic J1").
  { vm_compute in H. repeat (destruct H as [H|H]; [inversion H; try reflexivity|]). destruct H. }
  subst t. vm_compute. discriminate.
Qed.
Lemma not_complete : exists (p q : list string) (l l' m : string) (n : nat),
  In m (logged_q (p ++ l' :: q)) /\ ~ In m (logged_q (p ++ l :: q)) /\ logged_q (p ++ l :: q) <> []
  /\ names_line m n /\ (List.length p + 1 < n)%nat.
Proof.
  exists (firstn 19 (two_faults "1")), (skipn 20 (two_faults "1")), "isotropic J1", "isotropic 1", "Line 22, block 2: atom name Cr3 is not present in the atoms section", 22%nat.
  change (firstn 19 (two_faults "1") ++ "isotropic 1" :: skipn 20 (two_faults "1"))%list with (two_faults "1").
  change (firstn 19 (two_faults "1") ++ "isotropic J1" :: skipn 20 (two_faults "1"))%list with (two_faults "J1").
  rewrite log_two, log_two_mended. split; [left; reflexivity|]. split; [intros [H|[]]; discriminate|]. split; [discriminate|]. split; [|cbn; lia].
  exists ","%char. eexists. split; [vm_compute; reflexivity|simpl; tauto].
Qed.
Lemma one_duplicate : exists (content : list string) (n u : nat) m, m = "Line " ++ dec n ++ "-" ++ dec n ++ ": expected to have unique atom's names, got duplicates. " ++ dec u ++ " unique names found."
  /\ In m (logged_q content).
Proof. exists no_names, 8%nat, 0%nat. eexists. split; [reflexivity|]. rewrite log_no_names. right. left. reflexivity. Qed.
Lemma logged_twice : exists content, ~ NoDup (logged_q content).
Proof. exists one_line. rewrite log_one_line. intros H. inversion H as [|? ? N _]. apply N. left. reflexivity. Qed.
