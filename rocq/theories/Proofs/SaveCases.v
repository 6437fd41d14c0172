(** A disk with a model in a directory and one beside. *)
From Coq Require Import String Ascii List Bool Arith.
From Verif.Base Require Import Scalar QcLit PyDict PyString PyText.
From Verif.Model Require Import Hamiltonian TxtVerify TxtRead SaveFiltered.
From Verif.Spec Require Import TxtSpec SaveFilteredSpec.
From Verif.Proofs Require Import TextBasics TextWitness TextCases TextCases2 SaveProofs.
Import ListNotations.
Local Open Scope string_scope.

Definition model_text : string := String.concat (String CR (String LF "")) ("# a model" :: map (fun l => "  " ++ l ++ " # c") full).
Definition sample_disk : disk := mkDisk [("run/model.txt", model_text); ("model.txt", model_text)] (fun p => if string_dec p "run" then true else false).
Lemma model_shows : file_shows (readlines model_text) full.
Proof. apply file_shows_by. vm_compute. reflexivity. Qed.
Lemma model_loads : exists h, load_txt QX (readlines model_text) = Ret h.
Proof. destruct full_loads as [h H]. exists h. rewrite <- H. apply (same_shown QX _ _ full); [exact model_shows|]. apply file_shows_by. vm_compute. reflexivity. Qed.
Lemma sample_hyps : dget (files sample_disk) "model.txt" = Some model_text /\ can_write sample_disk (copy_name "model.txt") = true /\ file_shows (readlines model_text) full.
Proof. split; [reflexivity|]. split; [vm_compute; reflexivity|exact model_shows]. Qed.
Lemma directory_lost : exists d f h, load_on QX (String LF "") d f false = (d, Ret h) /\ load_on QX (String LF "") d f true = (d, Raise OSError) /\ dir_exists d f = true.
Proof.
  destruct model_loads as [h H]. exists sample_disk, "run/model.txt", h. split; [|split].
  - erewrite load_plain by reflexivity. rewrite H. reflexivity.
  - eapply unsaved; vm_compute; reflexivity.
  - vm_compute. reflexivity.
Qed.
