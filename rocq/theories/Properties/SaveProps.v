(** C84: filtered copies of text files. Vocabulary: Spec/TxtSpec.v, Spec/SaveFilteredSpec.v; model: Model/SaveFiltered.v. *)
From Coq Require Import String Ascii List Bool Arith.
From Verif.Base Require Import Scalar QcLit PyDict PyString PyText.
From Verif.Model Require Import Hamiltonian TxtVerify TxtRead SaveFiltered.
From Verif.Spec Require Import TxtSpec SaveFilteredSpec.
From Verif.Proofs Require Import TextBasics TextWitness TextCases TextCases2 SaveProofs SaveLines SaveCases.
Import ListNotations.
Local Open Scope string_scope.

(** Saving does not change what is loaded; the copy holds the texts shown, one per line; it loads as the file does;
    nothing else on the disk changes. *)
Theorem C84_copy : forall (F : Type) (SF : Scalar F) (X : externals F) (b : string), line_break b ->
  forall d f text ts, dget (files d) f = Some text -> can_write d ("filtered_" ++ f) = true -> file_shows (readlines text) ts ->
  exists d' copy, load_on X b d f true = (d', load_txt X (readlines text)) /\ dget (files d') ("filtered_" ++ f) = Some copy /\ one_per_line b ts copy
    /\ load_on X b d' ("filtered_" ++ f) false = (d', load_txt X (readlines text))
    /\ (forall p, p <> "filtered_" ++ f -> dget (files d') p = dget (files d) p) /\ (forall p, is_dir d' p = is_dir d p).
Proof. exact @saved. Qed.
Print Assumptions C84_copy.

(** Without saving, the disk is as before and the file is read as in C39-C45. *)
Theorem C84_plain : forall (F : Type) (SF : Scalar F) (X : externals F) (b : string) d f text,
  dget (files d) f = Some text -> load_on X b d f false = (d, load_txt X (readlines text)).
Proof. exact @load_plain. Qed.
Print Assumptions C84_plain.

(** The copy is not put beside the file: its directory is called "filtered_<directory of the file>". *)
Theorem C84_directory : forall f : string, dir_of ("filtered_" ++ f) = option_map (fun d => "filtered_" ++ d) (dir_of f).
Proof. exact copy_dir. Qed.
Print Assumptions C84_directory.

(** The directory of a path, as above and in [can_write]. *)
Theorem C84_path : forall p d : string, dir_of p = Some d <-> directory p d.
Proof. exact dir_spec. Qed.
Print Assumptions C84_path.
(** A file can be written where its directory exists (the current and the root directory always do) and no directory has its name. *)
Theorem C84_writable : forall (d : disk) (p : string), can_write d p = true <-> is_dir d p = false /\ forall r, directory p r -> r = "" \/ is_dir d r = true.
Proof. exact writable_spec. Qed.
Print Assumptions C84_writable.
(** The lines read, as above. *)
Theorem C84_lines : forall (text : string) (ls : list string), text_lines text ls <-> readlines text = ls.
Proof. exact lines_spec. Qed.
Print Assumptions C84_lines.
Example C84_lines_case : readlines (String "a" (String "013" (String "010" (String "013" (String "b" (String "010" "c")))))) = [String "a" (String "010" ""); String "010" ""; String "b" (String "010" ""); "c"].
Proof. reflexivity. Qed.

(** So a file that loads from another directory does not load when the copy is asked for. *)
Theorem C84_saving_refuted : exists d f h, load_on QX (String LF "") d f false = (d, Ret h) /\ load_on QX (String LF "") d f true = (d, Raise OSError) /\ dir_exists d f = true.
Proof. exact directory_lost. Qed.
Print Assumptions C84_saving_refuted.

(** Whenever that directory is missing, asking for the copy means no Hamiltonian. *)
Theorem C84_missing : forall (F : Type) (SF : Scalar F) (X : externals F) (b : string) d f text,
  dget (files d) f = Some text -> can_write d ("filtered_" ++ f) = false -> load_on X b d f true = (d, Raise OSError).
Proof. exact @unsaved. Qed.
Print Assumptions C84_missing.

Example C84_case : dget (files sample_disk) "model.txt" = Some model_text /\ can_write sample_disk ("filtered_" ++ "model.txt") = true
  /\ file_shows (readlines model_text) full /\ (exists h, load_txt QX (readlines model_text) = Ret h)
  /\ dir_of ("filtered_" ++ "run/model.txt") = Some "filtered_run".
Proof. destruct sample_hyps as (H1 & H2 & H3). repeat split; auto. exact model_loads. Qed.
