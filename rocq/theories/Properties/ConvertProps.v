(** Property theorems C65: the conversion of TB2J files. *)
From Coq Require Import String List QArith Qcanon.
From Verif.Base Require Import Scalar Linear3 QcLit PyString PyText.
From Verif.Model Require Import Hamiltonian TxtRead Hdf5 TxtDump Tb2j Convert.
From Verif.Spec Require Import TxtFormat Hdf5Spec TxtDumpSpec Tb2jSpec ConvertSpec.
From Verif.Proofs Require Import DumpSpinless Tb2jCases DumpPrinter DumpWitness ConvertProofs ConvertName.
Import ListNotations.
Local Open Scope string_scope.

(** Only "txt" and "hdf5" are formats; without a format the suffix of the name decides. *)
Theorem C65_format : forall F (SF : Scalar F) (X : externals F) P pos g dflt old lines name format r, load_tb2j X lines = Ret r ->
  ~ asks_hdf5 format name -> ~ asks_text format name -> convert X P pos g dflt old lines name format = Raise RuntimeError.
Proof. exact @other_format. Qed.
Print Assumptions C65_format.
(** A text file of the given name is written for every good TB2J file. *)
Theorem C65_text_partial : forall F (SF : Scalar F) (X : externals F) P pos g dflt old f cell rs es name format,
  is_tb2j_file X f cell rs es -> consistent rs es -> asks_text format name ->
  exists content, convert X P pos g dflt old f name format = Ret (WText name content).
Proof. exact @text_written. Qed.
Print Assumptions C65_text_partial.
(** No such file can be loaded: atoms of TB2J files have no spin, which is written as "-". *)
Theorem C65_text_useless : forall F (SF : Scalar F) (X : externals F) P pos g dflt rnd, prints X P rnd -> x_float X "-" = None ->
  forall old f cell rs es name format name' content L,
  is_tb2j_file X f cell rs es -> consistent rs es -> rs <> [] -> Forall (fun row => good_name (tr_name row)) rs ->
  convert X P pos g dflt old f name format = Ret (WText name' content) -> load_txt X (readlines content) <> Ret L.
Proof. exact @text_useless. Qed.
Print Assumptions C65_text_useless.
(** The same for every Hamiltonian with an atom without spin. *)
Theorem C65_spinless : forall F (SF : Scalar F) (X : externals F) P rnd, prints X P rnd -> x_float X "-" = None ->
  forall fl s content L, one_object s -> Forall (fun x => good_name (name_of x)) (sh_sites s) -> (exists x, In x (sh_sites s) /\ st_spin x = None) ->
  dump_txt P fl s = Ret content -> load_txt X (readlines content) <> Ret L.
Proof. exact @spinless_not_loaded. Qed.
Print Assumptions C65_spinless.
(** No TB2J file with atoms can be converted to HDF5. *)
Theorem C65_hdf5_fails : forall F (SF : Scalar F) (X : externals F) P pos g dflt old lines name format r, load_tb2j X lines = Ret r -> tl_atoms r <> [] ->
  asks_hdf5 format name -> exists e, convert X P pos g dflt old lines name format = Raise e.
Proof. exact @hdf5_fails. Qed.
Print Assumptions C65_hdf5_fails.
(** What is written as HDF5, from files without atoms: the suffix of the name is replaced. *)
Theorem C65_hdf5_name : forall F (SF : Scalar F) (X : externals F) P pos g dflt old lines name format name' file,
  convert X P pos g dflt old lines name format = Ret (WHdf5 name' file) ->
  asks_hdf5 format name /\ hdf5_target name name' /\ exists r, load_tb2j X lines = Ret r /\ tl_atoms r = [] /\ file = fst (dump (spinham_of pos g dflt r) ["spinham"] false (old name')).
Proof. exact hdf5_written. Qed.
Print Assumptions C65_hdf5_name.
Example C65_hdf5_name_case : exists file, convert QY QP at0 (Some f2) tb_cell no_file [] "model.txt" (Some "HDF5") = Ret (WHdf5 "model.hdf5" file).
Proof. exact hdf5_written_case. Qed.
(** A sample that meets all the hypotheses above. *)
Theorem C65_refuted : exists (X : externals Qc) P rnd pos g dflt old f cell rs es, sane X /\ prints X P rnd /\ units_defined X
  /\ is_tb2j_file X f cell rs es /\ consistent rs es /\ rs <> [] /\ Forall (fun row => good_name (tr_name row)) rs /\ x_float X "-" = None
  /\ (exists content, convert X P pos g dflt old f "spinham.txt" None = Ret (WText "spinham.txt" content) /\ load_txt X (readlines content) = Raise ValueError)
  /\ convert X P pos g dflt old f "spinham.hdf5" None = Raise ValueError.
Proof. exact sample_useless. Qed.
Print Assumptions C65_refuted.
