(** C42: the text dump and the text loader. *)
From Coq Require Import String List Bool ZArith QArith Qcanon.
From Verif.Base Require Import Scalar Linear3 QcLit.
From Verif.Model Require Import MatrixParam Hamiltonian History TxtVerify TxtRead Hdf5 TxtDump.
From Verif.Spec Require Import HamSpec HistorySpec TxtSpec TxtFormat Hdf5Spec TxtDumpSpec.
From Verif.Proofs Require Import HamWitness TextWitness Hdf5Witness DumpBack DumpMore DumpPrinter DumpWitness.
Import ListNotations.

(** What comes back, to the digit, for every choice of the parts to be written: the cell, the atoms with positions and
    spins, the notation, the matrices (the upper triangle of on-site ones, none of bonds of an atom with itself), the
    direction of the cone axis; what the spiral vector becomes; what is lost. *)
Theorem C42_partial : forall (F : Type) (SF : Scalar F) (X : externals F) (P : printer F) rnd, sane X -> prints X P rnd -> units_defined X ->
  forall fl (s : @spinham F) content, one_object s -> printable rnd s -> something_written fl -> dump_txt P fl s = Ret content ->
  exists L, load_txt X (readlines content) = Ret L /\ kept X rnd fl s L /\ spiral_read X rnd s L /\ lost L.
Proof. exact @dump_then_load. Qed.
Print Assumptions C42_partial.

(** With the default settings the numbers differ by less than the printed precision. *)
Theorem C42_near_partial : forall (F : Type) (SF : Scalar F) (X : externals F) (P : printer F) rnd, prints X P rnd -> sane X -> units_defined X ->
  forall fl (s : @spinham F) content, one_object s -> printable rnd s -> matrices_only fl -> no_self_bonds s -> symmetric_sites s ->
  dump_txt P fl s = Ret content -> exists L, load_txt X (readlines content) = Ret L /\ restored s L.
Proof. exact @dump_then_load_near. Qed.
Print Assumptions C42_near_partial.

(** A text is written exactly if the notation is set as far as needed; the angles of the spins cannot be written. *)
Theorem C42_written : forall (F : Type) (SF : Scalar F) (P : printer F) fl (s : @spinham F),
  (fl_angles fl = true -> (exists x, In x (sh_sites s) /\ st_spin x <> None) -> dump_txt P fl s = Raise AttributeError)
  /\ (fl_angles fl = false -> noted_for s -> exists content, dump_txt P fl s = Ret content)
  /\ (fl_angles fl = false -> ~ noted_for s -> dump_txt P fl s = Raise NotationError).
Proof. exact @dump_outcome. Qed.
Print Assumptions C42_written.

Theorem C42_spiral_refuted : exists (s : @spinham Qc) content L, one_object s /\ printable qround s /\ dump_txt QP default_flags s = Ret content
  /\ load_txt QY (readlines content) = Ret L /\ sh_spiral s = Some along_z /\ rv qround 8 along_z = along_z /\ ld_spiral L = Some (mkV f0 f0 (qq 44 35)).
Proof. exact spiral_refuted. Qed.
Print Assumptions C42_spiral_refuted.

Theorem C42_self_bond_refuted : exists (s : @spinham Qc) content L a', reachable (sh_ham s) /\ one_object s /\ printable qround s /\ dump_txt QP default_flags s = Ret content
  /\ load_txt QY (readlines content) = Ret L /\ namesake s L atA a' /\ bond_value (sh_ham s) (mkB atA atA c0) <> None /\ bond_value (ld_ham L) (mkB a' a' c0) = None.
Proof. exact self_bond_refuted. Qed.
Print Assumptions C42_self_bond_refuted.

(** The loader refuses the file of a Hamiltonian that has only such bonds. *)
Theorem C42_only_self_bonds_refuted : exists (s : @spinham Qc) content, reachable (sh_ham s) /\ one_object s /\ bonds (sh_ham s) = [mkB atA atA c0]
  /\ dump_txt QP default_flags s = Ret content /\ load_txt QY (readlines content) = Raise FailedToVerifyTxtModelFile.
Proof. exact only_self_refused. Qed.
Print Assumptions C42_only_self_bonds_refuted.

Theorem C42_antisymmetric_refuted : exists (s : @spinham Qc) content L a' m, reachable (sh_ham s) /\ one_object s /\ printable qround s
  /\ dump_txt QP default_flags s = Ret content /\ load_txt QY (readlines content) = Ret L /\ namesake s L atB a'
  /\ onsite_value (sh_ham s) atB = Some m /\ rm qround 4 m = m /\ onsite_value (ld_ham L) a' <> Some m.
Proof. exact antisymmetric_refuted. Qed.
Print Assumptions C42_antisymmetric_refuted.

(** An atom without spin: the file is accepted but cannot be read. *)
Theorem C42_spinless_refuted : exists (s : @spinham Qc) content, reachable (sh_ham s) /\ one_object s /\ dump_txt QP default_flags s = Ret content
  /\ accepts QY (readlines content) /\ load_txt QY (readlines content) = Raise ValueError.
Proof. exact spinless_refuted. Qed.
Print Assumptions C42_spinless_refuted.

Theorem C42_nothing_written_refuted : exists (s : @spinham Qc) content, reachable (sh_ham s) /\ one_object s /\ printable qround s
  /\ dump_txt QP no_flags s = Ret content /\ load_txt QY (readlines content) = Raise FailedToVerifyTxtModelFile.
Proof. exact nothing_written_refused. Qed.
Print Assumptions C42_nothing_written_refuted.

Theorem C42_same_names_refuted : exists (s : @spinham Qc) content, reachable (sh_ham s) /\ one_object s /\ dump_txt QP default_flags s = Ret content
  /\ load_txt QY (readlines content) = Raise FailedToVerifyTxtModelFile.
Proof. exact twins_text_refused. Qed.
Print Assumptions C42_same_names_refuted.

(** The assumptions hold of exact decimal printing of rational numbers, and of Hamiltonians with parameters of all kinds. *)
Example C42_example : sane QY /\ prints QY QP qround /\ units_defined QY /\ one_object s_rich /\ printable qround s_rich
  /\ (exists c, dump_txt QP default_flags s_rich = Ret c) /\ something_written default_flags
  /\ (exists c, dump_txt QP all_flags s_rich = Ret c) /\ something_written all_flags
  /\ one_object s_plain /\ printable qround s_plain /\ matrices_only default_flags /\ no_self_bonds s_plain /\ symmetric_sites s_plain
  /\ exists c, dump_txt QP default_flags s_plain = Ret c.
Proof. exact dump_example. Qed.
