(** Property theorems C66 and C67: atoms, cone axis and spiral vector of a text file. *)
From Coq Require Import String List ZArith QArith Qcanon.
From Verif.Base Require Import Scalar Linear3 QcLit PyDict PyString PyText.
From Verif.Model Require Import MatrixParam Hamiltonian TxtVerify TxtRead.
From Verif.Spec Require Import TxtSpec TxtFormat AtomsSpec.
From Verif.Proofs Require Import TextWitness TextCases TextCases2 TextSane AtomsProofs AtomsCases.
Import ListNotations.
Local Open Scope string_scope.

(** Every line of the section "atoms" becomes one atom, in order, with the values its columns name. *)
Theorem C66_atoms : forall F (SF : Scalar F) (X : externals F), sane X -> forall tau, geometry X tau ->
  forall secs f L, is_file secs f -> load_txt X f = Ret L -> forall hc sl r1 r2 r3 uc s hdr cols lines u,
  has_section secs "cell" (hc :: sl ++ [r1; r2; r3]) -> length_unit X hc uc -> scale_text X sl s ->
  has_section secs "atoms" (hdr :: cols :: lines) -> length_unit X hdr u ->
  NoDup (map str_lower (py_split cols)) /\ Forall2 (atom_said X (ld_cell L) u s cols) lines (ld_atoms L).
Proof. exact @file_atoms. Qed.
Print Assumptions C66_atoms.
(** The Hamiltonian has these atoms, and the spin value of each is the length of its spin vector. *)
Theorem C66_spins : forall F (SF : Scalar F) (X : externals F), sane X -> forall secs f L, is_file secs f -> load_txt X f = Ret L ->
  forall i a, nth_error (ld_atoms L) i = Some a ->
  nth_error (h_atoms (w_ham (ld_ham L))) i = Some (mkAtom (ad_name a) (Z.of_nat i + 1))
  /\ dget (h_spins (w_ham (ld_ham L))) (mkAtom (ad_name a) (Z.of_nat i + 1)) = Some (x_norm X (ad_spin a)).
Proof. exact @file_spins. Qed.
Print Assumptions C66_spins.
Example C66_hypotheses : geometry QX (qq 44 7) /\ sane QX /\ is_file a_sections a_file /\ load_txt QX a_file = Ret (result a_file)
  /\ has_section a_sections "cell" ("Cell Bohr" :: ["2 3 0.5"] ++ ["2.0 0.0 0.0"; "0.0 3.0 0.0"; "0.0 0.0 5.0"])%list
  /\ length_unit QX "Cell Bohr" (c_bohr_radius QX) /\ scale_text QX ["2 3 0.5"] (mkV (q 2) (q 3) (qq 1 2))
  /\ has_section a_sections "atoms" ("Atoms Bohr" :: a_cols :: a_lines) /\ length_unit QX "Atoms Bohr" (c_bohr_radius QX)
  /\ has_column a_cols "sp" /\ ~ has_column a_cols "r1".
Proof. exact (conj QX_geometry (conj QX_sane a_case)). Qed.
Example C66_values : map (@ad_name Qc) (ld_atoms (result a_file)) = ["Fe"; "Co"] /\ map (@ad_spin Qc) (ld_atoms (result a_file)) = [mkV (q 0) (q 2) (q 0); mkV (q 0) (q 0) (qq 3 2)]
  /\ map (@ad_charge Qc) (ld_atoms (result a_file)) = [q 1; q 0] /\ map (@ad_g Qc) (ld_atoms (result a_file)) = [qq 5 2; q 2]
  /\ map (@ad_position Qc) (ld_atoms (result a_file)) = [mkV (qq 3 2) (qq 2 3) (qq 1 5); mkV (q 0) (q 0) (q 0)].
Proof. exact a_read. Qed.

(** Three numbers in the section "cone-axis" are a direction in absolute or relative coordinates, normalised on reading. *)
Theorem C67_cone_vector : forall F (SF : Scalar F) (X : externals F), sane X -> forall tau, geometry X tau ->
  forall secs f L, is_file secs f -> load_txt X f = Ret L ->
  forall hdr l a b c, has_section secs "cone-axis" [hdr; l] -> numbers X (py_split l) [a; b; c] ->
  (says_absolute hdr -> exists n, ld_cone L = Some n /\ unit_along X n (mkV a b c))
  /\ (says_relative hdr -> exists n, ld_cone L = Some n /\ unit_along X n (vmat (mkV a b c) (ld_cell L))).
Proof. exact @cone_vector. Qed.
Print Assumptions C67_cone_vector.
(** Two numbers are the angles of the direction. *)
Theorem C67_cone_angles : forall F (SF : Scalar F) (X : externals F) tau, geometry X tau -> forall secs f L, is_file secs f -> load_txt X f = Ret L ->
  forall hdr l alpha beta, has_section secs "cone-axis" [hdr; l] -> numbers X (py_split l) [alpha; beta] ->
  ld_cone L = Some (direction X alpha beta).
Proof. exact @cone_angles. Qed.
Print Assumptions C67_cone_angles.
Theorem C67_no_cone : forall F (SF : Scalar F) (X : externals F) secs f L, is_file secs f -> load_txt X f = Ret L ->
  (forall s, ~ has_section secs "cone-axis" s) -> ld_cone L = None.
Proof. exact @no_cone. Qed.
Print Assumptions C67_no_cone.
(** The spiral vector is taken as written, or has the written scalar products with the lattice vectors, in units of the full circle. *)
Theorem C67_spiral : forall F (SF : Scalar F) (X : externals F) tau, geometry X tau -> forall secs f L, is_file secs f -> load_txt X f = Ret L ->
  forall hdr l a b c, has_section secs "spiral-vector" [hdr; l] -> numbers X (py_split l) [a; b; c] ->
  (says_absolute hdr -> ld_spiral L = Some (mkV a b c))
  /\ (says_relative hdr -> exists q, ld_spiral L = Some q /\ mvec (ld_cell L) q = vscale tau (mkV a b c)).
Proof. exact @spiral_vector. Qed.
Print Assumptions C67_spiral.
Theorem C67_no_spiral : forall F (SF : Scalar F) (X : externals F) secs f L, is_file secs f -> load_txt X f = Ret L ->
  (forall s, ~ has_section secs "spiral-vector" s) -> ld_spiral L = None.
Proof. exact @no_spiral. Qed.
Print Assumptions C67_no_spiral.
Example C67_hypotheses : has_section a_sections "cone-axis" ["Cone-axis"; "0 0 2"] /\ numbers QX (py_split "0 0 2") [q 0; q 0; q 2] /\ says_relative "Cone-axis"
  /\ has_section a_sections "spiral-vector" ["Spiral-vector Relative"; "0 0.5 0"] /\ numbers QX (py_split "0 0.5 0") [q 0; qq 1 2; q 0] /\ says_relative "Spiral-vector Relative".
Proof. exact a_directions. Qed.
Example C67_angles_hypotheses : is_file b_sections (join b_sections) /\ load_txt QX (join b_sections) = Ret (result (join b_sections))
  /\ has_section b_sections "cone-axis" ["Cone-axis a"; "90 90"] /\ numbers QX (py_split "90 90") [q 90; q 90]
  /\ (forall s, ~ has_section b_sections "spiral-vector" s).
Proof. exact b_case. Qed.
