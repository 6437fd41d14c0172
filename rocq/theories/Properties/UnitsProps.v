(** Theorems for C81: sizes of units. *)
From Coq Require Import QArith Qcanon Qabs ZArith Reals Qreals Ascii String List Bool.
From Verif.Base Require Import Scalar ScalarR QcLit Linear3 PyDict PyString PyText.
From Verif.Model Require Import Hamiltonian TxtRead Constants EnergyInit Hdf5.
From Verif.Spec Require Import HamSpec TxtSpec TxtFormat Hdf5Spec AtomsSpec Hdf5Units PhysicsSpec.
From Verif.Proofs Require Import TextWitness TextSane TextCases AtomsCases Hdf5Witness Hdf5UnitsCases UnitsProofs.
Import ListNotations.
Open Scope string_scope.

(** On-site parameters of text files *)
Theorem C81_text_on_site : forall X : externals Qc, imports X -> sane X -> forall secs f L s es a name v,
  is_file secs f -> load_txt X f = Ret L -> has_section secs "on-site" s -> on_site_text X (tl s) es ->
  text_unit (hd "" s) name "milli-electron-volt" -> In (name, v) in_millielectronvolts -> In a (h_atoms (w_ham (ld_ham L))) ->
  forall A, last_entry (a_name a) es = Some A -> exists m, onsite_value (ld_ham L) a = Some m /\ reads_as m v A.
Proof. exact text_on_site. Qed.
Print Assumptions C81_text_on_site.

(** Lattice vectors of text files *)
Theorem C81_text_cell : forall X : externals Qc, imports X -> sane X -> forall secs f L hdr r1 r2 r3 a b c d e g h i j name v,
  is_file secs f -> load_txt X f = Ret L ->
  has_section secs "cell" [hdr; r1; r2; r3] -> text_unit hdr name "angstrom" -> In (name, v) in_angstroms ->
  numbers X (py_split r1) [a; b; c] -> numbers X (py_split r2) [d; e; g] -> numbers X (py_split r3) [h; i; j] ->
  reads_as (ld_cell L) v (mkM a b c d e g h i j).
Proof. exact text_cell. Qed.
Print Assumptions C81_text_cell.
Example C81_text_case : imports QX /\ sane QX /\ (text_unit "On-site Kelvin" "kelvin" "milli-electron-volt"
  /\ text_unit "On-site" "milli-electron-volt" "milli-electron-volt" /\ text_unit "Cell BOHR" "bohr" "angstrom").
Proof. exact (conj QX_imports (conj QX_sane text_units_case)). Qed.

(** All parameters and the lattice of HDF5 files *)
Theorem C81_hdf5 : forall X : externals Qc, imports X -> (forall cell v q, x_abs_to_rel X cell v = Some q -> vmat q cell = v) ->
  forall (file root : @node Qc) p c s, NoDup (map ai_name (co_atoms c)) -> lookup file p = Some root -> describes root c ->
  load X (Some p) file = Ret s ->
  (forall name l v, co_exchange c = Some (name, l) -> In (str_lower name, v) in_millielectronvolts ->
     forall k A, In (b_from k) (atoms_of s) -> In (b_to k) (atoms_of s) -> written_bond (co_dc c) l k = Some A ->
     exists m, bond_value (sh_ham s) k = Some m /\ reads_as m v A)
  /\ (forall name l v, co_on_site c = Some (name, l) -> In (str_lower name, v) in_millielectronvolts ->
     forall a A, In a (atoms_of s) -> last_entry (a_name a) l = Some A -> exists m, onsite_value (sh_ham s) a = Some m /\ reads_as m v A)
  /\ (forall v, In (str_lower (co_length c), v) in_angstroms -> reads_as (sh_cell s) v (co_rows c)).
Proof. exact hdf5_energies. Qed.
Print Assumptions C81_hdf5.
Example C81_hdf5_case : imports QX /\ (forall cell v q, x_abs_to_rel QX cell v = Some q -> vmat q cell = v)
  /\ NoDup (map ai_name (co_atoms (u_contents "Bohr" "Rydberg" "KELVIN")))
  /\ lookup (u_file "Bohr" "Rydberg" "KELVIN") ["model"%string] = Some (u_root "Bohr" "Rydberg" "KELVIN")
  /\ describes (u_root "Bohr" "Rydberg" "KELVIN") (u_contents "Bohr" "Rydberg" "KELVIN")
  /\ exists s, load QX (Some ["model"%string]) (u_file "Bohr" "Rydberg" "KELVIN") = Ret s
     /\ bond_value (sh_ham s) (mkB (mkAtom "Cr" 2) (mkAtom "Fe" 1) (-1, 0, 0)%Z) <> None.
Proof.
  split; [exact QX_imports|]. split; [exact (geo_relative _ _ QX_geometry)|]. split; [exact (proj1 u_names)|]. split; [reflexivity|].
  split; [apply u_describes|exact u_loads].
Qed.
(** The tolerance is not empty and not everything. *)
Example C81_near : near (qq 8617333262 100000000) (Q2Qc (8617333262 # 100000000000) * q 1000)%Qc
  /\ ~ near (qq 86173420 1000000) (Q2Qc (8617333262 # 100000000000) * q 1000)%Qc.
Proof. exact near_case. Qed.

(** The energy in a magnetic field given in Tesla *)
Theorem C81_field : forall (E : @energy_obj R) H so, e_field E = Some H ->
  (Rabs (zeeman mu_inside E so - meV_per_tesla * zeeman_sum H (e_g E) so)
   <= / 1000000000 * Rabs (meV_per_tesla * zeeman_sum H (e_g E) so))%R.
Proof. exact field_size. Qed.
Print Assumptions C81_field.
