(** Theorems for C71: HDF5 files in declared units. *)
From Coq Require Import List Bool ZArith QArith Qcanon String.
From Verif.Base Require Import Scalar QcLit Linear3 PyDict.
From Verif.Model Require Import Hamiltonian TxtRead Hdf5.
From Verif.Spec Require Import HamSpec TxtFormat Hdf5Spec AtomsSpec Hdf5Units.
From Verif.Proofs Require Import TextWitness TextSane AtomsCases Hdf5Witness Hdf5Group Hdf5UnitsCases.
Import ListNotations.

(** Everything in an accepted file is read as written, in the unit it is written in. *)
Theorem C71_meaning : forall (F : Type) (SF : Scalar F) (X : externals F) (file root : @node F) p (c : @contents F) (s : @spinham F),
  units_defined X -> (forall cell v q, x_abs_to_rel X cell v = Some q -> vmat q cell = v) -> NoDup (map ai_name (co_atoms c)) ->
  lookup file p = Some root -> describes root c -> load X (Some p) file = Ret s -> means X c s.
Proof. exact @file_means. Qed.
Print Assumptions C71_meaning.

Example C71_meaning_case : units_defined QX /\ (forall cell v q, x_abs_to_rel QX cell v = Some q -> vmat q cell = v)
  /\ NoDup (map ai_name (co_atoms (u_contents "Bohr" "Rydberg" "KELVIN")))
  /\ lookup (u_file "Bohr" "Rydberg" "KELVIN") ["model"%string] = Some (u_root "Bohr" "Rydberg" "KELVIN")
  /\ describes (u_root "Bohr" "Rydberg" "KELVIN") (u_contents "Bohr" "Rydberg" "KELVIN")
  /\ exists s, load QX (Some ["model"%string]) (u_file "Bohr" "Rydberg" "KELVIN") = Ret s
     /\ bond_value (sh_ham s) (mkB (mkAtom "Cr" 2) (mkAtom "Fe" 1) (-1, 0, 0)%Z) <> None.
Proof.
  split; [exact units_QX|]. split; [exact (geo_relative _ _ QX_geometry)|]. split; [exact (proj1 u_names)|]. split; [reflexivity|].
  split; [apply u_describes|exact u_loads].
Qed.

(** Every accepted file is of the format. *)
Theorem C71_format : forall (F : Type) (SF : Scalar F) (X : externals F) (file root : @node F) p (s : @spinham F),
  lookup file p = Some root -> load X (Some p) file = Ret s -> exists c, describes root c.
Proof. exact @file_described. Qed.
Print Assumptions C71_format.

(** Files of the format with known names and units are accepted. *)
Theorem C71_accepted : forall (F : Type) (SF : Scalar F) (X : externals F) (file root : @node F) p (c : @contents F),
  sane X -> units_defined X -> lookup file p = Some root -> describes root c ->
  names_told_apart c -> names_known c -> units_known X c -> proper_axis X c -> proper_spiral X c -> exists s, load X (Some p) file = Ret s.
Proof. exact @file_accepted. Qed.
Print Assumptions C71_accepted.

Example C71_accepted_case : sane QX /\ units_defined QX /\ describes (u_root "Bohr" "Rydberg" "KELVIN") (u_contents "Bohr" "Rydberg" "KELVIN")
  /\ let c := u_contents "Bohr" "Rydberg" "KELVIN" in names_told_apart c /\ names_known c /\ units_known QX c /\ proper_axis QX c /\ proper_spiral QX c.
Proof. split; [exact QX_sane|]. split; [exact units_QX|]. split; [apply u_describes|exact u_accepted]. Qed.

(** Unknown units are refused: of energies with the announced ValueError, ... *)
Theorem C71_exchange_unit : forall (F : Type) (SF : Scalar F) (X : externals F) (file root : @node F) p (c : @contents F) u l,
  lookup file p = Some root -> describes root c -> names_told_apart c -> known_length X (co_length c) ->
  co_exchange c = Some (u, l) -> ~ known_energy X u -> load X (Some p) file = Raise ValueError.
Proof. exact @file_bad_exchange. Qed.
Print Assumptions C71_exchange_unit.

Theorem C71_on_site_unit : forall (F : Type) (SF : Scalar F) (X : externals F) (file root : @node F) p (c : @contents F) u l,
  lookup file p = Some root -> describes root c -> names_told_apart c -> names_known c -> known_length X (co_length c) ->
  (forall u' l', co_exchange c = Some (u', l') -> known_energy X u') ->
  co_on_site c = Some (u, l) -> ~ known_energy X u -> load X (Some p) file = Raise ValueError.
Proof. exact @file_bad_on_site. Qed.
Print Assumptions C71_on_site_unit.

(** ... of lengths with the KeyError of the error message itself. *)
Theorem C71_length_unit : forall (F : Type) (SF : Scalar F) (X : externals F) (file root : @node F) p (c : @contents F) n,
  lookup file p = Some root -> describes root c -> ~ known_length X (co_length c) -> member root "cell" n ->
  (absent n "units" -> load X (Some p) file = Raise KeyError) /\ (forall m, member n "units" m -> load X (Some p) file = Raise UnboundLocalError).
Proof. exact @file_bad_length. Qed.
Print Assumptions C71_length_unit.

Example C71_unknown_case : ~ known_length QX "nm" /\ ~ known_energy QX "Hartree"
  /\ load QX (Some ["model"%string]) (u_file "nm" "Rydberg" "KELVIN") = Raise KeyError
  /\ load QX (Some ["model"%string]) (u_file "Bohr" "Hartree" "KELVIN") = Raise ValueError
  /\ load QX (Some ["model"%string]) (u_file "Bohr" "Rydberg" "Hartree") = Raise ValueError.
Proof. split; [exact (proj1 u_unknown)|]. split; [exact (proj2 u_unknown)|]. split; [|split]; vm_compute; reflexivity. Qed.
