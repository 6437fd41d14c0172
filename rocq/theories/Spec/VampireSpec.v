(** Vocabulary for the export to Vampire (C49, C61). *)
From Coq Require Import List Bool ZArith.
From Verif.Base Require Import Scalar Linear3 PyDict.
From Verif.Model Require Import MatrixParam Hamiltonian Vampire.
From Verif.Spec Require Import ParameterSpec HamSpec NotationSpec.
Import ListNotations.
Local Open Scope fld_scope.

Section Spec.
Context {F : Type} {SF : Scalar F}.
Notation world := (@world F).

(** A mask that does not write to the array it is given. *)
Definition harmless (custom : option (@mask F)) : Prop :=
  match custom with Some f => forall m, fst (f m) = m | None => True end.
(** There is a material for every magnetic atom. *)
Definition enough (materials : option (list Z)) (n : nat) : Prop :=
  match materials with Some l => (n <= List.length l)%nat | None => True end.

(** A Hamiltonian whose parameters every notation describes equivalently. *)
Definition convertible (w : world) (dc sn : bool) (ef of_ : F) : Prop :=
  wf w /\ unshared w /\ spins_defined w /\ reciprocal_storage w dc /\ notation_is w dc sn ef of_ /\ ef <> 0 /\ of_ <> 0.
Definition in_vampire_notation (w : world) : Prop := notation_is w true true (- (1 / (1 + 1))) (- (1)).

(** The matrix [x] printed for the matrix [m]: the outcome of the mask, or [m] without the parts that are not asked for. *)
Definition prints (anisotropic dmi : bool) (custom : option (@mask F)) (m x : M3 F) : Prop :=
  match custom with
  | Some f => snd (f m) = Ret x
  | None => exists j s d, composed m j s d /\
              composed x j (if anisotropic then s else mzero) (if dmi then d else mkV 0 0 0)
  end.

(** What the line of a term says, given the atoms of the file: its two atoms, the cell, and [e] times the printed matrix. *)
Definition says (e : F) (anisotropic dmi : bool) custom (atoms : list atom) (k : bkey) (m : option (M3 F)) (r : @ucf_row F) : Prop :=
  nth_error atoms (r_from r) = Some (b_from k) /\ nth_error atoms (r_to r) = Some (b_to k) /\ r_cell r = b_cell k /\
  exists J x, m = Some J /\ prints anisotropic dmi custom J x /\ r_matrix r = mscale e x.

(** The energy as Vampire computes it from a file: -1/2 times the sum over all lines, unit vectors. *)
Definition row_energy (atoms : list atom) (L : size3) (s : config) (r : @ucf_row F) : option F :=
  match nth_error atoms (r_from r), nth_error atoms (r_to r) with
  | Some a, Some b => Some (pair_energy L s (mkB a b (r_cell r)) (r_matrix r))
  | _, _ => None
  end.
Definition file_atoms (u : @ucf F) : list atom := map (fun x => snd (fst x)) (u_atoms u).
Definition vampire_energy (u : @ucf F) (L : size3) (s : config) : option F :=
  option_map (fun x => - (1 / (1 + 1)) * x) (osum (map (row_energy (file_atoms u) L s) (u_rows u))).

(** The materials in use: the given list, or one material for each of the [n] magnetic atoms. *)
Definition mats_of (materials : option (list Z)) (n : nat) : list Z :=
  match materials with Some l => l | None => map Z.of_nat (seq 0 n) end.


(** The terms of a Hamiltonian in the Vampire notation: on-site terms first, times 1/2, then the bonds. *)
Definition terms (w : world) : list (bkey * option (M3 F)) :=
  map (fun a => (mkB a a (0, 0, 0)%Z, option_map (mscale (1 / (1 + 1))) (onsite_value w a))) (sites w) ++
  map (fun k => (k, bond_value w k)) (bonds w).
(** Notation, parameters, atoms and spins are those of [w]. *)
Definition restored (w w' : world) dc sn ef of_ : Prop :=
  notation_is w' dc sn ef of_ /\ same_parameters w w' /\ h_atoms (w_ham w') = h_atoms (w_ham w) /\ h_spins (w_ham w') = h_spins (w_ham w).
(** The file: materials, atoms in order, and one line for each term of [w1]. *)
Definition states e an dm custom (w1 : world) mats (atoms : list atom) (u : @ucf F) : Prop :=
  u_nmat u = List.length (nodup Z.eq_dec mats) /\ file_atoms u = atoms /\
  map (fun x => fst (fst x)) (u_atoms u) = seq 0 (List.length atoms) /\
  Forall (fun x => nth_error mats (fst (fst x)) = Some (snd x)) (u_atoms u) /\
  u_count u = List.length (u_rows u) /\ map (@r_id F) (u_rows u) = seq 0 (List.length (u_rows u)) /\
  Forall2 (fun t r => says e an dm custom atoms (fst t) (snd t) r) (terms w1) (u_rows u).

(** The two parts of the energy of a Hamiltonian. *)
Definition exchange_energy (w : world) (L : size3) (s : config) : option F :=
  match h_sn (w_ham w), h_ef (w_ham w) with
  | Some sn, Some ef => option_map (fun x => ef * x) (osum (map (bond_term sn w L s) (bonds w)))
  | _, _ => None
  end.
Definition onsite_energy (w : world) (L : size3) (s : config) : option F :=
  match h_sn (w_ham w), h_of (w_ham w) with
  | Some sn, Some of_ => option_map (fun x => of_ * x) (osum (map (site_term sn w L s) (sites w)))
  | _, _ => None
  end.

End Spec.
