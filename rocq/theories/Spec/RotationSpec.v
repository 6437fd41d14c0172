(** Vocabulary for C73 and C74: rotating all spins, and the parameters with them. *)
From Coq Require Import List Bool ZArith Reals.
From Coquelicot Require Import Complex.
From Verif.Base Require Import Scalar ScalarR Linear3 PyDict.
From Verif.Model Require Import MatrixParam Hamiltonian EnergyInit Energy.
From Verif.Spec Require Import HamSpec DispersionSpec InvarianceSpec.
Import ListNotations.
Local Open Scope R_scope.

(** A proper rotation keeps scalar and vector products. *)
Definition rotation (O : M3 R) : Prop :=
  (forall a b, dot (mvec O a) (mvec O b) = dot a b) /\ (forall a b, cross (mvec O a) (mvec O b) = mvec O (cross a b)).

(** A rotation of the crystal may be improper: it keeps scalar products. *)
Definition isometry (P : M3 R) : Prop := forall a b, dot (mvec P a) (mvec P b) = dot a b.
(** The lattice vectors are the rows of the cell. *)
Definition turned_cell (P cell : M3 R) : M3 R := mmul cell (mtrans P).

(** The matrix that couples rotated vectors as [J] couples the original ones: O J O^T. *)
Definition turned (O J : M3 R) : M3 R := mmul (mmul O J) (mtrans O).

(** The same spins, pairs and sites; the couplings are rotated. *)
Definition rotated_model (O : M3 R) (sn : bool) (ef of_ : R) (w : @world R) (sn' : bool) (ef' of' : R) (w' : @world R) : Prop :=
  (forall a, spin_of w' a = spin_of w a) /\
  (forall k, bonded w' k <-> bonded w k) /\ (forall a, In a (sites w') <-> In a (sites w)) /\
  (forall k, bonded w k -> pair_coupling sn' ef' w' k = option_map (turned O) (pair_coupling sn ef w k)) /\
  (forall a, In a (sites w) -> site_coupling sn' of' w' a = option_map (turned O) (site_coupling sn of_ w a)).

(** A direction for which the local axes are exact: not within numpy's tolerances of a pole, or the pole itself. *)
Definition sharp (s : V3 R) : Prop := ~ near_pole (direction_of s) \/ direction_of s = mkV 0 0 1 \/ direction_of s = mkV 0 0 (-1).

(** A change of phases of N boson operators; the creation operators have the conjugate phases. *)
Definition phases (N : nat) (phi : nat -> C) (p : nat) : C := if Nat.ltb p N then phi p else Cconj (phi (p - N)%nat).

(** The same keys in any order, the values rotated; the spins are the same. *)
Definition rotated_parameters (O : M3 R) (w w' : @world R) : Prop :=
  (forall a, spin_of w' a = spin_of w a) /\ (forall k, bond_value w' k = option_map (turned O) (bond_value w k)) /\
  (forall a, onsite_value w' a = option_map (turned O) (onsite_value w a)).

(** Rotated directions of the spins, in any of the accepted shapes. *)
Definition turn_arg (O : M3 R) (a : spins_arg) : spins_arg :=
  match a with SRows rows => SRows (map (mvec O) rows) | SVec v => SVec (mvec O v) | SBad => SBad end.
