(** Vocabulary for C87: Hamiltonians without a preferred direction. *)
From Coq Require Import List Reals.
From Verif.Base Require Import Scalar ScalarR Linear3.
From Verif.Model Require Import Hamiltonian.
From Verif.Spec Require Import HamSpec.
Local Open Scope R_scope.

(** Every parameter is a multiple of the scalar product. *)
Definition isotropic_parameters (w : @world R) : Prop :=
  (forall k J, bond_value w k = Some J -> exists x, forall u v, dot u (mvec J v) = x * dot u v) /\
  (forall a A, onsite_value w a = Some A -> exists x, forall u v, dot u (mvec A v) = x * dot u v).
