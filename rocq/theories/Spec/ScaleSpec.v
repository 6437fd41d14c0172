(** Vocabulary for C91: all parameters multiplied by a number. *)
From Coq Require Import List Reals.
From Verif.Base Require Import Scalar ScalarR Linear3.
From Verif.Model Require Import Hamiltonian.
From Verif.Spec Require Import HamSpec InvarianceSpec.
Local Open Scope R_scope.

(** The same bonds, sites and spins; every parameter is [c] times the parameter of [w]. *)
Definition scaled_parameters (c : R) (w w' : @world R) : Prop :=
  (forall a, spin_of w' a = spin_of w a) /\ (forall k, bond_value w' k = option_map (mscale c) (bond_value w k)) /\
  (forall a, onsite_value w' a = option_map (mscale c) (onsite_value w a)).

(** The returned energy multiplied by [c]; an error stays as it is. *)
Definition times (c : R) (r : out R) : out R := match r with Ret e => Ret (c * e) | Raise x => Raise x end.

(** The same spins, pairs and sites in any two notations; every coupling is [c] times the coupling of [w]. *)
Definition scaled_model (c : R) (sn : bool) (ef of_ : R) (w : @world R) (sn' : bool) (ef' of' : R) (w' : @world R) : Prop :=
  (forall a, spin_of w' a = spin_of w a) /\
  (forall k, bonded w' k <-> bonded w k) /\ (forall a, In a (sites w') <-> In a (sites w)) /\
  (forall k, bonded w k -> pair_coupling sn' ef' w' k = option_map (mscale c) (pair_coupling sn ef w k)) /\
  (forall a, In a (sites w) -> site_coupling sn' of' w' a = option_map (mscale c) (site_coupling sn of_ w a)).
