(** Vocabulary for C88: ferromagnets with an easy axis. *)
From Coq Require Import List Reals.
From Verif.Base Require Import Scalar ScalarR Linear3.
From Verif.Model Require Import Hamiltonian.
From Verif.Spec Require Import HamSpec.
Local Open Scope R_scope.

(** Exchange x S.S' + z (n.S) (n.S') that favours parallel spins, and on-site terms x S.S + y (n.S)^2 that favour the axis [n];
    [ef] and [of_] are the factors of the notation. *)
Definition easy_axis (n : V3 R) (ef of_ : R) (w : @world R) : Prop :=
  (forall k J, bond_value w k = Some J -> exists x z, ef * x <= 0 /\ ef * z <= 0 /\ forall u v, dot u (mvec J v) = x * dot u v + z * (dot n u * dot n v)) /\
  (forall a A, onsite_value w a = Some A -> exists x y, of_ * y <= 0 /\ forall u v, dot u (mvec A v) = x * dot u v + y * (dot n u * dot n v)).
