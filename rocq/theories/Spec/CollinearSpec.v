(** Vocabulary for C90: unfrustrated collinear magnets. *)
From Coq Require Import List Reals.
From Verif.Base Require Import Scalar ScalarR Linear3.
From Verif.Model Require Import Hamiltonian.
From Verif.Spec Require Import HamSpec.
Local Open Scope R_scope.

(** [up a]: whether the spin of [a] points along [n] or against it. *)
Definition along_or_against (up : atom -> bool) (n : V3 R) (a : atom) : V3 R := if up a then n else vopp n.

(** Exchange x S.S' + z (n.S) (n.S') that favours parallel spins within the two sublattices and antiparallel spins between them;
    on-site terms x S.S + y (n.S)^2 that favour the axis [n]. *)
Definition unfrustrated (up : atom -> bool) (n : V3 R) (ef of_ : R) (w : @world R) : Prop :=
  (forall k J, bond_value w k = Some J -> exists x z, (forall u v, dot u (mvec J v) = x * dot u v + z * (dot n u * dot n v)) /\
     (if Bool.eqb (up (b_from k)) (up (b_to k)) then ef * x <= 0 /\ ef * z <= 0 else 0 <= ef * x /\ 0 <= ef * z)) /\
  (forall a A, onsite_value w a = Some A -> exists x y, of_ * y <= 0 /\ forall u v, dot u (mvec A v) = x * dot u v + y * (dot n u * dot n v)).
