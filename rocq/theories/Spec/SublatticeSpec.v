(** Vocabulary for the magnon energies of a collinear antiferromagnet with two atoms in the cell (C82). *)
From Coq Require Import List Bool ZArith Reals.
From Coquelicot Require Import Complex.
From Coq Require Import List.
From Verif.Base Require Import Scalar ScalarR Linear3 PyDict.
From Verif.Model Require Import MatrixParam Hamiltonian.
From Verif.Spec Require Import HamSpec TextbookSpec.
Import ListNotations.
Local Open Scope R_scope.

(** [n n^T]. *)
Definition projector (n : V3 R) : M3 R :=
  mkM (vx n * vx n) (vx n * vy n) (vx n * vz n) (vy n * vx n) (vy n * vy n) (vy n * vz n) (vz n * vx n) (vz n * vy n) (vz n * vz n).

Definition only (t : bool) (v : R) : R := if t then v else 0.
Definition same (p q : atom) : bool := if eq_dec p q then true else false.
Definition joins (p q : atom) (k : bkey) : bool := same (b_from k) p && same (b_to k) q.

Section TwoSublattices.
(** [ef] and [of_]: the factors of the notation, [theta]: the phase k R of a bond, exchange x S S' + z (n S) (n S') on the
    bonds and anisotropy y (n S)^2 on the atoms. *)
Variables (w : @world R) (ef of_ : R) (theta x z : bkey -> R) (y : atom -> R).

(** Energy of a deviation that stays on the sublattice [c]: spins of length [S], written in the notation as [sig]; [sig'] is
    that of the other sublattice [d]. *)
Definition sublattice_energy (c d : atom) (S sig sig' : R) : R :=
  sig / S * (ef * (2 * sig * sum_over (bonds w) (fun k => only (joins c c k) (x k * (cos (theta k) - 1) - z k))
                   + sig' * sum_over (bonds w) (fun k => only (joins c d k || joins d c k) (x k + z k)))
             - of_ * (2 * sig * sum_over (sites w) (fun e => only (same e c) (y e)))).

(** Sum of x e^(i k R) over the bonds between the sublattices, R taken from [c] to [d]. *)
Definition structure (c d : atom) : C :=
  (sum_over (bonds w) (fun k => only (joins c d k || joins d c k) (x k * cos (theta k))),
   sum_over (bonds w) (fun k => only (joins c d k) (x k * sin (theta k)) - only (joins d c k) (x k * sin (theta k)))).
Definition coupling (c d : atom) (S S' sig sig' : R) : R := ef * (sig * sig') / sqrt (S * S') * Cmod (structure c d).
End TwoSublattices.

(** The two branches, the upper one first. *)
Definition branches (al be g : R) : list R :=
  let r := sqrt (((al + be) / 2) * ((al + be) / 2) - g * g) in [r + Rabs (al - be) / 2; r - Rabs (al - be) / 2].
