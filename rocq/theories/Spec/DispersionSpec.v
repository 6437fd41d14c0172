(** Vocabulary for the magnon dispersion (C35, C36, C38, C55-C59). *)
From Coq Require Import List Bool ZArith Reals.
From Coquelicot Require Import Complex.
From Verif.Base Require Import Scalar ScalarR Linear3 PyDict.
From Verif.Model Require Import MatrixParam Hamiltonian EnergyInit Energy.
From Verif.Spec Require Import HamSpec.
Local Open Scope R_scope.

(** An n x n matrix equal to its conjugate transpose. *)
Definition hermitian (n : nat) (m : nat -> nat -> C) : Prop :=
  forall p q, (p < n)%nat -> (q < n)%nat -> m q p = Cconj (m p q).

(** The other half of 0 .. 2N-1. *)
Definition other_half (N p : nat) : nat := if Nat.ltb p N then (p + N)%nat else (p - N)%nat.

(** On-site matrices are symmetric. *)
Definition symmetric_onsite (w : @world R) : Prop := forall a A, onsite_value w a = Some A -> A = mtrans A.

(** A vector of the reciprocal lattice of [cell]. *)
Definition reciprocal_vector (cell : M3 R) (G : V3 R) : Prop :=
  forall i j k : Z, exists n : Z, dot G (vmat (mkV (IZR i) (IZR j) (IZR k)) cell) = 2 * PI * IZR n.

(** exp(i x) *)
Definition phase (x : R) : C := (cos x, sin x).

(** Right-handed orthonormal triple. *)
Definition right_handed (e1 e2 e3 : V3 R) : Prop :=
  dot e1 e1 = 1 /\ dot e2 e2 = 1 /\ dot e1 e2 = 0 /\ cross e1 e2 = e3.

(** Quadratic form of a matrix, and positive definiteness, for n x n complex matrices. *)
Fixpoint csum (n : nat) (f : nat -> C) : C := match n with O => RtoC 0 | S m => Cplus (csum m f) (f m) end.
Definition quad (n : nat) (m : nat -> nat -> C) (x : nat -> C) : C :=
  csum n (fun p => csum n (fun q => Cmult (Cmult (Cconj (x p)) (m p q)) (x q))).
Definition positive_definite (n : nat) (m : nat -> nat -> C) : Prop :=
  hermitian n m /\ forall x, (exists p, (p < n)%nat /\ x p <> RtoC 0) -> 0 < fst (quad n m x).
Definition mat_vec (n : nat) (m : nat -> nat -> C) (x : nat -> C) (p : nat) : C := csum n (fun q => Cmult (m p q) (x q)).

(** Within numpy's default tolerances of the direction +z or -z. *)
Definition near_pole (v : V3 R) : Prop :=
  Rabs (vx v) <= / 10 ^ 8 /\ Rabs (vy v) <= / 10 ^ 8 /\
  (Rabs (vz v - 1) <= / 10 ^ 8 + / 10 ^ 5 \/ Rabs (vz v + 1) <= / 10 ^ 8 + / 10 ^ 5).

(** The same vector with length one. *)
Definition direction_of (v : V3 R) : V3 R := vscale (/ sqrt (dot v v)) v.

(** A diagonalization routine that succeeds exactly on the positive definite ones among the Hermitian matrices, and
    then returns one energy per row. *)
Definition succeeds_on_positive_definite (n : nat) {A} (solve : (nat -> nat -> C) -> option (list C * A)) : Prop :=
  forall m, hermitian n m -> (solve m <> None <-> positive_definite n m).
Definition one_energy_per_row (n : nat) {A} (solve : (nat -> nat -> C) -> option (list C * A)) : Prop :=
  forall m E G, solve m = Some (E, G) -> length E = n.
Definition real_energies {A} (solve : (nat -> nat -> C) -> option (list C * A)) : Prop :=
  forall m E G, solve m = Some (E, G) -> Forall (fun z => snd z = 0) E.
