(** Vocabulary for magnon energies in closed form (C78). *)
From Coq Require Import List Bool ZArith Reals.
From Coquelicot Require Import Complex.
From Verif.Base Require Import Scalar ScalarR Linear3 PyDict.
From Verif.Model Require Import MatrixParam Hamiltonian.
From Verif.Spec Require Import HamSpec.
Local Open Scope R_scope.

(** Energy of the boson of a a^+ a + d a a^+ + (b a^+ a^+ + conj b a a) found by the transformation of Bogoliubov. *)
Definition bogoliubov_energy (a d : R) (b : C) : R := (a - d) / 2 + sqrt (((a + d) / 2) * ((a + d) / 2) - Cmod b * Cmod b).

Definition sum_over {A : Type} (l : list A) (f : A -> R) : R := fold_right (fun x acc => f x + acc) 0 l.
Definition stored (o : option (M3 R)) : M3 R := match o with Some J => J | None => mzero end.
Definition between (u : V3 R) (J : M3 R) (v : V3 R) : R := dot u (mvec J v).

Section OneAtom.
(** [ef] and [of_]: the factors of the notation, [sig]: the length of the spin vectors it is written for (1 when they are
    normalized), [S]: the length of the spin, [theta]: the phase k R of a bond, and the axes: e3 along the spin. *)
Variables (w : @world R) (ef of_ sig S : R) (theta : bkey -> R) (e1 e2 e3 : V3 R).

Definition diagonal (t : R) (J : M3 R) : R :=
  cos t * (between e1 J e1 + between e2 J e2) + sin t * (between e1 J e2 - between e2 J e1) - 2 * between e3 J e3.
(** The number of bosons is conserved by this part. *)
Definition normal_part : R :=
  sig * sig / S * (ef * sum_over (bonds w) (fun b => diagonal (theta b) (stored (bond_value w b)))
                   + of_ * sum_over (sites w) (fun a => diagonal 0 (stored (onsite_value w a)))).
(** Pairs of bosons are created and destroyed by this part. *)
Definition pair_term (f : M3 R -> R) : R :=
  sig * sig / S * (ef * sum_over (bonds w) (fun b => cos (theta b) * f (stored (bond_value w b)))
                   + of_ * sum_over (sites w) (fun a => f (stored (onsite_value w a)))).
Definition pair_part : C :=
  (pair_term (fun J => between e1 J e1 - between e2 J e2), pair_term (fun J => between e1 J e2 + between e2 J e1)).
End OneAtom.

(** A ferromagnet with one atom in the cell: the sum of 2 J (cos (k R) - 1) over the bonds. *)
Definition ferromagnet_energy (w : @world R) (ef sig S : R) (theta : bkey -> R) (x : bkey -> R) : R :=
  2 * ef * (sig * sig) / S * sum_over (bonds w) (fun b => x b * (cos (theta b) - 1)).
