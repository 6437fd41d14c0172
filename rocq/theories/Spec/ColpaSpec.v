(** Vocabulary for C37: what the numerical solvers promise, and what a diagonalization of bosons is. *)
From mathcomp Require Import all_ssreflect all_fingroup all_algebra.
Set Implicit Arguments.
Unset Strict Implicit.
Unset Printing Implicit Defensive.
Import GRing.Theory Num.Theory.
Local Open Scope ring_scope.

Section Spec.
Variable C : numClosedFieldType.
Definition dagger m n (A : 'M[C]_(m, n)) : 'M[C]_(n, m) := \matrix_(i, j) (A j i)^*.

(** [L] is a Cholesky factor of [D]: lower triangular with positive diagonal, D = L L^dagger. *)
Definition cholesky_factor n (D L : 'M[C]_n) : Prop :=
  L *m dagger L = D /\ (forall i j : 'I_n, (i < j)%N -> L i j = 0) /\ (forall i : 'I_n, 0 < L i i).
(** The columns of [U] are linearly independent eigenvectors of [M] of length one with the eigenvalues [L]. *)
Definition eigenpairs n (M : 'M[C]_n) (L : 'rV[C]_n) (U : 'M[C]_n) : Prop :=
  (forall i j, (M *m U) i j = L 0 j * U i j) /\ (forall j, \sum_i `|U i j| ^+ 2 = 1) /\ U \in unitmx.
Definition orthogonal_columns n (U : 'M[C]_n) : Prop := forall i j : 'I_n, i != j -> \sum_k (U k i)^* * U k j = 0.
(** [s] sorts real numbers in descending order. *)
Definition sorts_descending n (L : 'rV[C]_n) (s : 'S_n) : Prop := forall i j : 'I_n, (i <= j)%N -> L 0 (s j) <= L 0 (s i).
Definition positive_definite n (D : 'M[C]_n) : Prop :=
  dagger D = D /\ forall x : 'cV[C]_n, x != 0 -> 0 < (dagger x *m D *m x) 0 0.
(** The contracts of numpy.linalg.cholesky, numpy.linalg.eig on Hermitian matrices, and numpy.sort on real numbers. *)
Definition cholesky_contract n (cholesky : 'M[C]_n -> option 'M[C]_n) : Prop :=
  forall D L, cholesky D = Some L -> cholesky_factor D L.
Definition eig_contract n (eig : 'M[C]_n -> option ('rV[C]_n * 'M[C]_n)) : Prop :=
  forall M L U, dagger M = M -> eig M = Some (L, U) -> eigenpairs M L U.
(** What numpy.linalg.eigh promises and eig does not. *)
Definition orthogonal_eigenvectors n (eig : 'M[C]_n -> option ('rV[C]_n * 'M[C]_n)) : Prop :=
  forall M L U, dagger M = M -> eig M = Some (L, U) -> orthogonal_columns U.
Definition sort_contract n (sort : 'rV[C]_n -> 'S_n) : Prop :=
  forall L : 'rV[C]_n, (forall i, L 0 i \is Num.real) -> sorts_descending L (sort L).

(** +1 on the first half, -1 on the second. *)
Definition signature N : 'M[C]_(N + N) := \matrix_(i, j) (if i == j then if (i < N)%N then 1 else -1 else 0).
(** [G] keeps the commutation relations of the bosons and brings D to the diagonal form E. *)
Definition para_unitary N (G : 'M[C]_(N + N)) : Prop := G *m signature N *m dagger G = signature N.
Definition diagonalizes N (D G : 'M[C]_(N + N)) (E : 'rV[C]_(N + N)) : Prop := D = dagger G *m diag_mx E *m G.
(** No energy repeats among the first N nor among the last N. *)
Definition nondegenerate N (E : 'rV[C]_(N + N)) : Prop :=
  forall i j : 'I_(N + N), (i < N)%N = (j < N)%N -> E 0 i = E 0 j -> i = j.
End Spec.
