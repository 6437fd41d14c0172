(** C37: Colpa's diagonalization, solve_via_colpa. *)
From mathcomp Require Import all_ssreflect all_fingroup all_algebra algC.
From Verif.Model Require Import Colpa.
From Verif.Spec Require Import ColpaSpec.
From Verif.Proofs Require Import ColpaProofs ColpaWitness.
Import GRing.Theory Num.Theory.
Local Open Scope ring_scope.

(** The full claim is C37_diagonalizes_partial without its last hypothesis; C37_refuted shows that it fails there. *)
Theorem C37_diagonalizes_partial : forall (C : numClosedFieldType) (N : nat) (cholesky : 'M[C]_(N + N) -> option 'M[C]_(N + N)) eig sort D E G,
  cholesky_contract cholesky -> eig_contract eig -> sort_contract sort ->
  solve_via_colpa cholesky eig sort D = Solved E G ->
  orthogonal_eigenvectors eig \/ nondegenerate E ->
  para_unitary G /\ diagonalizes D G E.
Proof. exact (fun C N c e s D E G h1 h2 h3 => @colpa_correct C N c e s h1 h2 h3 D G E). Qed.
Print Assumptions C37_diagonalizes_partial.

Theorem C37_energies : forall (C : numClosedFieldType) (N : nat) (cholesky : 'M[C]_(N + N) -> option 'M[C]_(N + N)) eig sort D E G,
  cholesky_contract cholesky -> eig_contract eig -> sort_contract sort ->
  solve_via_colpa cholesky eig sort D = Solved E G ->
  (forall i, 0 < E 0 i) /\
  (forall i j : 'I_(N + N), (i <= j)%N -> (j < N)%N -> E 0 j <= E 0 i) /\
  (forall i j : 'I_(N + N), (N <= i)%N -> (i <= j)%N -> E 0 i <= E 0 j).
Proof. exact (fun C N c e s D E G h1 h2 h3 => @colpa_energies C N c e s h1 h2 h3 D G E). Qed.
Print Assumptions C37_energies.

(** The magnon energies are eigenvalues of g D: the columns of the inverse of G are the modes. *)
Theorem C37_modes : forall (C : numClosedFieldType) (N : nat) (D G : 'M[C]_(N + N)) (E : 'rV[C]_(N + N)),
  para_unitary G -> diagonalizes D G E ->
  G \in unitmx /\ signature C N *m D *m invmx G = invmx G *m (signature C N *m diag_mx E).
Proof. exact colpa_modes. Qed.
Print Assumptions C37_modes.

Theorem C37_failed : forall (C : numClosedFieldType) (N : nat) (cholesky : 'M[C]_(N + N) -> option 'M[C]_(N + N)) eig sort D,
  cholesky_contract cholesky -> (positive_definite D -> cholesky D <> None) ->
  (solve_via_colpa cholesky eig sort D = ColpaFailed <-> ~ positive_definite D).
Proof. exact colpa_failed. Qed.
Print Assumptions C37_failed.

(** Two modes of equal energy: solvers that keep their promises and a G that neither is para-unitary nor diagonalizes. *)
Theorem C37_refuted : exists (cholesky : 'M[algC]_(2 + 2) -> option 'M[algC]_(2 + 2)) eig sort E G,
  [/\ cholesky_contract cholesky, eig_contract eig, sort_contract sort,
      solve_via_colpa cholesky eig sort 1%:M = Solved E G &
      ~ para_unitary G /\ ~ diagonalizes 1%:M G E].
Proof. exact (colpa_refuted algCnumClosedField). Qed.
Print Assumptions C37_refuted.

Example C37_example : exists (cholesky : 'M[algC]_(1 + 1) -> option 'M[algC]_(1 + 1)) eig sort E G,
  [/\ cholesky_contract cholesky, eig_contract eig, sort_contract sort,
      solve_via_colpa cholesky eig sort (\matrix_(i, j) (if i == j then 625%:R else 600%:R)) = Solved E G &
      nondegenerate E /\ E 0 0 = 175%:R].
Proof. exact (colpa_example algCnumClosedField). Qed.
