(** Model of [solve_via_colpa] (src/magnopy/magnons/diagonalization.py:121-149), in exact complex arithmetic over any
    [numClosedFieldType].

    numpy's solvers are parameters: [cholesky] and [eig] ([None] is LinAlgError), and the permutation [argsort_desc] that
    stands for [np.argsort(U[0])] followed by the reversal [::-1]. *)
From mathcomp Require Import all_ssreflect all_fingroup all_algebra.
Set Implicit Arguments.
Unset Strict Implicit.
Unset Printing Implicit Defensive.
Import GRing.Theory Num.Theory.
Local Open Scope ring_scope.

Section Colpa.
Variable C : numClosedFieldType.

(** [np.conjugate(A).T] *)
Definition adj m n (A : 'M[C]_(m, n)) : 'M[C]_(n, m) := (map_mx conjC A)^T.

Variable N : nat.
Notation mat := 'M[C]_(N + N).
(** [np.diag(np.concatenate((np.ones(N), -np.ones(N))))], diagonalization.py:124 *)
Definition g : mat := block_mx 1%:M 0 0 (- 1%:M).

Variable cholesky : mat -> option mat.
Variable eig : mat -> option ('rV[C]_(N + N) * mat).
Variable argsort_desc : 'rV[C]_(N + N) -> 'S_(N + N).

(** [G[:N, N:] *= -1; G[N:, :N] *= -1], 146-147 *)
Definition flip_blocks (X : mat) : mat := block_mx (ulsubmx X) (- ursubmx X) (- dlsubmx X) (drsubmx X).

(** [return E, G]; ColpaFailed from the except clause, 130-131; an uncaught LinAlgError of eig. *)
Inductive colpa_result := Solved of 'rV[C]_(N + N) & mat | ColpaFailed | EigFailed.

Definition solve_via_colpa (D : mat) : colpa_result :=
  if cholesky D is Some Lc then
    let K := adj Lc in
    if eig (K *m g *m adj K) is Some (L0, U0) then
      let s := argsort_desc L0 in
      let L := \row_i L0 0 (s i) in
      let U := \matrix_(i, j) U0 i (s j) in
      let E := (g *m L^T)^T in
      let Gm := invmx K *m U *m diag_mx (map_mx sqrtC E) in
      Solved E (flip_blocks (adj Gm))
    else EigFailed
  else ColpaFailed.
End Colpa.
Arguments ColpaFailed {C N}.
Arguments EigFailed {C N}.
