(** Property C75: the energies that solve_via_colpa returns are the spectrum of the boson Hamiltonian. *)
From mathcomp Require Import all_ssreflect all_fingroup all_algebra.
From Verif.Model Require Import Colpa Solver.
From Verif.Spec Require Import ColpaSpec SpectrumSpec OmegaSpec.
From Verif.Proofs Require Import SpectrumProofs OmegaCases.
Import GRing.Theory Num.Theory.
Local Open Scope ring_scope.

(** With signs they are the eigenvalues of g D, each as often as its multiplicity. Unlike C37 this holds for degenerate energies. *)
Theorem C75_spectrum : forall (C : numClosedFieldType) (N : nat) (cholesky : 'M[C]_(N + N) -> option 'M[C]_(N + N)) eig sort,
  cholesky_contract cholesky -> eig_contract eig -> sort_contract sort -> forall D E G,
  solve_via_colpa cholesky eig sort D = Solved E G ->
  char_poly (signature C N *m D) = \prod_(i < N + N) ('X - (signed E i)%:P).
Proof. exact colpa_spectrum. Qed.
Print Assumptions C75_spectrum.

(** A canonical transformation of the bosons does not change them, whatever routines are used for the two calls. *)
Theorem C75_unique : forall (C : numClosedFieldType) N cholesky eig sort cholesky' eig' sort' (D T : 'M[C]_(N + N)) E G E' G', para_unitary T ->
  cholesky_contract cholesky -> eig_contract eig -> sort_contract sort -> cholesky_contract cholesky' -> eig_contract eig' -> sort_contract sort' ->
  solve_via_colpa cholesky eig sort D = Solved E G -> solve_via_colpa cholesky' eig' sort' (dagger T *m D *m T) = Solved E' G' -> E' = E.
Proof. exact canonical_unique. Qed.
Print Assumptions C75_unique.

Theorem C75_failures : forall (C : numClosedFieldType) N cholesky eig sort cholesky' eig' sort' (D T : 'M[C]_(N + N)), para_unitary T ->
  cholesky_contract cholesky -> (forall X, positive_definite X -> cholesky X <> None) -> cholesky_contract cholesky' -> (forall X, positive_definite X -> cholesky' X <> None) ->
  (solve_via_colpa cholesky eig sort D = ColpaFailed <-> solve_via_colpa cholesky' eig' sort' (dagger T *m D *m T) = ColpaFailed).
Proof. exact canonical_failures. Qed.
Print Assumptions C75_failures.

(** Annihilation and creation operators exchanged: the same energies in the opposite order. *)
Theorem C75_holes : forall (C : numClosedFieldType) N cholesky eig sort cholesky' eig' sort' (D : 'M[C]_(N + N)) E G E' G',
  cholesky_contract cholesky -> eig_contract eig -> sort_contract sort -> cholesky_contract cholesky' -> eig_contract eig' -> sort_contract sort' ->
  solve_via_colpa cholesky eig sort D = Solved E G -> solve_via_colpa cholesky' eig' sort' (particle_hole D) = Solved E' G' ->
  forall i, E' 0 i = E 0 (rev_ord i).
Proof. exact colpa_holes. Qed.
Print Assumptions C75_holes.

(** Routines that meet the contracts exist; with them every positive definite matrix is solved. [boost] is a transformation that
    mixes the two kinds of operators. *)
Example C75_case : exists np, numpy_works np /\ positive_definite (1%:M : 'M[RC]_(2 + 2)) /\ para_unitary (boost RC 2) /\ boost RC 2 != 1%:M /\
  (forall N (D : 'M[RC]_(N + N)), positive_definite D -> exists E G, solve_via_colpa (@np_cholesky np N) (@np_eig np N) (@np_sort np N) D = Solved E G).
Proof. exact spectrum_case. Qed.
