(** [solve_via_colpa] (Model/Colpa.v) on the arrays that [omega] passes to it (src/magnopy/magnons/dispersion.py:305-330):
    2N x 2N complex numbers given by their entries. *)
From Coq Require Import Reals.
From mathcomp Require Import all_ssreflect all_fingroup all_algebra complex.
From Coquelicot Require Import Complex.
From Verif.Base Require Import RealField.
From Verif.Model Require Import Colpa.
Set Implicit Arguments.
Unset Strict Implicit.
Unset Printing Implicit Defensive.
Import GRing.Theory Num.Theory.

(** Complex numbers of the Mathematical Components library over the real numbers of the standard library. *)
Notation RC := (complex_numClosedFieldType R_rcfType).
Definition to_mc (z : C) : RC := @complex.Complex R (fst z) (snd z).
Definition of_mc (z : RC) : C := (@complex.Re R z, @complex.Im R z).

(** The functions of numpy that solve_via_colpa calls: linalg.cholesky and linalg.eig ([None] is LinAlgError), argsort and [::-1]. *)
Record numpy := mkNumpy {
  np_cholesky : forall N, 'M[RC]_(N + N) -> option 'M[RC]_(N + N);
  np_eig : forall N, 'M[RC]_(N + N) -> option ('rV[RC]_(N + N) * 'M[RC]_(N + N));
  np_sort : forall N, 'rV[RC]_(N + N) -> 'S_(N + N) }.

Definition as_matrix N (h : nat -> nat -> C) : 'M[RC]_(N + N) := \matrix_(i, j) to_mc (h i j).
Definition as_list n (E : 'rV[RC]_n) : list C := [seq of_mc (E ord0 i) | i <- enum 'I_n].
Definition as_entries n (G : 'M[RC]_n) (p q : nat) : C :=
  match insub p, insub q with Some i, Some j => of_mc (G i j) | _, _ => RtoC 0 end.

(** [None]: ColpaFailed. The other exception, LinAlgError of eig, is excluded by assumption where it matters ([numpy_works] of
    Spec/OmegaSpec.v); here it is not distinguished. *)
Definition colpa_solver (np : numpy) (N : nat) (h : nat -> nat -> C) : option (list C * (nat -> nat -> C)) :=
  match solve_via_colpa (@np_cholesky np N) (@np_eig np N) (@np_sort np N) (as_matrix N h) with
  | Solved E G => Some (as_list E, as_entries G)
  | ColpaFailed | EigFailed => None
  end.
