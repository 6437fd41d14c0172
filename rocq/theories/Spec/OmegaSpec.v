(** Vocabulary for C76: what is assumed of numpy. *)
From mathcomp Require Import all_ssreflect all_fingroup all_algebra.
From Verif.Model Require Import Solver.
From Verif.Spec Require Import ColpaSpec.
Set Implicit Arguments.
Unset Strict Implicit.
Unset Printing Implicit Defensive.

(** The factorisation is right and exists for positive definite matrices, eigenpairs of Hermitian matrices are right and always
    found, sorting sorts. *)
Definition numpy_works (np : numpy) : Prop := forall N,
  cholesky_contract (@np_cholesky np N) /\ eig_contract (@np_eig np N) /\ sort_contract (@np_sort np N) /\
  (forall D, positive_definite D -> @np_cholesky np N D <> None) /\ (forall M, dagger M = M -> @np_eig np N M <> None).
