(** The hypotheses of C75, C76 and C77 can be met. *)
From Coq Require Import Reals.
From mathcomp Require Import all_ssreflect all_fingroup all_algebra complex.
From Verif.Base Require Import RealField.
From Verif.Model Require Import Colpa Solver.
From Verif.Spec Require Import ColpaSpec SpectrumSpec OmegaSpec.
From Verif.Proofs Require Import ColpaProofs SpectrumProofs GoldstoneProofs NumpyExists.
Set Implicit Arguments.
Unset Strict Implicit.
Unset Printing Implicit Defensive.
Import GRing.Theory Num.Theory Order.TTheory.
Local Open Scope ring_scope.

Lemma numpy_solves np : numpy_works np -> forall N D, positive_definite D ->
  exists E G, solve_via_colpa (@np_cholesky np N) (@np_eig np N) (@np_sort np N) D = Solved E G.
Proof.
  move=> /[swap] N /(_ N) [h1 [h2 [h3 [h4 h5]]]] D HD. have F := colpa_failed (@np_eig np N) (@np_sort np N) h1 (h4 D).
  case Es: (solve_via_colpa _ _ _ _) => [E G| |]; first by exists E, G.
  - by move/F: Es.
  - exfalso. move: Es. rewrite /solve_via_colpa. case Ec: (np_cholesky _) => [Lc|] //. case Ee: (np_eig _) => [[L U]|] //.
    move=> _. apply: (h5 _ _ Ee). by rewrite dagger_adj M_herm.
Qed.
Lemma one_definite N : positive_definite (1%:M : 'M[RC]_(N + N)).
Proof.
  split; first by apply/matrixP => i j; rewrite !mxE eq_sym rmorph_nat.
  move=> x Hx. rewrite mulmx1. exact: pos_norm.
Qed.
Lemma spectrum_case : exists np, numpy_works np /\ positive_definite (1%:M : 'M[RC]_(2 + 2)) /\ para_unitary (boost RC 2) /\ boost RC 2 != 1%:M /\
  (forall N (D : 'M[RC]_(N + N)), positive_definite D -> exists E G, solve_via_colpa (@np_cholesky np N) (@np_eig np N) (@np_sort np N) D = Solved E G).
Proof.
  have [np W] := numpy_exists. exists np. split=> //. split; first exact: one_definite. split; first exact: boost_para. split; last exact: numpy_solves.
  apply/eqP => /matrixP /(_ (lshift 2 0) (rshift 2 0)). rewrite block_mxEur !mxE eqxx mulr1n /= => /eqP.
  rewrite mulf_eq0 invr_eq0 !pnatr_eq0. by [].
Qed.
