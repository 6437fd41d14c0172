(** With the contracts of numpy, Colpa's routine succeeds exactly on positive definite matrices. *)
From Coq Require Import Reals Lra Lia.
From mathcomp Require Import all_ssreflect all_fingroup all_algebra complex.
From Coquelicot Require Import Complex.
From Verif.Base Require Import RealField.
From Verif.Model Require Import Colpa Solver Dispersion.
From Verif.Spec Require Import DispersionSpec RotationSpec ColpaSpec SpectrumSpec OmegaSpec.
From Verif.Proofs Require Import ColpaProofs SpectrumProofs OmegaProofs.
Set Implicit Arguments.
Unset Strict Implicit.
Unset Printing Implicit Defensive.
Import GRing.Theory Num.Theory Order.TTheory.
Local Open Scope ring_scope.

Lemma mc_sum n f : to_mc (csum n f) = \sum_(i < n) to_mc (f i).
Proof. elim: n => [|n IH] /=; first by rewrite big_ord0. by rewrite big_ord_recr /= mc_add IH. Qed.
Lemma mc_pos (z : C) : 0 < to_mc z <-> snd z = R0 /\ Rlt R0 (fst z).
Proof.
  case: z => x y. rewrite ltcE /=. split.
  - by move=> /andP [/eqP -> /RltbP].
  - move=> [-> H]. rewrite eqxx /=. by apply/RltbP.
Qed.
Lemma mc_inj a b : to_mc a = to_mc b -> a = b.
Proof. by move=> H; rewrite -[a]of_to H of_to. Qed.

Section Pd.
Variables (N : nat) (m : nat -> nat -> C).
Definition column (x : nat -> C) : 'cV[RC]_(N + N) := \col_i to_mc (x i).
Lemma quad_form x : to_mc (quad (N + N)%N m x) = (dagger (column x) *m as_matrix N m *m column x) 0 0.
Proof.
  rewrite /quad mc_sum !mxE. rewrite (eq_bigr (fun i : 'I_(N + N) => \sum_(j < N + N) (to_mc (x i))^* * to_mc (m i j) * to_mc (x j))); last first.
    by move=> i _; rewrite mc_sum; apply: eq_bigr => j _; rewrite !mc_mul mc_conj.
  rewrite exchange_big /=. apply: eq_bigr => j _. rewrite !mxE big_distrl /=. by apply: eq_bigr => i _; rewrite !mxE.
Qed.
Lemma herm_matrix : hermitian (N + N)%N m <-> dagger (as_matrix N m) = as_matrix N m.
Proof.
  split.
  - move=> H. apply/matrixP => i j. rewrite !mxE -mc_conj. congr to_mc. symmetry. apply: H; exact/ssrnat.ltP/ltn_ord.
  - move=> /matrixP H p q /ssrnat.ltP Hp /ssrnat.ltP Hq. move: (H (Ordinal Hq) (Ordinal Hp)). rewrite !mxE -mc_conj /= => /mc_inj ->. by [].
Qed.
Lemma definite_matrix : DispersionSpec.positive_definite (N + N)%N m <-> ColpaSpec.positive_definite (as_matrix N m).
Proof.
  split=> -[/herm_matrix H1 H2]; split=> //.
  - move=> y Hy. pose x p := if insub p is Some i then of_mc (y i 0) else RtoC R0.
    have Ey : y = column x by apply/matrixP => i j; rewrite !mxE /x valK to_of ord1.
    rewrite Ey -quad_form. apply/mc_pos. split; last first.
      apply: H2. have [i Hi] : exists i, y i 0 != 0. { apply/existsP. apply: contraNT Hy. rewrite negb_exists => /forallP Z. apply/eqP/matrixP => i j. rewrite mxE ord1. by apply/eqP; rewrite -[_ == _]negbK. }
      exists i. split; first exact/ssrnat.ltP/ltn_ord. rewrite /x valK => Z. case/eqP: Hi. by rewrite -[LHS]to_of Z.
    have R : (to_mc (quad (N + N)%N m x))^* = to_mc (quad (N + N)%N m x).
      rewrite quad_form. set A := _ *m _. have -> : (A 0 0)^* = (dagger A) 0 0 by rewrite [RHS]mxE. have H1a : adj (as_matrix N m) = as_matrix N m by rewrite -dagger_adj. by rewrite /A !dagger_adj adjM [adj (adj _ *m _)]adjM adjK H1a mulmxA.
    move: R. rewrite -mc_conj => /mc_inj. case: (quad _ _ _) => u v. rewrite /Cconj /= => -[]. lra.
  - move=> x [p [/ssrnat.ltP Hp Hx]]. have Hc : column x != 0.
      apply/eqP => /matrixP /(_ (Ordinal Hp) 0). rewrite !mxE /= => Z. apply: Hx. apply: mc_inj. by rewrite Z.
    have := H2 _ Hc. by rewrite -quad_form => /mc_pos [].
Qed.
End Pd.

Lemma double N : Nat.mul 2 N = (N + N)%N. Proof. rewrite -plusE. lia. Qed.
Lemma solver_ok np N : numpy_works np ->
  succeeds_on_positive_definite (Nat.mul 2 N) (colpa_solver np N) /\ one_energy_per_row (Nat.mul 2 N) (colpa_solver np N) /\ real_energies (colpa_solver np N).
Proof.
  move=> W. rewrite double. split; [|split].
  - move=> m _. case: (outcome_cases N m W) => [[A [E [G [_ ->]]]]|[A ->]].
    + split=> // _. by apply/definite_matrix.
    + split=> // /definite_matrix. by [].
  - move=> m E G. case: (outcome_cases N m W) => [[_ [E' [G' [_ ->]]]]|[_ ->]] // [<- _]. rewrite -[List.length _]/(size _). by rewrite size_map size_enum_ord.
  - move=> m E G. case: (outcome_cases N m W) => [[_ [E' [G' [Hs ->]]]]|[_ ->]] // [<- _].
    have [h1 [h2 [h3 _]]] := W N. have [P _] := colpa_energies h1 h2 h3 Hs. apply/List.Forall_forall => z. rewrite /as_list => /List.in_map_iff [i [<- _]].
    have := P i. rewrite -[E' 0 i]to_of => /mc_pos [-> _]. by [].
Qed.
