(** The second order of a bond between two parallel spins. *)
From Coq Require Import Reals Lra Lia.
From Coquelicot Require Import Complex.
From Verif.Base Require Import Scalar ScalarR Linear3.
From Verif.Model Require Import Dispersion.
From Verif.Spec Require Import DispersionSpec SublatticeSpec.
From Verif.Proofs Require Import SpinWaveLocal RotationProofs SublatticeMatrix SublatticeLocal.
Local Open Scope R_scope.

Section Forms.
Variables (x z : R) (e1 e2 n : V3 R).
Hypothesis H : right_handed e1 e2 n.
Let J := axial x z n.
Variables (c s : R) (f1 f2 : V3 R).
Hypothesis E1 : f1 = vadd (vscale c e1) (vscale s e2).
Hypothesis E2 : f2 = vadd (vscale (- s) e1) (vscale c e2).
Definition even_side (g p q p' q' : C) : R := 2 * re3 p g p' + 2 * re3 q' g q.
Definition odd_side (g p q p' q' : C) : R := 2 * re3 p (Cmult Ci g) p' - 2 * re3 q' (Cmult Ci g) q.

Lemma side_bond S S' p q p' q' th : 0 < S -> 0 < S' -> second_mean S S' e1 e2 n f1 f2 n J p q p' q' th =
  - (x + z) * ((two_real p + two_real q) / S + (two_real p' + two_real q') / S') + x / sqrt (S * S') * (cos th * even_side (c, s) p q p' q' + sin th * odd_side (c, s) p q p' q').
Proof.
  intros P P'. destruct (forms x z _ _ _ H) as (F1 & F2 & F3 & F4 & F5). fold J in F1, F2, F3, F4, F5. unfold second_mean, overlap, cos_part, sin_part. rewrite root_product, E1, E2 by assumption.
  rewrite !bil_add1, !bil_add2, !bil_scale1, !bil_scale2, !bil_add2, !bil_scale2, F1, F2, F3, F4, F5.
  assert (0 < sqrt (S * S')) by (apply sqrt_lt_R0; nra).
  unfold even_side, odd_side, re3, amount, size2, two_real, Cmult, Cconj, Ci; cbn [fst snd]. destruct p, q, p', q'; cbn [fst snd]. field. lra.
Qed.
Lemma side_bond' S S' p q p' q' th : 0 < S -> 0 < S' -> second_mean S' S f1 f2 n e1 e2 n J p' q' p q th =
  - (x + z) * ((two_real p + two_real q) / S + (two_real p' + two_real q') / S') + x / sqrt (S * S') * (cos th * even_side (c, s) p q p' q' - sin th * odd_side (c, s) p q p' q').
Proof.
  intros P P'. destruct (forms x z _ _ _ H) as (F1 & F2 & F3 & F4 & F5). fold J in F1, F2, F3, F4, F5. unfold second_mean, overlap, cos_part, sin_part. rewrite root_product, E1, E2 by assumption. rewrite (Rmult_comm S' S).
  rewrite !bil_add1, !bil_add2, !bil_scale1, !bil_scale2, !bil_add1, !bil_scale1, F1, F2, F3, F4, F5.
  assert (0 < sqrt (S * S')) by (apply sqrt_lt_R0; nra).
  unfold even_side, odd_side, re3, amount, size2, two_real, Cmult, Cconj, Ci; cbn [fst snd]. destruct p, q, p', q'; cbn [fst snd]. field. lra.
Qed.
End Forms.
