(** The second order of a bond between parallel and between opposite spins. *)
From Coq Require Import Reals Lra Lia.
From Coquelicot Require Import Complex.
From Verif.Base Require Import Scalar ScalarR Linear3.
From Verif.Model Require Import Dispersion.
From Verif.Spec Require Import DispersionSpec SublatticeSpec.
From Verif.Proofs Require Import SpinWaveLocal RotationProofs SublatticeMatrix.
Local Open Scope R_scope.

Definition axial (x z : R) (n : V3 R) : M3 R := madd (mscale x mid) (mscale z (projector n)).
Lemma bil_axial x z n u v : bil u (axial x z n) v = x * dot u v + z * (dot u n * dot n v).
Proof. destruct n, u, v. unfold bil, axial, projector, madd, mscale, mmap, mmap2, mid, mvec, mrow1, mrow2, mrow3, dot; cbn. ring. Qed.
Lemma axial_opposite x z n : axial x z (vopp n) = axial x z n.
Proof. destruct n. unfold axial, projector, madd, mscale, mmap, mmap2, mid, vopp, vmap; cbn. f_equal; ring. Qed.

Lemma opposite_frames e1 e2 n f1 f2 : right_handed e1 e2 n -> right_handed f1 f2 (vopp n) -> exists c s, c * c + s * s = 1 /\
  f1 = vadd (vscale c e1) (vscale s e2) /\ f2 = vadd (vscale s e1) (vscale (- c) e2).
Proof.
  intros H (A & B & E & F). destruct (frames e1 e2 n f1 (vopp f2) H) as (c & s & N & E1 & E2).
  - destruct f1, f2, n. unfold right_handed, dot, cross, vopp, vmap in *; cbn in *. repeat split; try lra. injection F as F1 F2 F3. f_equal; lra.
  - exists c, s. split; [exact N|]. split; [exact E1|]. destruct f2, e1, e2. unfold vopp, vadd, vscale, vmap, vmap2 in *; cbn in *. injection E2 as X Y Z. f_equal; lra.
Qed.

Lemma frame_products e1 e2 n : right_handed e1 e2 n -> dot e1 e1 = 1 /\ dot e2 e2 = 1 /\ dot e1 e2 = 0 /\ dot e2 e1 = 0 /\ dot n n = 1 /\
  dot e1 n = 0 /\ dot e2 n = 0 /\ dot n e1 = 0 /\ dot n e2 = 0.
Proof.
  intros (A & B & E & F).
  assert (N : dot n n = 1).
  { rewrite <- F. transitivity (dot e1 e1 * dot e2 e2 - dot e1 e2 * dot e1 e2).
    - destruct e1, e2; unfold dot, cross; cbn; ring.
    - rewrite A, B, E. ring. }
  subst n. repeat split; auto; [rewrite <- E|..]; destruct e1, e2; unfold dot, cross; cbn; ring.
Qed.

Section Forms.
Variables (x z : R) (e1 e2 n : V3 R).
Hypothesis H : right_handed e1 e2 n.
Let J := axial x z n.
Lemma forms : bil e1 J e1 = x /\ bil e2 J e2 = x /\ bil e1 J e2 = 0 /\ bil e2 J e1 = 0 /\ bil n J n = x + z.
Proof.
  destruct (frame_products _ _ _ H) as (A1 & A2 & A3 & A4 & A5 & A6 & A7 & A8 & A9). unfold J. rewrite !bil_axial, A1, A2, A3, A4, A5, A6, A7, A8, A9. repeat split; ring.
Qed.
Lemma bil_add1 u v K t : bil (vadd u v) K t = bil u K t + bil v K t.
Proof. destruct u, v, K, t. unfold bil, dot, vadd, vmap2, mvec, mrow1, mrow2, mrow3, dot; cbn; ring. Qed.
Lemma bil_add2 u v K t : bil t K (vadd u v) = bil t K u + bil t K v.
Proof. destruct u, v, K, t. unfold bil, dot, vadd, vmap2, mvec, mrow1, mrow2, mrow3, dot; cbn; ring. Qed.
Lemma bil_scale1 c u K t : bil (vscale c u) K t = c * bil u K t.
Proof. destruct u, K, t. unfold bil, dot, vscale, vmap, mvec, mrow1, mrow2, mrow3, dot; cbn; ring. Qed.
Lemma bil_scale2 c u K t : bil t K (vscale c u) = c * bil t K u.
Proof. destruct u, K, t. unfold bil, dot, vscale, vmap, mvec, mrow1, mrow2, mrow3, dot; cbn; ring. Qed.

Lemma parallel_bond S p q th : 0 < S -> second_mean S S e1 e2 n e1 e2 n J p q p q th = 2 / S * (x * (cos th - 1) - z) * (two_real p + two_real q).
Proof.
  intros Ps. assert (Sq : sqrt (2 / S) * sqrt (2 / S) = 2 / S) by (apply sqrt_sqrt; left; apply Rdiv_lt_0_compat; lra).
  destruct forms as (F1 & F2 & F3 & F4 & F5). unfold second_mean, overlap, cos_part, sin_part. rewrite Sq, !bil_add1, !bil_add2, !bil_scale1, !bil_scale2, F1, F2, F3, F4, F5.
  unfold amount, size2, two_real. field. lra.
Qed.

Variables (c s : R) (f1 f2 : V3 R).
Hypothesis E1 : f1 = vadd (vscale c e1) (vscale s e2).
Hypothesis E2 : f2 = vadd (vscale s e1) (vscale (- c) e2).
Definition even_pair (g p q p' q' : C) : R := 2 * re3 p g q' + 2 * re3 p' g q.
Definition odd_pair (g p q p' q' : C) : R := 2 * re3 p (Cmult Ci g) q' - 2 * re3 p' (Cmult Ci g) q.

Lemma root_product S S' : 0 < S -> 0 < S' -> sqrt (2 / S) * sqrt (2 / S') = 2 / sqrt (S * S').
Proof.
  intros P P'. rewrite <- sqrt_mult by (left; apply Rdiv_lt_0_compat; lra). replace (2 / S * (2 / S')) with (2 * 2 / (S * S')) by (field; lra).
  rewrite sqrt_div by nra. rewrite sqrt_square by lra. reflexivity.
Qed.
Lemma opposite_end u : bil u J (vopp n) = - bil u J n.
Proof. destruct n, u. unfold bil, J, axial, projector, madd, mscale, mmap, mmap2, mid, mvec, mrow1, mrow2, mrow3, dot, vopp, vmap; cbn. ring. Qed.
Lemma opposite_start u : bil (vopp n) J u = - bil n J u.
Proof. destruct n, u. unfold bil, J, axial, projector, madd, mscale, mmap, mmap2, mid, mvec, mrow1, mrow2, mrow3, dot, vopp, vmap; cbn. ring. Qed.

Lemma opposite_bond S S' p q p' q' th : 0 < S -> 0 < S' -> second_mean S S' e1 e2 n f1 f2 (vopp n) J p q p' q' th =
  (x + z) * ((two_real p + two_real q) / S + (two_real p' + two_real q') / S') + x / sqrt (S * S') * (cos th * even_pair (c, s) p q p' q' + sin th * odd_pair (c, s) p q p' q').
Proof.
  intros P P'. destruct forms as (F1 & F2 & F3 & F4 & F5). unfold second_mean, overlap, cos_part, sin_part. rewrite root_product, opposite_end, E1, E2 by assumption.
  rewrite !bil_add1, !bil_add2, !bil_scale1, !bil_scale2, !bil_add2, !bil_scale2, F1, F2, F3, F4, F5.
  assert (0 < sqrt (S * S')) by (apply sqrt_lt_R0; nra).
  unfold even_pair, odd_pair, re3, amount, size2, two_real, Cmult, Cconj, Ci; cbn [fst snd]. destruct p, q, p', q'; cbn [fst snd]. field. lra.
Qed.
Lemma opposite_bond' S S' p q p' q' th : 0 < S -> 0 < S' -> second_mean S' S f1 f2 (vopp n) e1 e2 n J p' q' p q th =
  (x + z) * ((two_real p + two_real q) / S + (two_real p' + two_real q') / S') + x / sqrt (S * S') * (cos th * even_pair (c, s) p q p' q' - sin th * odd_pair (c, s) p q p' q').
Proof.
  intros P P'. destruct forms as (F1 & F2 & F3 & F4 & F5). unfold second_mean, overlap, cos_part, sin_part. rewrite root_product, opposite_start, E1, E2 by assumption. rewrite (Rmult_comm S' S).
  rewrite !bil_add1, !bil_add2, !bil_scale1, !bil_scale2, !bil_add1, !bil_scale1, F1, F2, F3, F4, F5.
  assert (0 < sqrt (S * S')) by (apply sqrt_lt_R0; nra).
  unfold even_pair, odd_pair, re3, amount, size2, two_real, Cmult, Cconj, Ci; cbn [fst snd]. destruct p, q, p', q'; cbn [fst snd]. field. lra.
Qed.
End Forms.
