(** Four by four Hermitian matrices with the pattern of two hopping bosons. *)
From Coq Require Import Reals Lra Lia.
From Coquelicot Require Import Complex.
From Verif.Base Require Import Scalar ScalarR Linear3.
From Verif.Model Require Import Dispersion.
From Verif.Spec Require Import DispersionSpec.
From Verif.Proofs Require Import SublatticeMatrix.
Local Open Scope R_scope.

Definition beside (A B : R) (g g' : C) (p q : nat) : C :=
  match p, q with
  | 0, 0 => RtoC A | 2, 2 => RtoC A | 1, 1 => RtoC B | 3, 3 => RtoC B
  | 0, 1 => g | 1, 0 => Cconj g | 3, 2 => g' | 2, 3 => Cconj g'
  | _, _ => RtoC 0
  end%nat.

Lemma beside_hermitian A B g g' : hermitian 4 (beside A B g g').
Proof.
  intros p q Hp Hq. assert (Z : forall r, RtoC r = Cconj (RtoC r)) by (intros r; unfold Cconj, RtoC; cbn; f_equal; ring).
  assert (I : forall c, c = Cconj (Cconj c)) by (intros []; unfold Cconj; cbn; f_equal; ring).
  destruct p as [|[|[|[|p]]]]; [| | | |lia]; (destruct q as [|[|[|[|q]]]]; [| | | |lia]); cbn [beside]; auto.
Qed.

Lemma beside_quad A B g g' psi : fst (quad 4 (beside A B g g') psi) =
  A * (two_real (psi 0%nat) + two_real (psi 2%nat)) + B * (two_real (psi 1%nat) + two_real (psi 3%nat))
  + 2 * re3 (psi 0%nat) g (psi 1%nat) + 2 * re3 (psi 3%nat) g' (psi 2%nat).
Proof.
  unfold quad, csum, beside, two_real, re3. destruct g as [g1 g2], g' as [h1 h2], (psi 0%nat) as [a1 a2], (psi 1%nat) as [b1 b2], (psi 2%nat) as [c1 c2], (psi 3%nat) as [d1 d2].
  unfold Cplus, Cmult, Cconj, RtoC; cbn [fst snd]. ring.
Qed.

Lemma beside_definite A B g g' : 0 < A -> 0 < B -> Cmod g * Cmod g < A * B -> Cmod g' * Cmod g' < A * B -> positive_definite 4 (beside A B g g').
Proof.
  intros PA PB Pg Pg'. split; [apply beside_hermitian|]. intros x (p & Hp & Hx). rewrite beside_quad.
  assert (Q : forall c, Cmod c * Cmod c = fst c * fst c + snd c * snd c) by (intros; unfold Cmod; rewrite sqrt_sqrt; nra). rewrite Q in Pg, Pg'. clear Q.
  assert (Nz : forall z : C, z <> RtoC 0 -> ~ (fst z = 0 /\ snd z = 0)) by (intros [u v] N [a b]; cbn in *; subst; apply N; reflexivity).
  specialize (Nz _ Hx). unfold two_real, re3. rewrite (Rmult_comm A B) in Pg'.
  assert (N1 := block_nonneg A B (fst g) (snd g) (fst (x 0%nat)) (snd (x 0%nat)) (fst (x 1%nat)) (snd (x 1%nat)) PA Pg).
  assert (N2 := block_nonneg B A (fst g') (snd g') (fst (x 3%nat)) (snd (x 3%nat)) (fst (x 2%nat)) (snd (x 2%nat)) PB Pg').
  assert (P1 := block_positive A B (fst g) (snd g) (fst (x 0%nat)) (snd (x 0%nat)) (fst (x 1%nat)) (snd (x 1%nat)) PA Pg).
  assert (P2 := block_positive B A (fst g') (snd g') (fst (x 3%nat)) (snd (x 3%nat)) (fst (x 2%nat)) (snd (x 2%nat)) PB Pg').
  match type of N1 with 0 <= ?u => set (U := u) in * end. match type of N2 with 0 <= ?u => set (V := u) in * end.
  match goal with |- 0 < ?t => replace t with (U + V) end.
  2:{ unfold U, V. destruct g as [g1 g2], g' as [h1 h2], (x 0%nat) as [a1 a2], (x 1%nat) as [b1 b2], (x 2%nat) as [c1 c2], (x 3%nat) as [d1 d2]. unfold Cplus, Cmult, Cconj; cbn [fst snd]. ring. }
  destruct p as [|[|[|[|p]]]]; [| | | |lia].
  - assert (0 < U) by (apply P1; intros (? & ? & ? & ?); apply Nz; auto). lra.
  - assert (0 < U) by (apply P1; intros (? & ? & ? & ?); apply Nz; auto). lra.
  - assert (0 < V) by (apply P2; intros (? & ? & ? & ?); apply Nz; auto). lra.
  - assert (0 < V) by (apply P2; intros (? & ? & ? & ?); apply Nz; auto). lra.
Qed.
