(** Four by four Hermitian matrices with the pattern of two paired bosons. *)
From Coq Require Import Reals Lra Lia.
From Coquelicot Require Import Complex.
From Verif.Base Require Import Scalar ScalarR Linear3.
From Verif.Model Require Import Dispersion.
From Verif.Spec Require Import DispersionSpec.
Local Open Scope R_scope.

Definition two_real (z : C) : R := fst z * fst z + snd z * snd z.
(** Real part of conj u * g * v. *)
Definition re3 (u g v : C) : R := fst (Cmult (Cmult (Cconj u) g) v).

Definition paired (A B : R) (g g' : C) (p q : nat) : C :=
  match p, q with
  | 0, 0 => RtoC A | 2, 2 => RtoC A | 1, 1 => RtoC B | 3, 3 => RtoC B
  | 0, 3 => g | 3, 0 => Cconj g | 1, 2 => g' | 2, 1 => Cconj g'
  | _, _ => RtoC 0
  end%nat.

Lemma paired_hermitian A B g g' : hermitian 4 (paired A B g g').
Proof.
  intros p q Hp Hq. assert (Z : forall r, RtoC r = Cconj (RtoC r)) by (intros r; unfold Cconj, RtoC; cbn; f_equal; ring).
  assert (I : forall c, c = Cconj (Cconj c)) by (intros []; unfold Cconj; cbn; f_equal; ring).
  destruct p as [|[|[|[|p]]]]; [| | | |lia]; (destruct q as [|[|[|[|q]]]]; [| | | |lia]); cbn [paired]; auto.
Qed.

Lemma paired_quad A B g g' psi : fst (quad 4 (paired A B g g') psi) =
  A * (two_real (psi 0%nat) + two_real (psi 2%nat)) + B * (two_real (psi 1%nat) + two_real (psi 3%nat))
  + 2 * re3 (psi 0%nat) g (psi 3%nat) + 2 * re3 (psi 1%nat) g' (psi 2%nat).
Proof.
  unfold quad, csum, paired, two_real, re3. destruct g as [g1 g2], g' as [h1 h2], (psi 0%nat) as [a1 a2], (psi 1%nat) as [b1 b2], (psi 2%nat) as [c1 c2], (psi 3%nat) as [d1 d2].
  unfold Cplus, Cmult, Cconj, RtoC; cbn [fst snd]. ring.
Qed.

Definition at2 (p q : nat) (u v : C) (r : nat) : C := if Nat.eqb r p then u else if Nat.eqb r q then v else RtoC 0.
Lemma quad_unique h h' : hermitian 4 h -> hermitian 4 h' -> (forall psi, fst (quad 4 h psi) = fst (quad 4 h' psi)) ->
  forall p q, (p < 4)%nat -> (q < 4)%nat -> h p q = h' p q.
Proof.
  intros H H' E.
  assert (Dg : forall p, (p < 4)%nat -> h p p = h' p p).
  { intros p Hp. assert (X := H p p Hp Hp). assert (X' := H' p p Hp Hp). assert (Y := E (at2 p p (RtoC 1) (RtoC 1))). unfold quad, csum in Y.
    destruct p as [|[|[|[|p]]]]; [| | | |lia]; unfold at2 in Y; cbn [Nat.eqb] in Y;
    match goal with |- ?u = ?v => destruct u as [u1 u2], v as [v1 v2] end; unfold Cconj in *; cbn [fst snd] in *; injection X as X; injection X' as X';
    unfold Cplus, Cmult, RtoC in Y; cbn [fst snd] in Y; apply injective_projections; cbn [fst snd]; lra. }
  assert (Of : forall p q, (p < q)%nat -> (q < 4)%nat -> h p q = h' p q).
  { intros p q Hp Hq. assert (A := Dg p ltac:(lia)). assert (B := Dg q Hq).
    assert (X := H p q ltac:(lia) Hq). assert (X' := H' p q ltac:(lia) Hq). assert (Y := E (at2 p q (RtoC 1) (RtoC 1))). assert (Z := E (at2 p q (RtoC 1) Ci)). unfold quad, csum in Y, Z.
    destruct p as [|[|[|p]]]; [| | |lia]; (destruct q as [|[|[|[|q]]]]; [lia| | | |lia]); try lia; unfold at2 in Y, Z; cbn [Nat.eqb] in Y, Z; rewrite X, X', A, B in Y, Z;
    match goal with |- ?u = ?v => destruct u as [u1 u2], v as [v1 v2] end; unfold Cplus, Cmult, RtoC, Cconj, Ci in Y, Z; cbn [fst snd] in Y, Z; apply injective_projections; cbn [fst snd]; lra. }
  intros p q Hp Hq. destruct (Nat.lt_trichotomy p q) as [L|[->|L]]; [apply Of; assumption|apply Dg; assumption|].
  rewrite (H q p Hq Hp), (H' q p Hq Hp). f_equal. apply Of; assumption.
Qed.

Lemma block_positive a d g1 g2 x1 x2 y1 y2 : 0 < a -> g1 * g1 + g2 * g2 < a * d -> ~ (x1 = 0 /\ x2 = 0 /\ y1 = 0 /\ y2 = 0) ->
  0 < a * (x1 * x1 + x2 * x2) + d * (y1 * y1 + y2 * y2) + 2 * (x1 * (g1 * y1 - g2 * y2) + x2 * (g1 * y2 + g2 * y1)).
Proof.
  intros Pa Pd Nz. apply (Rmult_lt_reg_l a); [exact Pa|]. rewrite Rmult_0_r.
  match goal with |- 0 < a * ?q => replace (a * q) with ((a * x1 + (g1 * y1 - g2 * y2)) * (a * x1 + (g1 * y1 - g2 * y2)) + (a * x2 + (g1 * y2 + g2 * y1)) * (a * x2 + (g1 * y2 + g2 * y1))
     + (a * d - (g1 * g1 + g2 * g2)) * (y1 * y1 + y2 * y2)) by ring end.
  set (c := a * d - (g1 * g1 + g2 * g2)). assert (Pc : 0 < c) by (unfold c; lra). assert (Sq : forall r : R, 0 <= r * r) by (intros; nra).
  destruct (Req_dec (y1 * y1 + y2 * y2) 0) as [Zy|Zy].
  - assert (y1 = 0) by (apply Rsqr_0_uniq; unfold Rsqr; nra). assert (y2 = 0) by (apply Rsqr_0_uniq; unfold Rsqr; nra). subst.
    assert (0 < x1 * x1 + x2 * x2). { destruct (Req_dec x1 0); [|nra]. destruct (Req_dec x2 0); [|nra]. subst. exfalso. apply Nz. auto. }
    assert (0 < a * a * (x1 * x1 + x2 * x2)) by (apply Rmult_lt_0_compat; nra). nra.
  - assert (0 < c * (y1 * y1 + y2 * y2)) by (apply Rmult_lt_0_compat; nra).
    assert (S1 := Sq (a * x1 + (g1 * y1 - g2 * y2))). assert (S2 := Sq (a * x2 + (g1 * y2 + g2 * y1))). lra.
Qed.
Lemma block_nonneg a d g1 g2 x1 x2 y1 y2 : 0 < a -> g1 * g1 + g2 * g2 < a * d ->
  0 <= a * (x1 * x1 + x2 * x2) + d * (y1 * y1 + y2 * y2) + 2 * (x1 * (g1 * y1 - g2 * y2) + x2 * (g1 * y2 + g2 * y1)).
Proof.
  intros Pa Pd. destruct (Req_dec x1 0) as [A|A]; [destruct (Req_dec x2 0) as [B|B]; [destruct (Req_dec y1 0) as [E|E]; [destruct (Req_dec y2 0) as [F|F]; [subst; right; ring|]|]|]|];
  left; apply block_positive; try assumption; intros (? & ? & ? & ?); contradiction.
Qed.

Lemma paired_definite A B g g' : 0 < A -> 0 < B -> Cmod g * Cmod g < A * B -> Cmod g' * Cmod g' < A * B -> positive_definite 4 (paired A B g g').
Proof.
  intros PA PB Pg Pg'. split; [apply paired_hermitian|]. intros x (p & Hp & Hx). rewrite paired_quad.
  assert (Q : forall c, Cmod c * Cmod c = fst c * fst c + snd c * snd c) by (intros; unfold Cmod; rewrite sqrt_sqrt; nra). rewrite Q in Pg, Pg'. clear Q.
  assert (Nz : forall z : C, z <> RtoC 0 -> ~ (fst z = 0 /\ snd z = 0)) by (intros [u v] N [a b]; cbn in *; subst; apply N; reflexivity).
  specialize (Nz _ Hx). unfold two_real, re3. rewrite (Rmult_comm A B) in Pg'.
  assert (N1 := block_nonneg A B (fst g) (snd g) (fst (x 0%nat)) (snd (x 0%nat)) (fst (x 3%nat)) (snd (x 3%nat)) PA Pg).
  assert (N2 := block_nonneg B A (fst g') (snd g') (fst (x 1%nat)) (snd (x 1%nat)) (fst (x 2%nat)) (snd (x 2%nat)) PB Pg').
  assert (P1 := block_positive A B (fst g) (snd g) (fst (x 0%nat)) (snd (x 0%nat)) (fst (x 3%nat)) (snd (x 3%nat)) PA Pg).
  assert (P2 := block_positive B A (fst g') (snd g') (fst (x 1%nat)) (snd (x 1%nat)) (fst (x 2%nat)) (snd (x 2%nat)) PB Pg').
  match type of N1 with 0 <= ?u => set (U := u) in * end. match type of N2 with 0 <= ?u => set (V := u) in * end.
  match goal with |- 0 < ?t => replace t with (U + V) end.
  2:{ unfold U, V. destruct g as [g1 g2], g' as [h1 h2], (x 0%nat) as [a1 a2], (x 1%nat) as [b1 b2], (x 2%nat) as [c1 c2], (x 3%nat) as [d1 d2]. unfold Cplus, Cmult, Cconj; cbn [fst snd]. ring. }
  destruct p as [|[|[|[|p]]]]; [| | | |lia].
  - assert (0 < U) by (apply P1; intros (? & ? & ? & ?); apply Nz; auto). lra.
  - assert (0 < V) by (apply P2; intros (? & ? & ? & ?); apply Nz; auto). lra.
  - assert (0 < V) by (apply P2; intros (? & ? & ? & ?); apply Nz; auto). lra.
  - assert (0 < U) by (apply P1; intros (? & ? & ? & ?); apply Nz; auto). lra.
Qed.
