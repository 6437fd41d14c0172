(** The real numbers as an instance of [Scalar]. *)
From Coq Require Import Reals Lra Field.
From Verif.Base Require Import Scalar.

Definition R_ltb (x y : R) : bool := if Rlt_dec x y then true else false.

Lemma R_ltb_lt (x y : R) : R_ltb x y = true <-> (x < y)%R.
Proof. unfold R_ltb. destruct (Rlt_dec x y); intuition congruence. Qed.

#[global, refine] Instance R_Scalar : Scalar R := {
  f0 := 0%R; f1 := 1%R; fadd := Rplus; fmul := Rmult; fsub := Rminus; fopp := Ropp;
  fdiv := Rdiv; finv := Rinv; f_field := Rfield; feq_dec := Req_EM_T; fltb := R_ltb
}.
Proof.
  - intros x. destruct (R_ltb x x) eqn:E; trivial. apply R_ltb_lt in E. lra.
  - intros x y z. rewrite !R_ltb_lt. lra.
  - intros x y H1 H2. destruct (Rtotal_order x y) as [H|[H|H]]; trivial.
    + apply R_ltb_lt in H. congruence.
    + apply R_ltb_lt in H. congruence.
  - lra.
  - lra.
Defined.
