(** Numbers used by the model.

    magnopy computes with IEEE doubles (Python floats and numpy arrays of
    dtype float). The model uses exact arithmetic: any field with decidable
    equality and order in which 2 and 3 are invertible. Rounding, overflow, inf
    and nan are outside the model. Two instances are given: canonical
    rationals (executable witnesses) and the real numbers (energies). *)
From Coq Require Import Field Field_theory Ring_theory QArith Qcanon.

Class Scalar (F : Type) := {
  f0 : F; f1 : F;
  fadd : F -> F -> F; fmul : F -> F -> F; fsub : F -> F -> F; fopp : F -> F;
  fdiv : F -> F -> F; finv : F -> F;
  f_field : field_theory f0 f1 fadd fmul fsub fopp fdiv finv (@eq F);
  feq_dec : forall x y : F, {x = y} + {x <> y};
  fltb : F -> F -> bool;                       (* Python's [<] on floats *)
  fltb_irrefl : forall x, fltb x x = false;
  fltb_trans : forall x y z, fltb x y = true -> fltb y z = true -> fltb x z = true;
  fltb_total : forall x y, fltb x y = false -> fltb y x = false -> x = y;
  f_two : fadd f1 f1 <> f0;
  f_three : fadd (fadd f1 f1) f1 <> f0
}.

Declare Scope fld_scope.
Delimit Scope fld_scope with fld.
Notation "0" := f0 : fld_scope.
Notation "1" := f1 : fld_scope.
Notation "x + y" := (fadd x y) : fld_scope.
Notation "x * y" := (fmul x y) : fld_scope.
Notation "x - y" := (fsub x y) : fld_scope.
Notation "- x" := (fopp x) : fld_scope.
Notation "x / y" := (fdiv x y) : fld_scope.

Definition f2 {F} `{Scalar F} : F := fadd f1 f1.
Definition f3 {F} `{Scalar F} : F := fadd (fadd f1 f1) f1.

(** The shape in which [field] asks for 3 <> 0. *)
Lemma f_three' {F} `{Scalar F} : fadd f1 (fadd f1 f1) <> f0.
Proof.
  intro E. apply f_three. rewrite <- E.
  rewrite (Radd_assoc (F_R f_field)). reflexivity.
Qed.

Ltac splits := repeat match goal with |- _ /\ _ => split end.
Ltac fside := splits; first [exact f_two | exact f_three' | exact f_three | assumption | idtac].

(** ** The rationals *)
Lemma Qc_field_theory : field_theory (Q2Qc 0) (Q2Qc 1) Qcplus Qcmult Qcminus Qcopp Qcdiv Qcinv (@eq Qc).
Proof. exact Qcft. Qed.

Definition Qc_ltb (x y : Qc) : bool := match (x ?= y)%Qc with Lt => true | _ => false end.

Lemma Qc_ltb_lt (x y : Qc) : Qc_ltb x y = true <-> (x < y)%Qc.
Proof. unfold Qc_ltb. rewrite Qclt_alt. destruct (x ?= y)%Qc; intuition congruence. Qed.

#[global, refine] Instance Qc_Scalar : Scalar Qc := {
  f0 := Q2Qc 0; f1 := Q2Qc 1; fadd := Qcplus; fmul := Qcmult; fsub := Qcminus; fopp := Qcopp;
  fdiv := Qcdiv; finv := Qcinv; f_field := Qc_field_theory; feq_dec := Qc_eq_dec; fltb := Qc_ltb
}.
Proof.
  - intros x. destruct (Qc_ltb x x) eqn:E; trivial. apply Qc_ltb_lt in E.
    exfalso. exact (Qclt_not_eq _ _ E eq_refl).
  - intros x y z. rewrite !Qc_ltb_lt. apply Qclt_trans.
  - intros x y H1 H2. destruct (Qc_dec x y) as [[H|H]|H]; trivial.
    + apply Qc_ltb_lt in H. congruence.
    + apply Qc_ltb_lt in H. congruence.
  - discriminate.
  - discriminate.
Defined.
