(** The executable outside world [QX] has the trusted properties. *)
From Coq Require Import String Ascii List Bool ZArith NArith QArith Qcanon Qabs Lia Lqa.
From Coq Require Import Ring Field.
From Verif.Base Require Import Scalar Linear3 QcLit PyDict PyString PyText.
From Verif.Spec Require Import TxtSpec TxtFormat.
From Verif.Model Require Import MatrixParam Hamiltonian TxtVerify TxtRead.
From Verif.Proofs Require Import TextWitness.
Import ListNotations.
Local Open Scope string_scope.

Lemma lower_digit c : digit (ascii_lower c) = digit c.
Proof. destruct c as [[] [] [] [] [] [] [] []]; reflexivity. Qed.
Lemma lower_dot c : Ascii.eqb (ascii_lower c) "." = Ascii.eqb c ".".
Proof. destruct c as [[] [] [] [] [] [] [] []]; reflexivity. Qed.
Lemma lower_minus c : Ascii.eqb (ascii_lower c) "-" = Ascii.eqb c "-".
Proof. destruct c as [[] [] [] [] [] [] [] []]; reflexivity. Qed.
Lemma digits_lower s : forall acc sc dot seen, digits (str_lower s) acc sc dot seen = digits s acc sc dot seen.
Proof.
  induction s as [|c s IH]; intros acc sc dot seen; [reflexivity|]. cbn [str_lower digits]. rewrite lower_digit, lower_dot.
  destruct (digit c); [apply IH|]. destruct (Ascii.eqb c "." && negb dot)%bool; [apply IH|reflexivity].
Qed.
Lemma unsigned_lower s : unsigned (str_lower s) = unsigned s.
Proof. unfold unsigned. rewrite digits_lower. reflexivity. Qed.
Lemma decimal_minus c s : decimal (String c s) = if Ascii.eqb c "-" then option_map (fun x => Q2Qc (- x)) (unsigned s) else option_map Q2Qc (unsigned (String c s)).
Proof. destruct c as [[] [] [] [] [] [] [] []]; reflexivity. Qed.
Lemma decimal_lower s : decimal (str_lower s) = decimal s.
Proof.
  destruct s as [|c s]; [reflexivity|]. change (str_lower (String c s)) with (String (ascii_lower c) (str_lower s)).
  rewrite !decimal_minus, lower_minus, unsigned_lower. destruct (Ascii.eqb c "-"); [reflexivity|].
  change (String (ascii_lower c) (str_lower s)) with (str_lower (String c s)). rewrite unsigned_lower. reflexivity.
Qed.

(** ** Norms *)
Lemma this_q x : this (Q2Qc x) == x.
Proof. apply Qred_correct. Qed.
Lemma this_mul (x y : Qc) : this (x * y)%Qc == this x * this y.
Proof. unfold Qcmult. apply this_q. Qed.
Lemma this_add (x y : Qc) : this (x + y)%Qc == this x + this y.
Proof. unfold Qcplus. apply this_q. Qed.
Lemma this_opp (x : Qc) : this (- x)%Qc == - this x.
Proof. unfold Qcopp. apply this_q. Qed.
Lemma ltb_this (x y : Qc) : fltb x y = true <-> this x < this y.
Proof. cbn [fltb Qc_Scalar]. rewrite Qc_ltb_lt. unfold Qclt. tauto. Qed.
Lemma ltb_this_false (x y : Qc) : fltb x y = false <-> this y <= this x.
Proof.
  rewrite <- not_true_iff_false, ltb_this. split; intros H; [apply Qnot_lt_le; exact H|apply Qle_not_lt; exact H].
Qed.
Lemma qabs_this x : this (qabs x) == Qabs (this x).
Proof.
  unfold qabs. destruct (fltb x f0) eqn:E.
  - apply ltb_this in E. change (this f0) with 0 in E. change (fopp x) with (- x)%Qc. rewrite this_opp. symmetry. apply Qabs_neg. apply Qlt_le_weak, E.
  - apply ltb_this_false in E. change (this f0) with 0 in E. symmetry. apply Qabs_pos. exact E.
Qed.
Lemma qnorm_this v : this (qnorm v) == Qabs (this (vx v)) + Qabs (this (vy v)) + Qabs (this (vz v)).
Proof. unfold qnorm. change fadd with Qcplus. rewrite !this_add, !qabs_this. reflexivity. Qed.
Lemma Qabs_zero x : Qabs x <= 0 -> x == 0.
Proof. intros H. apply Qabs_Qle_condition in H. lra. Qed.
Lemma zero_is (x : Qc) : this x == 0 -> x = f0.
Proof. intros H. apply Qc_is_canon. rewrite H. reflexivity. Qed.
Lemma qnorm_zero v : qnorm v = f0 -> v = mkV f0 f0 f0.
Proof.
  intros H. assert (E : this (qnorm v) == 0) by (rewrite H; reflexivity). rewrite qnorm_this in E.
  pose proof (Qabs_nonneg (this (vx v))). pose proof (Qabs_nonneg (this (vy v))). pose proof (Qabs_nonneg (this (vz v))).
  destruct v as [a b c]. cbn [vx vy vz] in *. f_equal; apply zero_is, Qabs_zero; lra.
Qed.

Lemma qunit v : v <> mkV f0 f0 f0 -> qclose0 (vscale (fdiv f1 (qnorm v)) v) = false.
Proof.
  intros Hv. assert (Hn : qnorm v <> f0) by (intros E; apply Hv, qnorm_zero, E).
  set (k := fdiv f1 (qnorm v)).
  assert (Ek : this k * this (qnorm v) == 1).
  { rewrite <- this_mul. assert (E : (k * qnorm v)%Qc = 1%Qc) by (unfold k; cbn; field; exact Hn). rewrite E. reflexivity. }
  rewrite qnorm_this in Ek.
  destruct (qclose0 (vscale k v)) eqn:E; [|reflexivity]. exfalso. unfold qclose0 in E.
  apply andb_prop in E. destruct E as [E E3]. apply andb_prop in E. destruct E as [E1 E2]. apply ltb_this in E1, E2, E3.
  rewrite qabs_this in E1, E2, E3. destruct v as [a b c]. cbn [vscale vmap vx vy vz] in *.
  change (fmul k a) with (k * a)%Qc in E1. change (fmul k b) with (k * b)%Qc in E2. change (fmul k c) with (k * c)%Qc in E3.
  rewrite this_mul, Qabs_Qmult in E1, E2, E3.
  assert (Ht : this tiny == 1 # 100000000) by reflexivity. rewrite Ht in *.
  assert (Hk : this k <= Qabs (this k)) by apply Qle_Qabs.
  assert (Hs : 0 <= Qabs (this a) + Qabs (this b) + Qabs (this c)).
  { pose proof (Qabs_nonneg (this a)). pose proof (Qabs_nonneg (this b)). pose proof (Qabs_nonneg (this c)). lra. }
  assert (1 <= Qabs (this k) * (Qabs (this a) + Qabs (this b) + Qabs (this c))).
  { rewrite <- Ek. apply Qmult_le_compat_r; assumption. }
  revert H. rewrite !Qmult_plus_distr_r. intros H. lra.
Qed.

Lemma qangles a b : qclose0 (mkV (fmul (qcos b) (qsin a)) (fmul (qsin b) (qsin a)) (qcos a)) = false.
Proof. unfold qcos, qsin. destruct (feq_dec a (q 90)), (feq_dec b (q 90)); vm_compute; reflexivity. Qed.

Lemma QX_sane : sane QX.
Proof.
  split; cbn [QX x_float x_norm x_close0 x_cos x_sin x_abs_to_rel x_reciprocal].
  - exact decimal_lower.
  - exact qnorm_zero.
  - exact qunit.
  - exact qangles.
  - vm_compute. reflexivity.
  - intros c v H. unfold qabs_to_rel, qinv. destruct (feq_dec (mdet c) f0); [contradiction|discriminate].
  - intros c H. unfold qreciprocal, qinv. destruct (feq_dec (mdet c) f0); [contradiction|discriminate].
  - split; discriminate.
Qed.
