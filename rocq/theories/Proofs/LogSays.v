(** Messages contain the numbers and words they are about. *)
From Coq Require Import String Ascii List Bool ZArith Arith Lia DecimalString DecimalNat.
From Verif.Base Require Import Scalar Linear3 PyDict PyString PyText.
From Verif.Spec Require Import TxtSpec TxtFormat VerifyLogSpec.
From Verif.Model Require Import MatrixParam Hamiltonian TxtVerify TxtRead VerifyLog.
Import ListNotations.
Local Open Scope string_scope.

Lemma app_assoc_s a b c : (a ++ b) ++ c = a ++ (b ++ c).
Proof. induction a; simpl; [reflexivity|rewrite IHa; reflexivity]. Qed.
Lemma app_nil_s a : a ++ "" = a.
Proof. induction a; simpl; [reflexivity|rewrite IHa; reflexivity]. Qed.
Lemma skip c m w : contains m w -> contains (String c m) w.
Proof. intros (x & y & ->). exists (String c x), y. reflexivity. Qed.
Lemma skip_app a m w : contains m w -> contains (a ++ m) w.
Proof. intros (x & y & ->). exists (a ++ x), y. rewrite app_assoc_s. reflexivity. Qed.
Definition pre (m w : string) : Prop := exists b, m = w ++ b.
Lemma pre_nil m : pre m "".
Proof. exists m. reflexivity. Qed.
Lemma pre_refl a : pre a a.
Proof. exists "". symmetry. apply app_nil_s. Qed.
Lemma pre_part a m : pre (a ++ m) a.
Proof. exists m. reflexivity. Qed.
Lemma pre_cons c m w : pre m w -> pre (String c m) (String c w).
Proof. intros [b ->]. exists b. reflexivity. Qed.
Lemma pre_app a m w : pre m w -> pre (a ++ m) (a ++ w).
Proof. intros [b ->]. exists b. rewrite app_assoc_s. reflexivity. Qed.
Lemma here m w : pre m w -> contains m w.
Proof. intros [b ->]. exists "", b. reflexivity. Qed.
Ltac seek := match goal with
  | |- contains _ _ => first [solve [apply here; repeat match goal with
       | |- pre _ "" => apply pre_nil
       | |- pre ?a ?a => apply pre_refl
       | |- pre (?a ++ _) ?a => apply pre_part
       | |- pre (String ?c _) (String ?c _) => apply pre_cons
       | |- pre (?a ++ _) (?a ++ _) => apply pre_app
       end] | match goal with |- contains (String _ _) _ => apply skip | |- contains (_ ++ _) _ => apply skip_app end; seek]
  end.
Theorem says c w : In w (mentions c) -> contains (text c) w.
Proof.
  destruct c; try destruct keyword; cbn [mentions text]; unfold at_line, at_block, in_quotes, join_words, either, quoted; intros H;
  repeat (destruct H as [<-|H]); try (destruct H; fail).
  all: cbn [append]; rewrite ?app_assoc_s; cbn [append]; rewrite ?app_assoc_s; cbn [append]; try solve [seek].
Qed.
Theorem dec_inj n m : dec n = dec m -> n = m.
Proof.
  intros H. apply Unsigned.to_uint_inj. apply (f_equal NilZero.uint_of_string) in H. unfold dec in H. rewrite !NilZero.usu in H; [injection H as H; exact H| |].
  all: intros E; pose proof (f_equal Nat.of_uint E) as E'; rewrite Unsigned.of_to in E'; cbn in E'; rewrite E' in E; discriminate.
Qed.
