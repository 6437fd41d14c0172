(** The magnon matrix of a Hamiltonian with one magnetic atom. *)
From Coq Require Import List Bool ZArith Reals Lra Lia Permutation Arith String.
From Coquelicot Require Import Coquelicot.
From Verif.Base Require Import Scalar ScalarR Linear3 PyDict PyString.
From Verif.Model Require Import MatrixParam Hamiltonian EnergyInit Energy Dispersion.
From Verif.Spec Require Import HamSpec NotationSpec HistorySpec EnergySpec DispersionSpec SpinWaveSpec TextbookSpec.
From Verif.Proofs Require Import DictProofs HamBasics HamSetters HamDouble HamDcEnergy NotationProofs HistoryProofs CallProofs FilterProofs FrameProofs
  HamGlue EnergyInitProofs OptimizerProofs DispersionMatrix DispersionInit DispersionAxes DispersionModes DispersionGlue EnergyFunctional SpinWaveLocal SpinWaveQuad SpinWaveProofs.
From Coq Require Import List.
Import ListNotations.
Local Open Scope R_scope.

Lemma hermitian_entries (h : nat -> nat -> C) : hermitian 2 h ->
  h 0%nat 0%nat = RtoC (fst (quad 2 h (fun p => match p with O => RtoC 1 | _ => RtoC 0 end))) /\
  h 1%nat 1%nat = RtoC (fst (quad 2 h (fun p => match p with O => RtoC 0 | _ => RtoC 1 end))) /\
  h 1%nat 0%nat = Cconj (h 0%nat 1%nat) /\
  2 * fst (h 0%nat 1%nat) = fst (quad 2 h (fun p => RtoC 1)) - fst (h 0%nat 0%nat) - fst (h 1%nat 1%nat) /\
  2 * snd (h 0%nat 1%nat) = fst (h 0%nat 0%nat) + fst (h 1%nat 1%nat) - fst (quad 2 h (fun p => match p with O => RtoC 1 | _ => Ci end)).
Proof.
  intros H. assert (A := H 0%nat 0%nat ltac:(lia) ltac:(lia)). assert (B := H 1%nat 1%nat ltac:(lia) ltac:(lia)). assert (E := H 1%nat 0%nat ltac:(lia) ltac:(lia)).
  unfold quad, csum. rewrite E. destruct (h 0%nat 0%nat) as [a1 a2], (h 1%nat 1%nat) as [b1 b2], (h 0%nat 1%nat) as [c1 c2].
  unfold Cconj in *; cbn [fst snd] in *. injection A as A. injection B as B. assert (a2 = 0) by lra. assert (b2 = 0) by lra. subst.
  unfold Cplus, Cmult, RtoC, Ci; cbn [fst snd]. repeat split; try (apply injective_projections; cbn [fst snd]); ring.
Qed.

Lemma sum_fsum {A} (l : list A) f : fsum (map f l) = sum_over l f.
Proof. induction l as [|x l IH]; [reflexivity|]. cbn [map]. rewrite fsum_cons, IH. reflexivity. Qed.
Lemma sum_ext {A} (l : list A) f g : (forall x, In x l -> f x = g x) -> sum_over l f = sum_over l g.
Proof. intros H. induction l as [|x l IH]; [reflexivity|]. change (f x + sum_over l f = g x + sum_over l g). rewrite H, IH; [reflexivity|intros; apply H; right; assumption|left; reflexivity]. Qed.
Lemma sum_lin {A} (l : list A) f g c d : sum_over l (fun x => c * f x + d * g x) = c * sum_over l f + d * sum_over l g.
Proof. induction l as [|x l IH]; [cbn; ring|]. change (c * f x + d * g x + sum_over l (fun x => c * f x + d * g x) = c * (f x + sum_over l f) + d * (g x + sum_over l g)). rewrite IH. ring. Qed.
Lemma bil_between u J v : bil u J v = between u J v.
Proof. reflexivity. Qed.

Section OneAtom.
Variables (order : list atom -> list atom) (cell : M3 R) (pos : atom -> V3 R) (sv : atom -> option (V3 R)) (w w1 : world) (D : dispersion)
  (dc sn : bool) (ef of_ : R) (a : atom) (s : V3 R).
Hypothesis W : wf w.
Hypothesis U : unshared w.
Hypothesis Sp : spins_defined w.
Hypothesis St : reciprocal_storage w dc.
Hypothesis O : symmetric_onsite w.
Hypothesis No : notation_is w dc sn ef of_.
Hypothesis Ne : ef <> 0.
Hypothesis Nf : of_ <> 0.
Hypothesis P : forall l, Permutation (order l) l.
Hypothesis Ha : carries w a.
Hypothesis only : forall b, carries w b -> b = a.
Hypothesis Es : sv a = Some s.
Hypothesis Hs : spin_of w a = Some (norm s).
Hypothesis H : dispersion_init order cell pos sv w = (w1, Ret D).

Let sig : R := if sn then 1 else norm s.
Let e1 := ax1 sv a.
Let e2 := ax2 sv a.
Let e3 := ax3 sv a.
Let theta k b := dot k (displacement cell pos b).

Lemma one_quad : d_N D = 1%nat /\ norm s <> 0 /\ forall k psi,
  fst (quad 2 (d_h (w_store w1) D k) psi) =
    sig * sig * (ef * sum_over (bonds w) (fun b => second_mean (norm s) (norm s) e1 e2 e3 e1 e2 e3 (stored (bond_value w b)) (psi 0%nat) (psi 1%nat) (psi 0%nat) (psi 1%nat) (theta k b))
               + of_ * sum_over (sites w) (fun c => second_mean (norm s) (norm s) e1 e2 e3 e1 e2 e3 (stored (onsite_value w c)) (psi 0%nat) (psi 1%nat) (psi 0%nat) (psi 1%nat) 0)).
Proof.
  destruct (quad_world order cell pos sv w w1 D dc sn ef of_ (fun _ => norm s) W U Sp St O No Ne Nf) as (atoms & Cov & Nn & Nd & Ax & Q).
  { intros b I. rewrite (only b I). exact Hs. }
  { intros b s' I E. rewrite (only b I) in E. congruence. }
  { exact H. }
  destruct (Nd P) as [Nd1 Nd2]. assert (Ia := Cov a Ha).
  assert (La : atoms = [a]).
  { assert (Y : forall b, In b atoms -> b = a) by auto. destruct atoms as [|b [|c l]]; [destruct Ia|f_equal; apply Y; left; reflexivity|].
    exfalso. inversion Nd1 as [|? ? X _]; subst. apply X. left. rewrite (Y b), (Y c) by (cbn; auto). reflexivity. }
  assert (Pa : pindex atoms a = 0%nat).
  { rewrite La. unfold pindex. destruct (position_In a [a]) as (i & Ei & Hn); [left; reflexivity|]. rewrite Ei. destruct i as [|[|i]]; [reflexivity|discriminate Hn..]. }
  assert (N1 : d_N D = 1%nat) by (rewrite Nn, La; reflexivity). rewrite N1 in Q.
  split; [exact N1|]. split; [destruct (Ax a Ia) as (_ & s' & X & Y); congruence|]. intros k psi. change (2 * 1)%nat with 2%nat in Q. rewrite Q.
  assert (Sw : forall b, b = a -> sdef (slen sn (w_ham w) b) = sig).
  { intros b ->. unfold slen, sig. destruct sn; [reflexivity|]. assert (X := Hs). unfold spin_of in X. rewrite X. reflexivity. }
  unfold total. rewrite !sum_fsum. cbn [Scalar.fadd Scalar.fmul R_Scalar].
  rewrite (sum_ext (bonds w) _ (fun b => sig * sig * second_mean (norm s) (norm s) e1 e2 e3 e1 e2 e3 (stored (bond_value w b)) (psi 0%nat) (psi 1%nat) (psi 0%nat) (psi 1%nat) (theta k b) + 0 * 0)).
  2:{ intros b I. assert (Ef : b_from b = a) by (apply only; left; eauto). assert (Et : b_to b = a) by (apply only; left; eauto).
      unfold bond_weight. rewrite (Sw _ Ef), (Sw _ Et). unfold pe. rewrite Ef, Et, Pa. rewrite Rmult_0_l, Rplus_0_r. reflexivity. }
  rewrite (sum_ext (sites w) _ (fun c => sig * sig * second_mean (norm s) (norm s) e1 e2 e3 e1 e2 e3 (stored (onsite_value w c)) (psi 0%nat) (psi 1%nat) (psi 0%nat) (psi 1%nat) 0 + 0 * 0)).
  2:{ intros c I. assert (Ec : c = a) by (apply only; right; exact I). unfold site_weight. rewrite (Sw _ Ec). unfold se, pe. rewrite own_displacement. cbn [own b_from b_to]. rewrite Ec, Pa.
      rewrite Rmult_0_l, Rplus_0_r. reflexivity. }
  rewrite !sum_lin with (g := fun _ => 0). ring.
Qed.

Lemma one_matrix k : hermitian 2 (d_h (w_store w1) D k) /\
  d_h (w_store w1) D k 0%nat 0%nat = RtoC (normal_part w ef of_ sig (norm s) (theta k) e1 e2 e3) /\
  d_h (w_store w1) D k 1%nat 1%nat = RtoC (normal_part w ef of_ sig (norm s) (fun b => - theta k b) e1 e2 e3) /\
  d_h (w_store w1) D k 0%nat 1%nat = pair_part w ef of_ sig (norm s) (theta k) e1 e2.
Proof.
  destruct one_quad as (N1 & Hn & Q). assert (Ps : 0 < norm s) by (apply norm_pos, Hn).
  assert (Rc : reciprocal w).
  { destruct St as (S1 & S2 & S3). destruct dc; [apply S3|]. intros b J J' E E'.
    assert (I : In b (bonds w)) by (apply (bond_value_stored w b W); eauto). assert (I' : In (mirror b) (bonds w)) by (apply (bond_value_stored w _ W); eauto).
    exfalso. exact (kept_mirror_absent w b S1 S2 I (proj2 (canonical_kept b) (S3 b I)) (proj2 (canonical_kept _) (S3 _ I'))). }
  assert (He := made_hermitian order cell pos sv w w1 D W U Rc O H k). rewrite N1 in He. change (2 * 1)%nat with 2%nat in He.
  split; [exact He|]. destruct (hermitian_entries _ He) as (E0 & E1 & _ & E2 & E3).
  assert (Sq : sqrt (2 / norm s) * sqrt (2 / norm s) = 2 / norm s) by (apply sqrt_sqrt; left; apply Rdiv_lt_0_compat; lra).
  set (sg := sig * sig / norm s).
  assert (V : forall psi (g : M3 R -> R -> R), (forall J th, second_mean (norm s) (norm s) e1 e2 e3 e1 e2 e3 J (psi 0%nat) (psi 1%nat) (psi 0%nat) (psi 1%nat) th = / norm s * g J th) ->
     fst (quad 2 (d_h (w_store w1) D k) psi) = sg * (ef * sum_over (bonds w) (fun b => g (stored (bond_value w b)) (theta k b)) + of_ * sum_over (sites w) (fun c => g (stored (onsite_value w c)) 0))).
  { intros psi g Hg. rewrite Q. rewrite (sum_ext (bonds w) _ (fun b => / norm s * g (stored (bond_value w b)) (theta k b) + 0 * 0)) by (intros b _; rewrite Hg; ring).
    rewrite (sum_ext (sites w) _ (fun c => / norm s * g (stored (onsite_value w c)) 0 + 0 * 0)) by (intros c _; rewrite Hg; ring).
    rewrite !sum_lin with (g := fun _ => 0). unfold sg, Rdiv. ring. }
  assert (B1 : forall u v J z, bil (vadd u v) J z = bil u J z + bil v J z) by (intros [] [] [] []; unfold bil, dot, vadd, vmap2, mvec, mrow1, mrow2, mrow3, dot; cbn; ring).
  assert (B2 : forall u v J z, bil z J (vadd u v) = bil z J u + bil z J v) by (intros [] [] [] []; unfold bil, dot, vadd, vmap2, mvec, mrow1, mrow2, mrow3, dot; cbn; ring).
  assert (B3 : forall c u J z, bil (vscale c u) J z = c * bil u J z) by (intros c [] [] []; unfold bil, dot, vscale, vmap, mvec, mrow1, mrow2, mrow3, dot; cbn; ring).
  assert (B4 : forall c u J z, bil z J (vscale c u) = c * bil z J u) by (intros c [] [] []; unfold bil, dot, vscale, vmap, mvec, mrow1, mrow2, mrow3, dot; cbn; ring).
  rewrite (V _ (fun J th => diagonal e1 e2 e3 th J)) in E0.
  2:{ intros J th. unfold second_mean, overlap, cos_part, sin_part, amount, size2, diagonal, Ci, RtoC; cbn [fst snd]. rewrite Sq, !B1, !B2, !B3, !B4. change between with bil. field. lra. }
  rewrite (V _ (fun J th => diagonal e1 e2 e3 (- th) J)) in E1.
  2:{ intros J th. unfold second_mean, overlap, cos_part, sin_part, amount, size2, diagonal, Ci, RtoC; cbn [fst snd]. rewrite Sq, !B1, !B2, !B3, !B4, cos_neg, sin_neg. change between with bil. field. lra. }
  rewrite (V _ (fun J th => 4 * cos th * between e1 J e1 - 4 * between e3 J e3)) in E2.
  2:{ intros J th. unfold second_mean, overlap, cos_part, sin_part, amount, size2, diagonal, Ci, RtoC; cbn [fst snd]. rewrite Sq, !B1, !B2, !B3, !B4. change between with bil. field. lra. }
  rewrite (V _ (fun J th => 2 * cos th * (between e1 J e1 + between e2 J e2 - between e1 J e2 - between e2 J e1) - 4 * between e3 J e3)) in E3.
  2:{ intros J th. unfold second_mean, overlap, cos_part, sin_part, amount, size2, diagonal, Ci, RtoC; cbn [fst snd]. rewrite Sq, !B1, !B2, !B3, !B4. change between with bil. field. lra. }
  rewrite Ropp_0 in E1.
  assert (F0 := f_equal fst E0). assert (F1 := f_equal fst E1). cbn [RtoC fst] in F0, F1. rewrite F0, F1 in E2, E3.
  assert (Comb : forall A (l : list A) (f g h u : A -> R), (forall x, In x l -> f x - g x - h x = 2 * u x) -> sum_over l f = sum_over l g + sum_over l h + 2 * sum_over l u).
  { clear. intros A l f g h u X. induction l as [|x l IH]; [cbn; ring|].
    change (f x + sum_over l f = g x + sum_over l g + (h x + sum_over l h) + 2 * (u x + sum_over l u)). rewrite IH by (intros; apply X; right; assumption).
    assert (Y := X x (or_introl eq_refl)). lra. }
  split; [exact E0|]. split; [exact E1|]. apply injective_projections; unfold pair_part, pair_term; cbn [fst snd]; fold sg.
  - rewrite (Comb _ (bonds w) _ (fun b => diagonal e1 e2 e3 (theta k b) (stored (bond_value w b))) (fun b => diagonal e1 e2 e3 (- theta k b) (stored (bond_value w b)))
      (fun b => cos (theta k b) * (between e1 (stored (bond_value w b)) e1 - between e2 (stored (bond_value w b)) e2))) in E2.
    2:{ intros b _. unfold diagonal. rewrite cos_neg, sin_neg. ring. }
    rewrite (Comb _ (sites w) _ (fun b => diagonal e1 e2 e3 0 (stored (onsite_value w b))) (fun b => diagonal e1 e2 e3 0 (stored (onsite_value w b)))
      (fun b => between e1 (stored (onsite_value w b)) e1 - between e2 (stored (onsite_value w b)) e2)) in E2.
    2:{ intros b _. unfold diagonal. rewrite cos_0, sin_0. ring. }
    lra.
  - rewrite (Comb _ (bonds w) (fun b => 2 * cos (theta k b) * _ - _) (fun b => diagonal e1 e2 e3 (theta k b) (stored (bond_value w b))) (fun b => diagonal e1 e2 e3 (- theta k b) (stored (bond_value w b)))
      (fun b => - (cos (theta k b) * (between e1 (stored (bond_value w b)) e2 + between e2 (stored (bond_value w b)) e1)))) in E3.
    2:{ intros b _. unfold diagonal. rewrite cos_neg, sin_neg. ring. }
    rewrite (Comb _ (sites w) (fun b => 2 * cos 0 * _ - _) (fun b => diagonal e1 e2 e3 0 (stored (onsite_value w b))) (fun b => diagonal e1 e2 e3 0 (stored (onsite_value w b)))
      (fun b => - (between e1 (stored (onsite_value w b)) e2 + between e2 (stored (onsite_value w b)) e1))) in E3.
    2:{ intros b _. unfold diagonal. rewrite cos_0, sin_0. ring. }
    assert (Opp : forall A (l : list A) f, sum_over l (fun x => - f x) = - sum_over l f).
    { clear. intros A l f. induction l as [|x l IH]; [cbn; ring|]. change (- f x + sum_over l (fun x => - f x) = - (f x + sum_over l f)). rewrite IH. ring. }
    rewrite !Opp in E3. lra.
Qed.
End OneAtom.
