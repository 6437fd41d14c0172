(** Concrete Hamiltonians for the dispersion properties. *)
From Coq Require Import List Bool ZArith Reals Lra Lia Permutation Arith String ClassicalDescription.
From Coquelicot Require Import Complex.
From Verif.Base Require Import Scalar ScalarR Linear3 PyDict PyString.
From Verif.Model Require Import MatrixParam Hamiltonian History EnergyInit Energy Dispersion.
From Verif.Spec Require Import HamSpec NotationSpec HistorySpec EnergySpec DispersionSpec.
From Verif.Proofs Require Import DictProofs HamBasics HamSetters HamDouble HamDcEnergy NotationProofs HistoryProofs CallProofs FilterProofs FrameProofs
  HamGlue HamWitness EnergyInitProofs EnergyProofs EnergyWitness OptimizerProofs OptimizerWitness DispersionMatrix DispersionInit DispersionAxes DispersionModes DispersionOmega DispersionFrame.
From Coq Require Import List.
Import ListNotations.
Local Open Scope R_scope.

Definition up : atom -> option (V3 R) := fun _ => Some ez.
Definition origin : atom -> V3 R := fun _ => vzero.

(** A ferromagnetic pair, stored from both ends, in cgs-like notation. *)
Definition w_iso : world :=
  run [OSetDC true; OSetSN true; OSetEF (-1); OSetOF 1; OAddExchangeNew (AObj atA) (AObj atB) c0 (Some one3)] (fresh [] [atA; atB] [(atA, 1); (atB, 1)]).
Lemma r_iso : reachable w_iso. Proof. do 4 eexists; reflexivity. Qed.
Lemma iso_wf : wf w_iso. Proof. exact (proj1 (reachable_Inv _ r_iso)). Qed.
Lemma iso_unshared : unshared w_iso. Proof. unfold unshared. cbv. repeat constructor; cbn; intuition discriminate. Qed.
Lemma iso_bonds : bonds w_iso = [mkB atA atB c0; mkB atB atA c0]. Proof. reflexivity. Qed.
Lemma iso_sites : sites w_iso = []. Proof. reflexivity. Qed.
Lemma iso_values k J : bond_value w_iso k = Some J -> J = one3 /\ In k (bonds w_iso).
Proof.
  intros E. assert (I : In k (bonds w_iso)) by (apply (bond_value_stored w_iso k iso_wf); eauto). split; [|exact I].
  rewrite iso_bonds in I. destruct I as [<-|[<-|[]]]; apply vdef_Some in E; subst J; apply M3_ext; rcbv; ring.
Qed.
Lemma iso_sym : Sym w_iso.
Proof.
  unfold Sym. splits; [exact iso_wf|exact iso_unshared| |].
  - intros k J J' E E'. apply iso_values in E as [-> _], E' as [-> _]. reflexivity.
  - intros a A E. assert (I : In a (sites w_iso)) by (apply (onsite_value_stored w_iso a iso_wf); eauto). rewrite iso_sites in I. destruct I.
Qed.
Lemma iso_spins : spins_defined w_iso.
Proof.
  split; [|intros a I; rewrite iso_sites in I; destruct I]. rewrite iso_bonds. intros k [<-|[<-|[]]]; split; exists 1; (split; [reflexivity|]); exact R1_neq_R0.
Qed.
Lemma ez_nonzero : ez <> vzero. Proof. intros E. apply (f_equal vz) in E. cbn in E. change (@f0 R R_Scalar) with 0 in E. lra. Qed.
Lemma iso_made cell pos : exists w1 D, dispersion_init keep cell pos up w_iso = (w1, Ret D).
Proof.
  apply dispersion_total; [exact keep_perm|exact iso_wf|exact iso_unshared|exact iso_spins|]. intros a _. exists ez. split; [reflexivity|exact ez_nonzero].
Qed.

(** One atom with an on-site matrix that is not symmetric, in SpinW notation. *)
Definition skew : M3 R := mkM 0 1 0 0 0 0 0 0 0.
Definition w_skew : world :=
  run [OSetDC true; OSetSN false; OSetEF 1; OSetOF 1; OAddOnSiteNew (AObj atA) (Some skew)] (fresh [] [atA] [(atA, 1)]).
Lemma r_skew : reachable w_skew. Proof. do 4 eexists; reflexivity. Qed.
Lemma skew_bonds : bonds w_skew = []. Proof. reflexivity. Qed.

Lemma norm_ez : norm ez = 1.
Proof. unfold norm, ez. replace (dot _ _) with 1 by (rlin; ring). apply sqrt_1. Qed.
Lemma unit_ez : Energy.unit ez = ez.
Proof. unfold Energy.unit. rewrite norm_ez. unfold ez. apply V3_ext; rlin; field. Qed.
Lemma span_ez : span_orthonormal_set ez = Ret (mkV 1 0 0, mkV 0 1 0, mkV 0 0 1).
Proof.
  unfold span_orthonormal_set. rewrite norm_ez. destruct (Req_EM_T 1 0); [lra|]. rewrite unit_ez.
  replace (allclose ez (mkV 0 0 1)) with true; [reflexivity|]. symmetry. unfold allclose, isclose, ez. cbn [vx vy vz].
  rewrite !Rminus_eq_0, !Rabs_R0. assert (H := Rabs_pos 1). assert (E := eps_pos). assert (0 < / 10 ^ 5) by (apply Rinv_0_lt_compat; lra).
  destruct (Rle_dec 0 (/ 10 ^ 8 + / 10 ^ 5 * 0)); [|nra]. destruct (Rle_dec 0 (/ 10 ^ 8 + / 10 ^ 5 * Rabs 1)); [reflexivity|nra].
Qed.
Definition D_skew : dispersion := mkDisp 1 [(0%nat, 0%nat, displacement one3 origin (mkB atA atA (0, 0, 0)%Z), 2%nat)] [ez]
  [complex_vec (mkV 1 0 0) (mkV 0 1 0)] [complex_vec (mkV 0 0 1) vzero].
Lemma init_skew : exists w1, dispersion_init keep one3 origin up w_skew = (w1, Ret D_skew) /\ nth 2 (w_store w1) mzero = mscale (1 / 1) skew.
Proof.
  eexists. split.
  - unfold dispersion_init. replace (copy_ham (w_store w_skew) (w_ham w_skew)) with ([skew; skew], w_ham (mkW [skew; skew] (mkHam [] [(atA, 1%nat)] [atA] [(atA, 1)] (Some true) (Some false) (Some 1) (Some 1)))) by reflexivity.
    cbn [w_ham].
    unfold init_copy.
    match goal with |- context [mkW ?s ?h] => set (wc := mkW s h) end.
    rewrite (bind_val _ _ wc wc tt).
    2:{ unfold wc. repeat (rcbv; match goal with |- context [Req_EM_T 1 1] => destruct (Req_EM_T 1 1) as [?|X]; [|lra] end). reflexivity. }
    rewrite (bind_val _ _ wc wc [atA]) by reflexivity.
    rewrite (bind_val _ _ wc (mkW [skew; skew; mscale (1 / 1) skew] (w_ham wc)) [(mkB atA atA (0, 0, 0)%Z, 2%nat)]).
    2:{ unfold wc. rcbv. destruct (Req_EM_T 1 0) as [X|X]; [lra|]. reflexivity. }
    erewrite bind_val by reflexivity. unfold local_axes, up. rewrite span_ez. reflexivity.
  - reflexivity.
Qed.

Lemma skew_not_hermitian st : nth 2 st mzero = mscale (1 / 1) skew -> ~ hermitian (2 * d_N D_skew) (d_h st D_skew vzero).
Proof.
  intros E H. specialize (H 0%nat 0%nat ltac:(cbn; lia) ltac:(cbn; lia)). apply (f_equal snd) in H.
  assert (X : snd (d_h st D_skew vzero 0 0) = -1); [|unfold Cconj in H; cbn [snd] in H; lra]. clear H.
  unfold d_h, D_skew. cbn [d_N Nat.ltb Nat.leb]. unfold d_A, d_C, d_J, S_, u_, v_, at_ij, term_J. cbn [d_bonds d_S d_u d_v d_N nth fold_left seq Nat.eqb andb].
  rewrite E, norm_ez, Rmult_1_l, sqrt_1.
  assert (Z : forall v, dot (vopp vzero) v = 0) by (intros [a b c]; rlin; ring). assert (Z' : forall v, dot vzero v = 0) by (intros [a b c]; rlin; ring).
  rewrite Z, Z'. unfold cexp_neg. rewrite sin_0, cos_0.
  assert (EJ : cm_add cm_zero (cm_scale (mscale (1 / 1) skew) (1, - 0)) = mkM (RtoC 0) (RtoC 1) (RtoC 0) (RtoC 0) (RtoC 0) (RtoC 0) (RtoC 0) (RtoC 0) (RtoC 0)).
  { unfold cm_add, cm_zero, cm_scale, skew, mscale, mmap. cbn [mxx mxy mxz myx myy myz mzx mzy mzz]. change (@fmul R R_Scalar) with Rmult.
    assert (P0 : forall x y : R, x = y -> Cplus (RtoC 0) (Cmult (RtoC (x * (1 / 1))) (1, - 0)) = RtoC y).
    { intros x y <-. unfold Cplus, Cmult, RtoC; cbn. f_equal; field. }
    f_equal; apply P0; reflexivity. }
  rewrite EJ. clear.
  assert (EA : cbil (complex_vec (mkV 1 0 0) (mkV 0 1 0)) (mkM (RtoC 0) (RtoC 1) (RtoC 0) (RtoC 0) (RtoC 0) (RtoC 0) (RtoC 0) (RtoC 0) (RtoC 0)) (cv_conj (complex_vec (mkV 1 0 0) (mkV 0 1 0))) = (0, -1)).
  { unfold cbil. assert (EV : cv_mat (complex_vec (mkV 1 0 0) (mkV 0 1 0)) (mkM (RtoC 0) (RtoC 1) (RtoC 0) (RtoC 0) (RtoC 0) (RtoC 0) (RtoC 0) (RtoC 0) (RtoC 0)) = mkV (RtoC 0) (RtoC 1) (RtoC 0)).
    { unfold cv_mat, cv_dot, complex_vec. cbn [vx vy vz mxx mxy mxz myx myy myz mzx mzy mzz]. f_equal; unfold Cplus, Cmult, RtoC; cbn; f_equal; ring. }
    rewrite EV. unfold cv_dot, cv_conj, complex_vec. cbn [vx vy vz]. unfold Cplus, Cmult, Cconj, RtoC; cbn. f_equal; ring. }
  rewrite EA.
  assert (EC : cbil (cv_scale 1 (complex_vec (mkV 0 0 1) vzero)) (mkM (RtoC 0) (RtoC 1) (RtoC 0) (RtoC 0) (RtoC 0) (RtoC 0) (RtoC 0) (RtoC 0) (RtoC 0)) (complex_vec (mkV 0 0 1) vzero) = RtoC 0).
  { unfold cbil. assert (EV : cv_mat (cv_scale 1 (complex_vec (mkV 0 0 1) vzero)) (mkM (RtoC 0) (RtoC 1) (RtoC 0) (RtoC 0) (RtoC 0) (RtoC 0) (RtoC 0) (RtoC 0) (RtoC 0)) = mkV (RtoC 0) (RtoC 0) (RtoC 0)).
    { unfold cv_mat, cv_dot, cv_scale, complex_vec, vzero. cbn [vx vy vz mxx mxy mxz myx myy myz mzx mzy mzz]. change (@f0 R R_Scalar) with 0. f_equal; unfold Cplus, Cmult, RtoC; cbn; f_equal; ring. }
    rewrite EV. unfold cv_dot, complex_vec, vzero. cbn [vx vy vz]. change (@f0 R R_Scalar) with 0. unfold Cplus, Cmult, RtoC; cbn. f_equal; ring. }
  rewrite EC. unfold c2, Cminus, Cplus, Cmult, Copp, RtoC. cbn. field.
Qed.
Lemma hermitian_refuted : exists (w w1 : world) order cell pos sv D k, reachable w /\ unshared w /\ reciprocal w /\ (forall l, Permutation (order l) l) /\
  dispersion_init order cell pos sv w = (w1, Ret D) /\ ~ hermitian (2 * d_N D) (d_h (w_store w1) D k).
Proof.
  destruct init_skew as (w1 & E & N). exists w_skew, w1, keep, one3, origin, up, D_skew, vzero. splits; [exact r_skew| | |exact keep_perm|exact E|apply skew_not_hermitian, N].
  - unfold unshared. cbv. repeat constructor; cbn; intuition discriminate.
  - intros k J J' X _. exfalso. assert (I : In k (bonds w_skew)) by (apply (bond_value_stored w_skew k (proj1 (reachable_Inv _ r_skew))); eauto). rewrite skew_bonds in I. destruct I.
Qed.

(** ** omega *)
Definition never : mat -> option (list C * mat) := fun _ => None.
Lemma return_G_refuted : exists N h solve, one_energy_per_row (2 * N) solve /\
  List.length (fst (omega solve N h false true false)) <> (2 * N)%nat.
Proof. exists 1%nat, (fun _ _ => RtoC 0), never. split; [intros m E G X; discriminate|]. cbn. discriminate. Qed.
Definition tilted : mat -> option (list C * mat) := fun m => Some ([(/ 10 ^ 9, 1); RtoC 0], m).
Lemma tiny_refuted : exists N h solve r, one_energy_per_row (2 * N) solve /\ In (Num (RtoC r)) (fst (omega solve N h false false false)) /\ r <> 0 /\ Rabs r <= / 10 ^ 8.
Proof.
  exists 1%nat, (fun _ _ => RtoC 0), tilted, (/ 10 ^ 9). split; [intros m E G X; injection X as <- <-; reflexivity|].
  assert (P9 : 0 < / 10 ^ 9) by (apply Rinv_0_lt_compat; lra). splits; [|lra|rewrite Rabs_pos_eq by lra; apply Rinv_le_contravar; lra].
  unfold omega, attempts, tilted, pos_result. cbn [map fst snd firstn chop real_part].
  destruct (Rle_dec (Cmod (/ 10 ^ 9, 1)) (/ 10 ^ 8)) as [L|L].
  - exfalso. assert (A := Rmax_Cmod (/ 10 ^ 9, 1)). cbn [fst snd] in A. assert (B := Rmax_r (Rabs (/ 10 ^ 9)) (Rabs 1)). rewrite Rabs_R1 in *.
    assert (/ 10 ^ 8 < 1) by (rewrite <- Rinv_1; apply Rinv_lt_contravar; lra). lra.
  - left. reflexivity.
Qed.

(** A negative semidefinite matrix: no attempt can succeed. *)
Definition h_semi : mat := fun p q => if Nat.eqb p 1 && Nat.eqb q 1 then RtoC (-1) else RtoC 0.
Lemma quad_semi x : fst (quad 2 h_semi x) = - (fst (x 1%nat) * fst (x 1%nat) + snd (x 1%nat) * snd (x 1%nat)).
Proof.
  unfold quad, h_semi. cbn [csum Nat.eqb andb]. destruct (x 0%nat) as [a b], (x 1%nat) as [c d]. unfold Cplus, Cmult, Cconj, RtoC. cbn. ring.
Qed.
Lemma semi_hermitian : hermitian 2 h_semi.
Proof.
  intros p q Lp Lq. unfold h_semi. rewrite (andb_comm (Nat.eqb q 1)). destruct (Nat.eqb p 1 && Nat.eqb q 1); unfold Cconj, RtoC; cbn; f_equal; ring.
Qed.
Definition first_axis : nat -> C := fun p => if Nat.eqb p 0 then RtoC 1 else RtoC 0.
Definition second_axis : nat -> C := fun p => if Nat.eqb p 1 then RtoC 1 else RtoC 0.
Lemma not_definite m p (x : nat -> C) : (p < 2)%nat -> x p <> RtoC 0 -> fst (quad 2 m x) <= 0 -> ~ positive_definite 2 m.
Proof. intros L N Q [_ P]. specialize (P x (ex_intro _ p (conj L N))). lra. Qed.
Lemma one_not_zero : RtoC 1 <> RtoC 0. Proof. intros E. apply RtoC_inj in E. lra. Qed.
Lemma negative_semidefinite_refuted : exists N h, hermitian (2 * N) h /\ (forall x, fst (quad (2 * N) h x) <= 0) /\ h <> (fun _ _ => RtoC 0) /\
  forall solve, succeeds_on_positive_definite (2 * N) solve -> forall zeros rG rI,
    fst (omega solve N h zeros rG rI) = repeat (if zeros then NaN else Num (RtoC 0)) (if rG && zeros then 2 * N else N).
Proof.
  exists 1%nat, h_semi. change (2 * 1)%nat with 2%nat. splits; [exact semi_hermitian| | |].
  - intros x. rewrite quad_semi. nra.
  - intros E. apply (f_equal (fun m => fst (m 1%nat 1%nat))) in E. cbn in E. lra.
  - intros solve ok zeros rG rI. assert (E := eps_pos). assert (E1 : / 10 ^ 8 < 1) by (rewrite <- Rinv_1; apply Rinv_lt_contravar; lra).
    assert (F : forall m p x, hermitian 2 m -> (p < 2)%nat -> x p <> RtoC 0 -> fst (quad 2 m x) <= 0 -> solve m = None).
    { intros m p x H L N Q. destruct (solve m) eqn:Es; [|reflexivity]. exfalso. apply (not_definite m p x L N Q). apply ok; [exact H|congruence]. }
    assert (N2 : norm2 2 second_axis = 1) by (unfold norm2, second_axis, RtoC, Cmult, Cconj; cbn; ring).
    assert (N1 : norm2 2 first_axis = 1) by (unfold norm2, first_axis, RtoC, Cmult, Cconj; cbn; ring).
    assert (s1 : solve h_semi = None) by (apply (F _ 1%nat second_axis); [exact semi_hermitian|lia|exact one_not_zero|rewrite quad_semi; cbn; lra]).
    assert (s2 : solve (shift (/ 10 ^ 8) h_semi) = None).
    { apply (F _ 1%nat second_axis); [apply hermitian_shift, semi_hermitian|lia|exact one_not_zero|rewrite quad_shift_re, N2, quad_semi; cbn [second_axis Nat.eqb fst snd RtoC]; lra]. }
    assert (s3 : solve (mat_opp h_semi) = None).
    { apply (F _ 0%nat first_axis); [apply hermitian_opp, semi_hermitian|lia|exact one_not_zero|rewrite quad_opp_re, quad_semi; cbn; lra]. }
    assert (s4 := fourth_attempt 2 solve ok h_semi semi_hermitian s3).
    rewrite omega_values. unfold attempts. rewrite s1, s2, s3, s4.
    assert (ch : chop (Num (RtoC 0)) = Num (RtoC 0)) by (cbn; destruct (Rle_dec _ _); reflexivity).
    destruct zeros, rG, rI; cbn [fst snd andb Nat.mul Nat.add repeat map firstn real_part]; rewrite ?ch; reflexivity.
Qed.

(** A routine meeting the contract exists (classically). *)
Lemma contract_case n : exists solve : mat -> option (list C * mat), succeeds_on_positive_definite n solve /\ one_energy_per_row n solve /\ real_energies solve.
Proof.
  exists (fun m => if Rlt_dec 0 1 then if excluded_middle_informative (positive_definite n m) then Some (repeat (RtoC 0) n, m) else None else None).
  destruct (Rlt_dec 0 1); [|lra]. splits.
  - intros m _. destruct (excluded_middle_informative (positive_definite n m)) as [P|P]; split; [auto|discriminate|intros X; destruct (X eq_refl)|contradiction].
  - intros m E G. destruct (excluded_middle_informative _); [|discriminate]. intros [= <- <-]. apply repeat_length.
  - intros m E G. destruct (excluded_middle_informative _); [|discriminate]. intros [= <- <-]. apply Forall_forall. intros x I. apply repeat_spec in I. subst. reflexivity.
Qed.

(** ** Axes near the poles *)
Definition tilt : V3 R := mkV (/ 10 ^ 9) 0 1.
Lemma pole_refuted : exists v e1 e2 e3, norm v <> 0 /\ span_orthonormal_set v = Ret (e1, e2, e3) /\ e3 <> direction_of v.
Proof.
  assert (P9 : 0 < / 10 ^ 9) by (apply Rinv_0_lt_compat; lra).
  assert (L9 : / 10 ^ 9 <= / 10 ^ 8) by (apply Rinv_le_contravar; lra).
  assert (D1 : 1 <= dot tilt tilt) by (unfold tilt; rlin; nra). assert (D2 : dot tilt tilt <= 1 + / 10 ^ 8).
  { unfold tilt. rlin. assert (/ 10 ^ 9 < 1) by (rewrite <- Rinv_1; apply Rinv_lt_contravar; lra). nra. }
  assert (N1 : 1 <= norm tilt) by (unfold norm; rewrite <- sqrt_1 at 1; apply sqrt_le_1; lra).
  assert (N2 : norm tilt <= 1 + / 10 ^ 8) by (assert (X := norm_sq tilt); nra).
  exists tilt, (mkV 1 0 0), (mkV 0 1 0), (mkV 0 0 1). splits; [lra| |].
  - unfold span_orthonormal_set. destruct (Req_EM_T (norm tilt) 0); [lra|]. replace (allclose (Energy.unit tilt) (mkV 0 0 1)) with true; [reflexivity|]. symmetry.
    assert (I0 : 0 < / norm tilt) by (apply Rinv_0_lt_compat; lra). assert (I1 : / norm tilt <= 1) by (rewrite <- Rinv_1; apply Rinv_le_contravar; lra).
    assert (I2 : 1 - / 10 ^ 8 <= / norm tilt). { assert (norm tilt * / norm tilt = 1) by (field; lra). nra. }
    assert (P5 : 0 < / 10 ^ 5) by (apply Rinv_0_lt_compat; lra).
    unfold allclose, isclose, Energy.unit. cbn [vx vy vz]. change (vx tilt) with (/ 10 ^ 9). change (vy tilt) with 0. change (vz tilt) with 1. change (@fdiv R R_Scalar) with Rdiv in *. unfold Rdiv.
    rewrite !Rminus_0_r, Rmult_0_l, !Rabs_R0, Rabs_R1.
    destruct (Rle_dec (Rabs (/ 10 ^ 9 * / norm tilt)) (/ 10 ^ 8 + / 10 ^ 5 * 0)) as [_|X]; [|exfalso; apply X; rewrite Rabs_pos_eq by nra; nra].
    destruct (Rle_dec 0 (/ 10 ^ 8 + / 10 ^ 5 * 0)) as [_|X]; [|exfalso; nra].
    destruct (Rle_dec (Rabs (1 * / norm tilt - 1)) (/ 10 ^ 8 + / 10 ^ 5 * 1)) as [_|X]; [reflexivity|exfalso; apply X; rewrite Rabs_left1 by lra; lra].
  - intros E. apply (f_equal vx) in E. unfold direction_of, tilt in E. cbn [vx vscale vmap] in E. change (@fmul R R_Scalar) with Rmult in E.
    fold tilt in E. assert (0 < / sqrt (dot tilt tilt)) by (apply Rinv_0_lt_compat; change (0 < norm tilt); lra). unfold vscale, vmap in E. cbn [vx] in E. change (@fmul R R_Scalar) with Rmult in E. nra.
Qed.
