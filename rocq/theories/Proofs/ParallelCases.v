(** A ferromagnetic chain with two atoms per cell. *)
From Coq Require Import List Bool ZArith Reals Lra Lia Permutation Arith String.
From Coquelicot Require Import Complex.
From Verif.Base Require Import Scalar ScalarR Linear3 PyDict PyString.
From Verif.Model Require Import MatrixParam Hamiltonian History EnergyInit Energy Dispersion.
From Verif.Spec Require Import HamSpec NotationSpec HistorySpec EnergySpec DispersionSpec TextbookSpec SublatticeSpec ParallelSpec.
From Verif.Proofs Require Import DictProofs HamBasics HamSetters HamDouble HamDcEnergy NotationProofs HistoryProofs CallProofs FilterProofs FrameProofs
  HamGlue HamWitness EnergyInitProofs EnergyProofs EnergyWitness OptimizerProofs OptimizerWitness DispersionMatrix DispersionInit DispersionAxes DispersionModes DispersionOmega DispersionFrame
  DispersionWitness TextbookProofs ModesWitness SublatticeCases.
From Coq Require Import List.
Import ListNotations.
Local Open Scope R_scope.

Definition upup : atom -> option (V3 R) := fun c => if eq_dec c atA then Some (mkV 0 0 2) else Some (mkV 0 0 1).
Definition steep_ferro : M3 R := mkM (-1) 0 0 0 (-1) 0 0 0 (-2).
(** Ferromagnetic along the chain of A and to B with an easy axis, and an easy axis at A. *)
Definition w_side : world := run [OSetDC true; OSetSN false; OSetEF 1; OSetOF 1; OAddExchangeNew (AObj atA) (AObj atA) c1 (Some minus3);
  OAddExchangeNew (AObj atA) (AObj atB) c0 (Some steep_ferro); OAddOnSiteNew (AObj atA) (Some axis3)] (fresh [] [atA; atB] [(atA, 2); (atB, 1)]).
Definition x_side (k : bkey) : R := if eq_dec (b_to k) (b_from k) then -1 else -1.
Definition z_side (k : bkey) : R := if eq_dec (b_to k) (b_from k) then 0 else -1.

Lemma r_side : reachable w_side. Proof. do 4 eexists; reflexivity. Qed.
Lemma side_wf : wf w_side. Proof. exact (proj1 (reachable_Inv _ r_side)). Qed.
Lemma side_bonds : bonds w_side = [right_bond; left_bond; mkB atA atB c0; mkB atB atA c0]. Proof. reflexivity. Qed.
Lemma side_sites : sites w_side = [atA]. Proof. reflexivity. Qed.
Lemma direction_up1 : direction_of (mkV 0 0 1) = mkV 0 0 1.
Proof. unfold direction_of. replace (dot _ _) with 1 by (rlin; ring). rewrite sqrt_1. apply V3_ext; rlin; field. Qed.
Lemma norm_up1 : norm (mkV 0 0 1) = 1.
Proof. unfold norm. replace (dot _ _) with 1 by (rlin; ring). apply sqrt_1. Qed.
Lemma side_values k J : bond_value w_side k = Some J -> J = madd (mscale (x_side k) mid) (mscale (z_side k) (projector (direction_of (mkV 0 0 2)))).
Proof.
  intros E. assert (I : In k (bonds w_side)) by (apply (bond_value_stored w_side k side_wf); eauto). rewrite direction_up2.
  rewrite side_bonds in I. destruct I as [<-|[<-|[<-|[<-|[]]]]]; apply vdef_Some in E; subst J; unfold x_side, z_side; cbn [b_from b_to right_bond left_bond];
  (destruct (eq_dec _ _) as [X|X]; [try discriminate X|try (exfalso; apply X; reflexivity)]); apply M3_ext; rcbv; ring.
Qed.
Lemma side_onsite c J : onsite_value w_side c = Some J -> J = mscale (-1) (projector (direction_of (mkV 0 0 2))).
Proof.
  intros E. assert (I : In c (sites w_side)) by (apply (onsite_value_stored w_side c side_wf); eauto). rewrite direction_up2.
  rewrite side_sites in I. destruct I as [<-|[]]; apply vdef_Some in E; subst J; apply M3_ext; rcbv; ring.
Qed.

Lemma side_case :
  (wf w_side /\ unshared w_side /\ spins_defined w_side /\ reciprocal_storage w_side true /\ notation_is w_side true false 1 1) /\
  atA <> atB /\ carries w_side atA /\ carries w_side atB /\ (forall c, carries w_side c -> c = atA \/ c = atB) /\
  upup atA = Some (mkV 0 0 2) /\ upup atB = Some (mkV 0 0 1) /\ spin_of w_side atA = Some (norm (mkV 0 0 2)) /\ spin_of w_side atB = Some (norm (mkV 0 0 1)) /\
  direction_of (mkV 0 0 1) = direction_of (mkV 0 0 2) /\ direction_of (mkV 0 0 2) = mkV 0 0 1 /\
  (exists w1 D, dispersion_init keep one3 halfway upup w_side = (w1, Ret D)) /\
  (forall k J, bond_value w_side k = Some J -> J = madd (mscale (x_side k) mid) (mscale (z_side k) (projector (direction_of (mkV 0 0 2))))) /\
  (forall c A, onsite_value w_side c = Some A -> A = mscale (-1) (projector (direction_of (mkV 0 0 2)))) /\
  let theta c := dot (mkV PI 0 0) (displacement one3 halfway c) in
  let al := sublattice_energy w_side 1 1 theta x_side z_side (fun _ => -1) atA atB 2 2 (-(1)) in
  let be := sublattice_energy w_side 1 1 theta x_side z_side (fun _ => -1) atB atA 1 1 (-(2)) in
  let g := coupling w_side 1 theta x_side atA atB 2 1 2 1 in
  al = 24 /\ be = 8 /\ g * g = 8 /\ optical_and_acoustic al be g = [16 + sqrt 72; 16 - sqrt 72].
Proof.
  assert (U : unshared w_side) by (unfold unshared; cbv; repeat constructor; cbn; intuition discriminate).
  assert (Sd : spins_defined w_side).
  { split; [rewrite side_bonds; intros k [<-|[<-|[<-|[<-|[]]]]]; split|rewrite side_sites; intros a [<-|[]]]; (eexists; split; [reflexivity|]); cbn; change (@f0 R R_Scalar) with 0; lra. }
  splits.
  - exact side_wf.
  - exact U.
  - exact Sd.
  - unfold reciprocal_storage. splits.
    + rewrite side_bonds. intros k [<-|[<-|[<-|[<-|[]]]]]; discriminate.
    + unfold distinct_indices. rewrite side_bonds. intros k [<-|[<-|[<-|[<-|[]]]]]; first [discriminate|auto].
    + unfold mirror_closed. rewrite side_bonds. intros k [<-|[<-|[<-|[<-|[]]]]]; cbn; auto.
    + intros k J J' E E'. apply side_values in E as ->. apply side_values in E' as ->. unfold x_side, z_side, mirror; cbn [b_from b_to]. rewrite direction_up2.
      destruct (eq_dec (b_from k) (b_to k)) as [X|X], (eq_dec (b_to k) (b_from k)) as [Y|Y]; try congruence; apply M3_ext; rcbv; ring.
  - repeat split.
  - discriminate.
  - right. rewrite side_sites. left. reflexivity.
  - left. exists (mkB atA atB c0). rewrite side_bonds. cbn; auto.
  - intros b [(k & I & Hk)|I].
    + rewrite side_bonds in I. destruct I as [<-|[<-|[<-|[<-|[]]]]]; destruct Hk as [<-|<-]; auto.
    + rewrite side_sites in I. destruct I as [<-|[]]. auto.
  - reflexivity.
  - reflexivity.
  - rewrite norm_up2. reflexivity.
  - rewrite norm_up1. reflexivity.
  - rewrite direction_up1, direction_up2. reflexivity.
  - exact direction_up2.
  - apply dispersion_total; [exact keep_perm|exact side_wf|exact U|exact Sd|]. intros a _. unfold upup. destruct (eq_dec a atA); eexists; (split; [reflexivity|]);
    intros E; apply (f_equal vz) in E; cbn in E; change (@f0 R R_Scalar) with 0 in E; lra.
  - exact side_values.
  - exact side_onsite.
  - intros theta al be g.
    assert (T1 : theta right_bond = PI) by (unfold theta; rcbv; field). assert (T2 : theta left_bond = - PI) by (unfold theta; rcbv; field).
    assert (T3 : theta (mkB atA atB c0) = PI / 2) by (unfold theta; rcbv; field). assert (T4 : theta (mkB atB atA c0) = - (PI / 2)) by (unfold theta; rcbv; field).
    assert (Ev : forall (p q : atom) (v : bkey -> R), sum_over (bonds w_side) (fun k => only (joins p q k) (v k)) =
       only (joins p q right_bond) (v right_bond) + (only (joins p q left_bond) (v left_bond) + (only (joins p q (mkB atA atB c0)) (v (mkB atA atB c0)) + (only (joins p q (mkB atB atA c0)) (v (mkB atB atA c0)) + 0)))).
    { intros. rewrite side_bonds. reflexivity. }
    assert (X1 : x_side right_bond = -1) by reflexivity. assert (X2 : x_side left_bond = -1) by reflexivity. assert (X3 : x_side (mkB atA atB c0) = -1) by reflexivity. assert (X4 : x_side (mkB atB atA c0) = -1) by reflexivity.
    assert (Z1 : z_side right_bond = 0) by reflexivity. assert (Z2 : z_side left_bond = 0) by reflexivity. assert (Z3 : z_side (mkB atA atB c0) = -1) by reflexivity. assert (Z4 : z_side (mkB atB atA c0) = -1) by reflexivity.
    assert (Al : al = 24).
    { unfold al, sublattice_energy. rewrite side_bonds, side_sites. cbn [sum_over fold_right]. rewrite X1, X2, X3, X4, Z1, Z2, Z3, Z4, T1, T2, T3, T4, cos_neg, cos_PI.
      change (joins atA atA right_bond) with true. change (joins atA atA left_bond) with true. change (joins atA atA (mkB atA atB c0)) with false. change (joins atA atA (mkB atB atA c0)) with false.
      change (joins atA atB right_bond || joins atB atA right_bond) with false. change (joins atA atB left_bond || joins atB atA left_bond) with false.
      change (joins atA atB (mkB atA atB c0) || joins atB atA (mkB atA atB c0)) with true. change (joins atA atB (mkB atB atA c0) || joins atB atA (mkB atB atA c0)) with true.
      change (same atA atA) with true. cbn [only]. field. }
    assert (Be : be = 8).
    { unfold be, sublattice_energy. rewrite side_bonds, side_sites. cbn [sum_over fold_right]. rewrite X1, X2, X3, X4, Z1, Z2, Z3, Z4, T1, T2, T3, T4.
      change (joins atB atB right_bond) with false. change (joins atB atB left_bond) with false. change (joins atB atB (mkB atA atB c0)) with false. change (joins atB atB (mkB atB atA c0)) with false.
      change (joins atB atA right_bond || joins atA atB right_bond) with false. change (joins atB atA left_bond || joins atA atB left_bond) with false.
      change (joins atB atA (mkB atA atB c0) || joins atA atB (mkB atA atB c0)) with true. change (joins atB atA (mkB atB atA c0) || joins atA atB (mkB atB atA c0)) with true.
      change (same atA atB) with false. cbn [only]. field. }
    assert (St : structure w_side theta x_side atA atB = (0, -2)).
    { unfold structure. rewrite side_bonds. cbn [sum_over fold_right]. rewrite X1, X2, X3, X4, T1, T2, T3, T4, !cos_neg, !sin_neg, cos_PI2, sin_PI2.
      change (joins atA atB right_bond) with false. change (joins atA atB left_bond) with false. change (joins atB atA right_bond) with false. change (joins atB atA left_bond) with false.
      change (joins atA atB (mkB atA atB c0)) with true. change (joins atA atB (mkB atB atA c0)) with false. change (joins atB atA (mkB atA atB c0)) with false. change (joins atB atA (mkB atB atA c0)) with true.
      cbn [only orb]. f_equal; ring. }
    assert (Gg : g * g = 8).
    { unfold g, coupling. rewrite St. assert (M2 : Cmod (0, -2) = 2) by (unfold Cmod; cbn [fst snd]; replace (0 ^ 2 + (-2) ^ 2) with (2 * 2) by ring; apply sqrt_square; lra). rewrite M2.
      assert (S2 : sqrt (2 * 1) * sqrt (2 * 1) = 2) by (rewrite sqrt_sqrt; lra). assert (sqrt (2 * 1) <> 0) by (intros X; rewrite X in S2; lra).
      transitivity (16 / (sqrt (2 * 1) * sqrt (2 * 1))); [field; assumption|]. rewrite S2. field. }
    splits; auto. unfold optical_and_acoustic. rewrite Gg, Al, Be. replace ((24 - 8) / 2 * ((24 - 8) / 2) + 8) with 72 by field. replace ((24 + 8) / 2) with 16 by field. reflexivity.
Qed.

Lemma side_easy : norm (mkV 0 0 2) <> 0 /\ norm (mkV 0 0 1) <> 0 /\ (forall k, In k (bonds w_side) -> x_side k <= 0 /\ z_side k <= 0) /\
  (exists k, In k (bonds w_side) /\ b_from k <> b_to k /\ z_side k < 0).
Proof.
  splits.
  - rewrite norm_up2. lra.
  - rewrite norm_up1. lra.
  - intros k _. unfold x_side, z_side. destruct (eq_dec (b_to k) (b_from k)); lra.
  - exists (mkB atA atB c0). rewrite side_bonds. splits; [cbn; auto|discriminate|]. unfold z_side; cbn [b_from b_to]. destruct (eq_dec _ _) as [X|_]; [discriminate X|lra].
Qed.
