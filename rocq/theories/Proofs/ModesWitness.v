(** Ferromagnetic chains with one atom per cell. *)
From Coq Require Import List Bool ZArith Reals Lra Lia Permutation Arith String.
From Coquelicot Require Import Complex.
From Verif.Base Require Import Scalar ScalarR Linear3 PyDict PyString.
From Verif.Model Require Import MatrixParam Hamiltonian History EnergyInit Energy Dispersion.
From Verif.Spec Require Import HamSpec NotationSpec HistorySpec EnergySpec DispersionSpec TextbookSpec.
From Verif.Proofs Require Import DictProofs HamBasics HamSetters HamDouble HamDcEnergy NotationProofs HistoryProofs CallProofs FilterProofs FrameProofs
  HamGlue HamWitness EnergyInitProofs EnergyProofs EnergyWitness OptimizerProofs OptimizerWitness DispersionMatrix DispersionInit DispersionAxes DispersionModes DispersionOmega DispersionFrame
  DispersionWitness TextbookProofs.
From Coq Require Import List.
Import ListNotations.
Local Open Scope R_scope.

Definition up2 : atom -> option (V3 R) := fun _ => Some (mkV 0 0 2).
Definition chain_ops : list (@op R) := [OSetDC true; OSetSN false; OSetEF (-1); OSetOF (-1); OAddExchangeNew (AObj atA) (AObj atA) c1 (Some one3)].
Definition easy : M3 R := mkM 1 0 0 0 0 0 0 0 3.
Definition w_chain : world := run chain_ops (fresh [] [atA] [(atA, 2)]).
Definition w_easy : world := run (chain_ops ++ [OAddOnSiteNew (AObj atA) (Some easy)]) (fresh [] [atA] [(atA, 2)]).
Definition right_bond : bkey := mkB atA atA c1.
Definition left_bond : bkey := mkB atA atA (cneg c1).

Lemma norm_up2 : norm (mkV 0 0 2) = 2.
Proof. unfold norm. replace (dot _ _) with (2 * 2) by (rlin; ring). apply sqrt_square. lra. Qed.
Lemma r_chain : reachable w_chain. Proof. do 4 eexists; reflexivity. Qed.
Lemma r_easy : reachable w_easy. Proof. do 4 eexists; reflexivity. Qed.
Lemma chain_bonds : bonds w_chain = [right_bond; left_bond]. Proof. reflexivity. Qed.
Lemma easy_bonds : bonds w_easy = [right_bond; left_bond]. Proof. reflexivity. Qed.
Lemma chain_sites : sites w_chain = []. Proof. reflexivity. Qed.
Lemma easy_sites : sites w_easy = [atA]. Proof. reflexivity. Qed.
Lemma chain_wf : wf w_chain. Proof. exact (proj1 (reachable_Inv _ r_chain)). Qed.
Lemma easy_wf : wf w_easy. Proof. exact (proj1 (reachable_Inv _ r_easy)). Qed.
Lemma chain_values k J : bond_value w_chain k = Some J -> J = mscale 1 mid.
Proof.
  intros E. assert (I : In k (bonds w_chain)) by (apply (bond_value_stored w_chain k chain_wf); eauto).
  rewrite chain_bonds in I. destruct I as [<-|[<-|[]]]; apply vdef_Some in E; subst J; apply M3_ext; rcbv; ring.
Qed.
Lemma easy_values k J : bond_value w_easy k = Some J -> J = mscale 1 mid.
Proof.
  intros E. assert (I : In k (bonds w_easy)) by (apply (bond_value_stored w_easy k easy_wf); eauto).
  rewrite easy_bonds in I. destruct I as [<-|[<-|[]]]; apply vdef_Some in E; subst J; apply M3_ext; rcbv; ring.
Qed.
Lemma easy_onsite a J : onsite_value w_easy a = Some J -> J = easy.
Proof.
  intros E. assert (I : In a (sites w_easy)) by (apply (onsite_value_stored w_easy a easy_wf); eauto).
  rewrite easy_sites in I. destruct I as [<-|[]]; apply vdef_Some in E; subst J; apply M3_ext; rcbv; ring.
Qed.
Lemma trans_mid : mtrans (mscale 1 mid) = mscale (1 : R) mid.
Proof. apply M3_ext; rcbv; ring. Qed.

Lemma chain_case :
  (wf w_chain /\ unshared w_chain /\ spins_defined w_chain /\ reciprocal_storage w_chain true /\ notation_is w_chain true false (-1) (-1)) /\
  carries w_chain atA /\ (forall b, carries w_chain b -> b = atA) /\ up2 atA = Some (mkV 0 0 2) /\ spin_of w_chain atA = Some (norm (mkV 0 0 2)) /\
  (forall b J, bond_value w_chain b = Some J -> J = mscale 1 mid) /\ (forall a, onsite_value w_chain a = None) /\
  (exists w1 D, dispersion_init keep one3 origin up2 w_chain = (w1, Ret D)) /\
  ferromagnet_energy w_chain (-1) 2 2 (fun b => dot (mkV PI 0 0) (displacement one3 origin b)) (fun _ => 1) = 16.
Proof.
  assert (U : unshared w_chain) by (unfold unshared; cbv; repeat constructor; cbn; intuition discriminate).
  assert (Sd : spins_defined w_chain).
  { split; [|intros a I; rewrite chain_sites in I; destruct I]. rewrite chain_bonds. intros k [<-|[<-|[]]]; split; exists 2; (split; [reflexivity|]); cbn; change (@f0 R R_Scalar) with 0; lra. }
  splits.
  - exact chain_wf.
  - exact U.
  - exact Sd.
  - unfold reciprocal_storage. splits.
    + rewrite chain_bonds. intros k [<-|[<-|[]]]; discriminate.
    + unfold distinct_indices. rewrite chain_bonds. intros k [<-|[<-|[]]]; auto.
    + unfold mirror_closed. rewrite chain_bonds. intros k [<-|[<-|[]]]; cbn; auto.
    + intros k J J' E E'. apply chain_values in E as ->. apply chain_values in E' as ->. symmetry. exact trans_mid.
  - repeat split.
  - left. exists right_bond. rewrite chain_bonds. cbn; auto.
  - intros b [(k & I & Hk)|I]; [|rewrite chain_sites in I; destruct I]. rewrite chain_bonds in I. destruct I as [<-|[<-|[]]]; destruct Hk as [<-|<-]; reflexivity.
  - reflexivity.
  - rewrite norm_up2. reflexivity.
  - exact chain_values.
  - intros a. destruct (onsite_value w_chain a) as [J|] eqn:E; [|reflexivity]. exfalso.
    assert (I : In a (sites w_chain)) by (apply (onsite_value_stored w_chain a chain_wf); eauto). rewrite chain_sites in I. destruct I.
  - apply dispersion_total; [exact keep_perm|exact chain_wf|exact U|exact Sd|]. intros a _. exists (mkV 0 0 2). split; [reflexivity|].
    intros E. apply (f_equal vz) in E. cbn in E. change (@f0 R R_Scalar) with 0 in E. lra.
  - unfold ferromagnet_energy. rewrite chain_bonds. cbn [sum_over fold_right].
    assert (D1 : dot (mkV PI 0 0) (displacement one3 origin right_bond) = PI) by (rcbv; ring).
    assert (D2 : dot (mkV PI 0 0) (displacement one3 origin left_bond) = - PI) by (rcbv; ring).
    rewrite D1, D2, cos_neg, cos_PI. field.
Qed.

Lemma plane_axes e1 e2 : right_handed e1 e2 (mkV 0 0 1) -> vz e1 = 0 /\ vz e2 = 0 /\ vx e1 * vx e1 + vy e1 * vy e1 = 1 /\ vx e2 = - vy e1 /\ vy e2 = vx e1.
Proof.
  destruct e1 as [a b c], e2 as [d e f]. unfold right_handed, dot, cross. cbn [vx vy vz].
  intros (A & B & Cc & E). injection E as E1 E2 E3. unfold fsub in *. cbn in *. 
  assert (P1 : c * e = b * f) by lra. assert (P2 : c * d = a * f) by lra. assert (P3 : a * e = 1 + b * d) by lra.
  assert (c = 0) by (transitivity (a * (c * e) - b * (c * d)); [transitivity (c * (a * e) - b * (c * d)); [rewrite P3|]; ring|rewrite P1, P2; ring]).
  assert (f = 0) by (transitivity (e * (a * f) - d * (b * f)); [transitivity (f * (a * e) - d * (b * f)); [rewrite P3|]; ring|rewrite <- P1, <- P2; ring]).
  subst c f. assert (A' : a * a + b * b = 1) by lra. assert (C' : a * d = - (b * e)) by lra. splits; auto.
  - transitivity (d * (a * a + b * b)); [rewrite A'; ring|]. transitivity (a * (a * d) + b * (b * d)); [ring|]. rewrite C'. replace (b * d) with (a * e - 1) by lra. ring.
  - transitivity (e * (a * a + b * b)); [rewrite A'; ring|]. transitivity (a * (a * e) + b * (b * e)); [ring|]. rewrite P3. replace (b * e) with (- (a * d)) by lra. ring.
Qed.

Lemma easy_case :
  (wf w_easy /\ unshared w_easy /\ spins_defined w_easy /\ reciprocal_storage w_easy true /\ symmetric_onsite w_easy /\ notation_is w_easy true false (-1) (-1)) /\
  carries w_easy atA /\ (forall b, carries w_easy b -> b = atA) /\ up2 atA = Some (mkV 0 0 2) /\ spin_of w_easy atA = Some (norm (mkV 0 0 2)) /\
  (exists w1 D, dispersion_init keep one3 origin up2 w_easy = (w1, Ret D)) /\ direction_of (mkV 0 0 2) = mkV 0 0 1 /\
  forall k e1 e2, right_handed e1 e2 (mkV 0 0 1) ->
    let theta b := dot k (displacement one3 origin b) in
    let here := normal_part w_easy (-1) (-1) 2 2 theta e1 e2 (mkV 0 0 1) in
    let there := normal_part w_easy (-1) (-1) 2 2 (fun b => - theta b) e1 e2 (mkV 0 0 1) in
    let pairs := pair_part w_easy (-1) (-1) 2 2 theta e1 e2 in
    0 < here /\ Cmod pairs * Cmod pairs < here * there /\ Cmod pairs * Cmod pairs = 4.
Proof.
  assert (U : unshared w_easy) by (unfold unshared; cbv; repeat constructor; cbn; intuition discriminate).
  assert (Sd : spins_defined w_easy).
  { split; [rewrite easy_bonds; intros k [<-|[<-|[]]]; split|rewrite easy_sites; intros a [<-|[]]]; exists 2; (split; [reflexivity|]); cbn; change (@f0 R R_Scalar) with 0; lra. }
  splits.
  - exact easy_wf.
  - exact U.
  - exact Sd.
  - unfold reciprocal_storage. splits.
    + rewrite easy_bonds. intros k [<-|[<-|[]]]; discriminate.
    + unfold distinct_indices. rewrite easy_bonds. intros k [<-|[<-|[]]]; auto.
    + unfold mirror_closed. rewrite easy_bonds. intros k [<-|[<-|[]]]; cbn; auto.
    + intros k J J' E E'. apply easy_values in E as ->. apply easy_values in E' as ->. symmetry. exact trans_mid.
  - intros a J E. apply easy_onsite in E as ->. reflexivity.
  - repeat split.
  - right. rewrite easy_sites. left. reflexivity.
  - intros b [(k & I & Hk)|I].
    + rewrite easy_bonds in I. destruct I as [<-|[<-|[]]]; destruct Hk as [<-|<-]; reflexivity.
    + rewrite easy_sites in I. destruct I as [<-|[]]. reflexivity.
  - reflexivity.
  - rewrite norm_up2. reflexivity.
  - apply dispersion_total; [exact keep_perm|exact easy_wf|exact U|exact Sd|]. intros a _. exists (mkV 0 0 2). split; [reflexivity|].
    intros E. apply (f_equal vz) in E. cbn in E. change (@f0 R R_Scalar) with 0 in E. lra.
  - unfold direction_of. replace (dot _ _) with (2 * 2) by (rlin; ring). rewrite sqrt_square by lra. apply V3_ext; rlin; field.
  - intros k e1 e2 Rh theta here there pairs. apply plane_axes in Rh. destruct e1 as [a b c], e2 as [d e f]. cbn [vx vy vz] in Rh. destruct Rh as (-> & -> & Hn & -> & ->).
    set (t := dot k (displacement one3 origin right_bond)).
    assert (D2 : dot k (displacement one3 origin left_bond) = - t) by (unfold t; destruct k; rcbv; ring).
    assert (V1 : stored (bond_value w_easy right_bond) = mscale 1 mid) by (apply M3_ext; rcbv; ring).
    assert (V2 : stored (bond_value w_easy left_bond) = mscale 1 mid) by (apply M3_ext; rcbv; ring).
    assert (V3 : stored (onsite_value w_easy atA) = easy) by (apply M3_ext; rcbv; ring).
    assert (I1 : forall x y z x' y' z', between (mkV x y z) (mscale 1 mid) (mkV x' y' z') = x * x' + y * y' + z * z') by (intros; unfold between; rcbv; ring).
    assert (I2 : forall x y z x' y' z', between (mkV x y z) easy (mkV x' y' z') = x * x' + 3 * (z * z')) by (intros; unfold between; rcbv; ring).
    assert (N : forall u : bkey -> R, normal_part w_easy (-1) (-1) 2 2 u (mkV a b 0) (mkV (- b) a 0) (mkV 0 0 1) = 10 + (2 * (1 - cos (u right_bond)) + 2 * (1 - cos (u left_bond))) * 2).
    { intros u. unfold normal_part. rewrite easy_bonds, easy_sites. cbn [sum_over fold_right]. rewrite V1, V2, V3. unfold diagonal. rewrite cos_0, sin_0, !I1, !I2.
      replace (a * a) with (1 - b * b) by lra. field. }
    assert (B : pairs = (- (2 * (a * a - b * b)), 4 * (a * b))).
    { unfold pairs, pair_part, pair_term. rewrite easy_bonds, easy_sites. cbn [sum_over fold_right]. rewrite V1, V2, V3, !I1, !I2. f_equal; [replace (a * a) with (1 - b * b) by lra|]; field. }
    assert (M4 : Cmod pairs * Cmod pairs = 4).
    { rewrite B. unfold Cmod. cbn [fst snd]. rewrite sqrt_sqrt by nra. transitivity (4 * ((a * a + b * b) * (a * a + b * b))); [ring|]. rewrite Hn. ring. }
    unfold here, there. rewrite !N, M4. assert (X := COS_bound). unfold theta. fold t. rewrite D2, Ropp_involutive, cos_neg. destruct (X t). splits; [lra| |reflexivity].
    assert (10 <= 10 + (2 * (1 - cos t) + 2 * (1 - cos t)) * 2) by lra. nra.
Qed.
