(** Concrete Hamiltonians for C72: the pair [w_iso] again, stored once, without spin normalisation, with another factor and
    from the other list of atoms. *)
From Coq Require Import List Bool ZArith Reals Lra Lia Permutation Arith String.
From Verif.Base Require Import Scalar ScalarR Linear3 PyDict PyString.
From Verif.Model Require Import MatrixParam Hamiltonian History EnergyInit Energy Dispersion.
From Verif.Spec Require Import HamSpec NotationSpec HistorySpec EnergySpec DispersionSpec InvarianceSpec.
From Verif.Proofs Require Import DictProofs HamBasics HamSetters HamDouble HamDcEnergy NotationProofs HistoryProofs CallProofs FilterProofs FrameProofs
  HamGlue HamWitness EnergyInitProofs EnergyProofs EnergyWitness OptimizerProofs OptimizerWitness DispersionMatrix DispersionInit DispersionAxes DispersionModes DispersionOmega DispersionFrame DispersionWitness SpinWaveWitness.
From Coq Require Import List.
Import ListNotations.
Local Open Scope R_scope.

Definition w_once2 : world :=
  run [OSetDC false; OSetSN false; OSetEF 4; OSetOF 7; OAddExchangeNew (AObj atA) (AObj atB) c0 (Some (mscale (- / 2) one3))]
      (fresh [] [atB; atA] [(atB, 1); (atA, 1)]).
Lemma r_once2 : reachable w_once2. Proof. do 4 eexists; reflexivity. Qed.
Lemma once2_wf : wf w_once2. Proof. exact (proj1 (reachable_Inv _ r_once2)). Qed.
Lemma once2_bonds : bonds w_once2 = [mkB atA atB c0]. Proof. reflexivity. Qed.
Lemma once2_sites : sites w_once2 = []. Proof. reflexivity. Qed.

Lemma iso_indexed : distinctly_indexed w_iso.
Proof.
  assert (H : forall a, (exists k, In k (bonds w_iso) /\ (b_from k = a \/ b_to k = a)) \/ In a (sites w_iso) -> a = atA \/ a = atB).
  { intros a [(k & I & J)|I]; [|rewrite iso_sites in I; destruct I]. rewrite iso_bonds in I. destruct I as [<-|[<-|[]]]; cbn in J; intuition. }
  intros a b A B. destruct (H a A) as [-> | ->], (H b B) as [-> | ->]; cbn; intros E; first [reflexivity|discriminate].
Qed.

Lemma once2_model : same_model true (-1) 1 w_iso false 4 7 w_once2.
Proof.
  assert (Bi : forall k, bonded w_iso k -> k = mkB atA atB c0 \/ k = mkB atB atA c0).
  { intros k [I|I]; rewrite iso_bonds in I; destruct I as [E|[E|[]]]; auto; apply (f_equal mirror) in E; rewrite mirror_invol in E; rewrite <- E; cbn; auto. }
  unfold same_model. splits.
  - intros a. change (spin_of w_once2 a) with (dget [(atB, 1); (atA, 1)] a). change (spin_of w_iso a) with (dget [(atA, 1); (atB, 1)] a).
    unfold dget. destruct (eq_dec a atB) as [-> |Nb]; [reflexivity|]. destruct (eq_dec a atA) as [-> |Na]; reflexivity.
  - intros k. split; intros H.
    + assert (X : k = mkB atA atB c0 \/ k = mkB atB atA c0).
      { destruct H as [I|I]; rewrite once2_bonds in I; destruct I as [E|[]]; auto. apply (f_equal mirror) in E. rewrite mirror_invol in E. rewrite <- E. cbn; auto. }
      unfold bonded. rewrite iso_bonds. destruct X as [-> | ->]; cbn; auto.
    + unfold bonded. rewrite once2_bonds. destruct (Bi k H) as [-> | ->]; cbn; auto.
  - rewrite iso_sites, once2_sites. tauto.
  - intros k H. destruct (Bi k H) as [-> | ->]; rcbv; apply f_equal, M3_ext; cbn; field.
  - rewrite iso_sites. intros a [].
Qed.

Lemma once2_facts : wf w_once2 /\ unshared w_once2 /\ spins_defined w_once2 /\ reciprocal_storage w_once2 false /\ notation_is w_once2 false false 4 7.
Proof.
  splits.
  - exact once2_wf.
  - unfold unshared. cbv. repeat constructor; cbn; intuition discriminate.
  - split; [|intros a I; rewrite once2_sites in I; destruct I]. rewrite once2_bonds. intros k [<-|[]]; split; exists 1; (split; [reflexivity|]); exact R1_neq_R0.
  - unfold reciprocal_storage. splits.
    + rewrite once2_bonds. intros k [<-|[]]; discriminate.
    + unfold distinct_indices. rewrite once2_bonds. intros k [<-|[]]; discriminate.
    + rewrite once2_bonds. intros k [<-|[]]; unfold kept_direction; cbn; lia.
  - repeat split.
Qed.

Lemma flip_perm : forall l : list atom, Permutation (@rev atom l) l.
Proof. intros l. apply Permutation_sym, Permutation_rev. Qed.
Lemma once2_made cell pos : exists w1 D, dispersion_init (@rev atom) cell pos up w_once2 = (w1, Ret D).
Proof.
  destruct once2_facts as (W & U & Sp & _).
  apply dispersion_total; [exact flip_perm|exact W|exact U|exact Sp|]. intros a _. exists ez. split; [reflexivity|exact ez_nonzero].
Qed.

Lemma model_case :
  (wf w_iso /\ unshared w_iso /\ spins_defined w_iso /\ reciprocal_storage w_iso true /\ notation_is w_iso true true (-1) 1 /\ distinctly_indexed w_iso) /\
  (wf w_once2 /\ unshared w_once2 /\ spins_defined w_once2 /\ reciprocal_storage w_once2 false /\ notation_is w_once2 false false 4 7) /\
  same_model true (-1) 1 w_iso false 4 7 w_once2 /\ List.length (bonds w_iso) = 2%nat /\ List.length (bonds w_once2) = 1%nat /\
  (exists w1 D, dispersion_init keep one3 origin up w_iso = (w1, Ret D)) /\
  (exists w1 D, dispersion_init (@rev atom) one3 origin up w_once2 = (w1, Ret D)).
Proof.
  destruct iso_wave as ((A & B & C & D & _) & E & _). splits; auto using iso_indexed, once2_model, iso_made, once2_made; apply once2_facts.
Qed.

Lemma notation_case : exists w' w1 D w1' D',
  set_notation (N4 false false 4 7) w_iso = (w', Ret tt) /\ ~ same_parameters w_iso w' /\
  dispersion_init keep one3 origin up w_iso = (w1, Ret D) /\ dispersion_init (@rev atom) one3 origin up w' = (w1', Ret D').
Proof.
  destruct iso_wave as ((A & B & C & D & _) & E & _). assert (Fw := full_intro w_iso _ _ _ _ A B C D E ltac:(cbn; lra) ltac:(cbn; lra)).
  destruct (set_notation_full w_iso _ _ _ _ false false 4 7 Fw ltac:(cbn; lra) ltac:(cbn; lra)) as (w' & Ew & Fv & Pv).
  destruct (iso_made one3 origin) as (w1 & Dd & E1).
  destruct (dispersion_total (@rev atom) one3 origin up w' flip_perm) as (w1' & D' & E2).
  - apply Fv. - apply Fv. - apply Fv.
  - intros a _. exists ez. split; [reflexivity|exact ez_nonzero].
  - exists w', w1, Dd, w1', D'. splits; auto. intros [Hs _].
    assert (I : In (mkB atB atA c0) (bonds w')).
    { apply (bond_value_stored w' _ (fu_wf _ _ _ _ _ Fv)). exists (match bond_value w_iso (mkB atB atA c0) with Some J => J | None => mzero end). rewrite Hs. reflexivity. }
    destruct (fu_st _ _ _ _ _ Fv) as (_ & _ & K). apply K in I. unfold kept_direction in I. cbn in I. lia.
Qed.
