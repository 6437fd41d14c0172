(** A Hamiltonian that meets the conditions of the spin-wave theorem. *)
From Coq Require Import List Bool ZArith Reals Lra.
From Coquelicot Require Import Complex.
From Verif.Base Require Import Scalar ScalarR Linear3 PyDict.
From Verif.Model Require Import MatrixParam Hamiltonian History EnergyInit Energy Dispersion.
From Verif.Spec Require Import HamSpec NotationSpec HistorySpec EnergySpec DispersionSpec SpinWaveSpec.
From Verif.Proofs Require Import HamBasics NotationProofs HistoryProofs HamWitness EnergyWitness OptimizerWitness DispersionInit DispersionWitness.
From Coq Require Import List.
Import ListNotations.
Local Open Scope R_scope.

Lemma iso_wave : (wf w_iso /\ unshared w_iso /\ spins_defined w_iso /\ reciprocal_storage w_iso true /\ symmetric_onsite w_iso) /\
  notation_is w_iso true true (-1) 1 /\ (forall a, carries w_iso a -> spin_of w_iso a = Some 1) /\ carries w_iso atA /\ carries w_iso atB /\
  (forall a s, carries w_iso a -> up a = Some s -> norm s = 1) /\ (exists w1 D, dispersion_init keep one3 origin up w_iso = (w1, Ret D)) /\ bonds w_iso <> [].
Proof.
  destruct iso_sym as (W & U & Rc & O). splits; auto.
  - exact iso_spins.
  - unfold reciprocal_storage. splits.
    + rewrite iso_bonds. intros k [<-|[<-|[]]]; discriminate.
    + unfold distinct_indices. rewrite iso_bonds. intros k [<-|[<-|[]]]; discriminate.
    + unfold mirror_closed. rewrite iso_bonds. intros k [<-|[<-|[]]]; cbn; auto.
    + exact Rc.
  - repeat split.
  - intros a [(k & I & H)|I]; [|rewrite iso_sites in I; destruct I]. rewrite iso_bonds in I. destruct I as [<-|[<-|[]]]; destruct H as [<-|<-]; reflexivity.
  - left. exists (mkB atA atB c0). rewrite iso_bonds. cbn; auto.
  - left. exists (mkB atA atB c0). rewrite iso_bonds. cbn; auto.
  - intros a s _ E. unfold up in E. assert (s = ez) as -> by congruence. exact norm_ez.
  - apply iso_made.
  - rewrite iso_bonds. discriminate.
Qed.
