(** Cases for C87. *)
From Coq Require Import List Bool ZArith Reals Lra Permutation.
From Verif.Base Require Import Scalar ScalarR Linear3 PyDict.
From Verif.Model Require Import MatrixParam Hamiltonian EnergyInit Energy.
From Verif.Spec Require Import HamSpec NotationSpec EnergySpec DispersionSpec InvarianceSpec RotationSpec ConeSpec.
From Verif.Proofs Require Import HamBasics HamWitness EnergyInitProofs EnergyProofs RotationEnergy RotationCases EnergyWitness DispersionWitness DispersionGlue ConeProofs ConeSymmetry.
Import ListNotations.
Local Open Scope R_scope.

(** One spin along x with the easy axis x: the state with the axis z and no spiral is the state itself, the energy is halved. *)
Definition E_axis : @energy_obj R := mkEnergy 1 [2] [1] [(0%nat, 0%nat, vzero, 0%nat)] None.
Definition st_axis : list (M3 R) := [mkM 1 0 0 0 0 0 0 0 0].
Lemma zero_refuted : exists mu st E rows n, e_field E = None /\ Forall (fun v => dot v v = 1) rows /\ dot n n = 1 /\
  exists e e', e_ferro mu st E (SRows rows) = Ret e /\ e_spiral mu st E (SRows rows) (Some n) (Some vzero) = Ret e' /\ e <> e'.
Proof.
  exists 1, st_axis, E_axis, [ex], ez. split; [reflexivity|]. split; [constructor; [unfold ex; rlin; ring|constructor]|]. split; [unfold ez; rlin; ring|].
  assert (Dx : direction ex ex) by (split; [unfold ex; rlin; ring|exists 1; split; [lra|apply V3_ext; unfold ex; rlin; ring]]).
  assert (Nx : normalize_all [ex] = Ret [ex]) by (apply normalize_directions; constructor; [exact Dx|constructor]).
  assert (Nz : normalize ez = Ret ez).
  { unfold normalize. assert (D := dir_ez). apply direction_unit in D as [D1 D2]. destruct (Req_EM_T (norm ez) 0); [contradiction|]. rewrite D2. reflexivity. }
  exists 1, (1 / 2). split; [|split; [|lra]].
  - unfold e_ferro. cbn [check_spins E_axis e_spins List.length Nat.eqb obind]. rewrite Nx. cbn [obind]. unfold bonds_energy, bond_energy, zeeman. cbn. f_equal. unfold ex. rlin. ring.
  - unfold e_spiral, cone_energy. cbn [check_vector check_spins E_axis e_spins List.length Nat.eqb obind]. rewrite Nx, Nz. cbn [obind].
    unfold bonds_energy, bond_energy. cbn -[spiral_C cone_K cos sin dot bilin zeeman so_prime].
    replace (dot vzero vzero) with 0 by (rlin; ring). rewrite cos_0, sin_0, spiral_bilin by (unfold ez; rlin; ring).
    unfold zeeman. cbn [e_field E_axis]. f_equal. unfold across, along, ConeProofs.turned, ex, ez. rlin. field.
Qed.

Lemma isotropic_case : (forall l, Permutation (keep l) l) /\ wf (w_pair 1 1 1) /\ mirror_closed (w_pair 1 1 1) /\ notation_is (w_pair 1 1 1) true true (-1) 1 /\
  (forall a, carries (w_pair 1 1 1) a -> spin_of (w_pair 1 1 1) a <> None) /\ distinctly_indexed (w_pair 1 1 1) /\ isotropic_parameters (w_pair 1 1 1) /\
  bonds (w_pair 1 1 1) <> [] /\ rotation cycle /\ exists w1 E, energy_init keep (fun _ => 2) one3 (w_pair 1 1 1) = (w1, Ret E).
Proof.
  destruct (pair_facts 1 1 1) as (W & U & S & (R1 & R2 & R3 & R4) & N & D).
  assert (Sp : forall x, carries (w_pair 1 1 1) x -> spin_of (w_pair 1 1 1) x <> None).
  { intros x [(k & I & J)|I]; [|rewrite pair_sites in I; destruct I]. rewrite pair_bonds in I. destruct I as [<-|[<-|[]]]; destruct J as [<-|<-]; discriminate. }
  split; [apply keep_perm|]. split; [exact W|]. split; [exact R3|]. split; [exact N|]. split; [exact Sp|]. split; [exact D|]. split.
  - split.
    + intros k J E. rewrite pair_value in E. destruct (in_dec _ _ _); [|discriminate]. injection E as <-. exists 1. intros u v. unfold diag. destruct u, v. rlin. ring.
    + intros a A E. discriminate E.
  - split; [rewrite pair_bonds; discriminate|]. split; [exact cycle_rotation|].
    destruct (init_atoms keep (w_pair 1 1 1) keep_perm Sp) as (atoms & Ea & Sa).
    destruct (@energy_init_ok R R_Scalar keep (fun _ => 2) one3 (w_pair 1 1 1) atoms (-1) 1 true keep_perm W (fun _ => R3) ltac:(discriminate) eq_refl eq_refl eq_refl R1_neq_R0 Ea Sa) as (w1 & E & _ & _ & X & _).
    eauto.
Qed.
Lemma reciprocal_case : reciprocal_vector one3 (mkV (2 * PI) (- (2 * PI)) 0).
Proof. exact (proj1 periodic_case). Qed.
