(** A case for C91. *)
From Coq Require Import List Bool ZArith Reals Lra Permutation.
From Verif.Base Require Import Scalar ScalarR Linear3 PyDict.
From Verif.Model Require Import MatrixParam Hamiltonian History EnergyInit Energy Dispersion.
From Verif.Spec Require Import HamSpec HistorySpec NotationSpec EnergySpec DispersionSpec InvarianceSpec RotationSpec ScaleSpec.
From Verif.Proofs Require Import HamWitness EnergyWitness EnergyInitProofs InvarianceProofs RotationProofs RotationEnergy RotationCases EnergyProofs OptimizerWitness DispersionWitness ScaleMagnons.
Import ListNotations.
Local Open Scope R_scope.

Lemma pair_scaled t a b c : scaled_parameters t (w_pair a b c) (w_pair (t * a) (t * b) (t * c)).
Proof.
  unfold scaled_parameters. splits; [reflexivity| |reflexivity]. intros k. rewrite !pair_value. change (bonds (w_pair (t * a) (t * b) (t * c))) with (bonds (w_pair a b c)).
  destruct (in_dec _ k _); [|reflexivity]. cbn [option_map]. f_equal. unfold diag. r3. f_equal; ring.
Qed.
Lemma scale_case : forall t, scaled_parameters t (w_pair 1 2 3) (w_pair (t * 1) (t * 2) (t * 3)) /\ wf (w_pair 1 2 3) /\ wf (w_pair (t * 1) (t * 2) (t * 3)) /\
  mirror_closed (w_pair 1 2 3) /\ notation_is (w_pair 1 2 3) true true (-1) 1 /\ notation_is (w_pair (t * 1) (t * 2) (t * 3)) true true (-1) 1 /\
  (forall a, carries (w_pair 1 2 3) a -> spin_of (w_pair 1 2 3) a <> None) /\ distinctly_indexed (w_pair 1 2 3) /\
  (exists w1 E, energy_init keep (fun _ => 2) one3 (w_pair 1 2 3) = (w1, Ret E)) /\
  (exists w1 E, energy_init (@rev atom) (fun _ => 2) one3 (w_pair (t * 1) (t * 2) (t * 3)) = (w1, Ret E)).
Proof.
  intros t. assert (Sp : forall a b c x, carries (w_pair a b c) x -> spin_of (w_pair a b c) x <> None).
  { intros a b c x [(k & I & J)|I]; [|rewrite pair_sites in I; destruct I]. rewrite pair_bonds in I. destruct I as [<-|[<-|[]]]; destruct J as [<-|<-]; discriminate. }
  assert (Mc : forall a b c, mirror_closed (w_pair a b c)) by (intros a b c; destruct (pair_facts a b c) as (_ & _ & _ & (_ & _ & X & _) & _); exact X).
  assert (Nz : (1 : R) <> 0) by lra.
  assert (In0 : forall order cell a b c, (forall l, Permutation (order l) l) -> exists w1 E, energy_init order (fun _ => 2) cell (w_pair a b c) = (w1, Ret E)).
  { intros order cell a b c Po. destruct (init_atoms order (w_pair a b c) Po (Sp a b c)) as (atoms & Ea & Sa).
    destruct (@energy_init_ok R R_Scalar order (fun _ => 2) cell (w_pair a b c) atoms (-1) 1 true Po (pair_wf a b c) (fun _ => Mc a b c) ltac:(discriminate) eq_refl eq_refl eq_refl Nz Ea Sa) as (w1 & E & _ & _ & X & _).
    eauto. }
  refine (conj (pair_scaled t 1 2 3) (conj (pair_wf 1 2 3) (conj (pair_wf _ _ _) (conj (Mc 1 2 3) (conj _ (conj _ (conj (Sp 1 2 3) (conj _ (conj _ _))))))))).
  - destruct (pair_facts 1 2 3) as (_ & _ & _ & _ & E & _). exact E.
  - destruct (pair_facts (t * 1) (t * 2) (t * 3)) as (_ & _ & _ & _ & E & _). exact E.
  - destruct (pair_facts 1 2 3) as (_ & _ & _ & _ & _ & E). exact E.
  - apply In0, keep_perm.
  - apply In0. intros l; apply Permutation_sym, Permutation_rev.
Qed.

Lemma pair_scaled_model t a b c : scaled_model t true (-1) 1 (w_pair a b c) true (-1) 1 (w_pair (t * a) (t * b) (t * c)).
Proof.
  assert (Dg : diag (t * a) (t * b) (t * c) = mscale t (diag a b c)) by (unfold diag; r3; f_equal; ring).
  unfold scaled_model. splits; try reflexivity. intros k H. unfold pair_coupling. change (spin_length true (w_pair (t * a) (t * b) (t * c))) with (spin_length true (w_pair a b c)).
  destruct (spin_length true (w_pair a b c) (b_from k)) as [x|]; [|reflexivity]. destruct (spin_length true (w_pair a b c) (b_to k)) as [y|]; [|reflexivity]. cbn [option_map].
  rewrite (mscale_comm2 t), (mscale_add t). do 3 f_equal; unfold stored; rewrite !pair_value; change (bonds (w_pair (t * a) (t * b) (t * c))) with (bonds (w_pair a b c)).
  - destruct (in_dec _ k _); [exact Dg|symmetry; apply mscale_zero].
  - rewrite mscale_trans. f_equal. destruct (in_dec _ (mirror k) _); [exact Dg|symmetry; apply mscale_zero].
Qed.
Lemma scale_magnon_case : forall t, scaled_model t true (-1) 1 (w_pair 1 2 3) true (-1) 1 (w_pair (t * 1) (t * 2) (t * 3)) /\
  (wf (w_pair 1 2 3) /\ unshared (w_pair 1 2 3) /\ spins_defined (w_pair 1 2 3) /\ reciprocal_storage (w_pair 1 2 3) true /\ notation_is (w_pair 1 2 3) true true (-1) 1 /\ distinctly_indexed (w_pair 1 2 3)) /\
  (let w' := w_pair (t * 1) (t * 2) (t * 3) in wf w' /\ unshared w' /\ spins_defined w' /\ reciprocal_storage w' true /\ notation_is w' true true (-1) 1) /\
  (exists w1 D, dispersion_init keep one3 origin up (w_pair 1 2 3) = (w1, Ret D)) /\
  (exists w1 D, dispersion_init (@rev atom) one3 origin up (w_pair (t * 1) (t * 2) (t * 3)) = (w1, Ret D)).
Proof.
  intros t. refine (conj (pair_scaled_model t 1 2 3) (conj (pair_facts 1 2 3) (conj _ (conj _ _)))).
  - destruct (pair_facts (t * 1) (t * 2) (t * 3)) as (A & B & C & D & E & _). exact (conj A (conj B (conj C (conj D E)))).
  - apply (pair_made keep 1 2 3 one3 origin up ez keep_perm); [reflexivity|exact ez_nonzero].
  - apply (pair_made (@rev atom) _ _ _ _ _ up ez); [intros l; apply Permutation_sym, Permutation_rev|reflexivity|exact ez_nonzero].
Qed.
