(** Concrete Hamiltonians for C73 and C74: a pair with an anisotropic exchange, and the same rotated by 120 degrees about the
    diagonal. *)
From Coq Require Import List Bool ZArith Reals Lra Lia Permutation Arith String.
From Verif.Base Require Import Scalar ScalarR Linear3 PyDict PyString.
From Verif.Model Require Import MatrixParam Hamiltonian History EnergyInit Energy Dispersion.
From Verif.Spec Require Import HamSpec NotationSpec HistorySpec EnergySpec DispersionSpec InvarianceSpec RotationSpec.
From Verif.Proofs Require Import DictProofs HamBasics HamSetters HamDouble HamDcEnergy NotationProofs HistoryProofs CallProofs FilterProofs FrameProofs
  HamGlue HamWitness EnergyInitProofs EnergyProofs EnergyWitness OptimizerProofs OptimizerWitness DispersionMatrix DispersionInit DispersionAxes DispersionModes DispersionOmega DispersionFrame
  DispersionWitness SpinWaveProofs InvarianceProofs RotationProofs RotationEnergy.
From Coq Require Import List.
Import ListNotations.
Local Open Scope R_scope.

Definition cycle : M3 R := mkM 0 0 1 1 0 0 0 1 0.
Lemma cycle_rotation : rotation cycle.
Proof. split; intros [a b c] [d e f]; unfold cycle; r3; [ring|f_equal; ring]. Qed.

Definition diag (a b c : R) : M3 R := mkM a 0 0 0 b 0 0 0 c.
Definition w_pair (a b c : R) : world :=
  run [OSetDC true; OSetSN true; OSetEF (-1); OSetOF 1; OAddExchangeNew (AObj atA) (AObj atB) c0 (Some (diag a b c))] (fresh [] [atA; atB] [(atA, 1); (atB, 1)]).
Lemma r_pair a b c : reachable (w_pair a b c). Proof. do 4 eexists; reflexivity. Qed.
Lemma pair_wf a b c : wf (w_pair a b c). Proof. exact (proj1 (reachable_Inv _ (r_pair a b c))). Qed.
Lemma pair_unshared a b c : unshared (w_pair a b c). Proof. unfold unshared. cbv. repeat constructor; cbn; intuition discriminate. Qed.
Lemma pair_bonds a b c : bonds (w_pair a b c) = [mkB atA atB c0; mkB atB atA c0]. Proof. reflexivity. Qed.
Lemma pair_sites a b c : sites (w_pair a b c) = []. Proof. reflexivity. Qed.
Lemma pair_value a b c k : bond_value (w_pair a b c) k = if in_dec eq_dec k (bonds (w_pair a b c)) then Some (diag a b c) else None.
Proof.
  destruct (in_dec eq_dec k _) as [I|I].
  - rewrite pair_bonds in I. destruct I as [<-|[<-|[]]]; reflexivity.
  - apply bond_value_absent; [apply pair_wf|exact I].
Qed.
Lemma pair_facts a b c : wf (w_pair a b c) /\ unshared (w_pair a b c) /\ spins_defined (w_pair a b c) /\ reciprocal_storage (w_pair a b c) true /\
  notation_is (w_pair a b c) true true (-1) 1 /\ distinctly_indexed (w_pair a b c).
Proof.
  splits; [apply pair_wf|apply pair_unshared| | | |].
  - split; [|intros x I; rewrite pair_sites in I; destruct I]. rewrite pair_bonds. intros k [<-|[<-|[]]]; split; exists 1; (split; [reflexivity|]); exact R1_neq_R0.
  - unfold reciprocal_storage. splits.
    + rewrite pair_bonds. intros k [<-|[<-|[]]]; discriminate.
    + unfold distinct_indices. rewrite pair_bonds. intros k [<-|[<-|[]]]; discriminate.
    + unfold mirror_closed. rewrite pair_bonds. intros k [<-|[<-|[]]]; cbn; auto.
    + intros k J J'. rewrite !pair_value. destruct (in_dec _ k _); [|discriminate]. destruct (in_dec _ (mirror k) _); [|discriminate].
      intros X Y. injection X as <-. injection Y as <-. reflexivity.
  - repeat split.
  - assert (H : forall x, (exists k, In k (bonds (w_pair a b c)) /\ (b_from k = x \/ b_to k = x)) \/ In x (sites (w_pair a b c)) -> x = atA \/ x = atB).
    { intros x [(k & I & J)|I]; [|rewrite pair_sites in I; destruct I]. rewrite pair_bonds in I. destruct I as [<-|[<-|[]]]; cbn in J; intuition. }
    intros x y A B. destruct (H x A) as [-> | ->], (H y B) as [-> | ->]; cbn; intros E; first [reflexivity|discriminate].
Qed.

Lemma cycle_diag a b c : turned cycle (diag a b c) = diag c a b.
Proof. unfold turned, cycle, diag. r3. f_equal; ring. Qed.
Lemma pair_rotated a b c : rotated_parameters cycle (w_pair a b c) (w_pair c a b).
Proof.
  unfold rotated_parameters. splits.
  - reflexivity.
  - intros k. rewrite !pair_value. change (bonds (w_pair c a b)) with (bonds (w_pair a b c)). destruct (in_dec _ k _); [|reflexivity]. cbn [option_map]. rewrite cycle_diag. reflexivity.
  - reflexivity.
Qed.
Lemma pair_model a b c : rotated_model cycle true (-1) 1 (w_pair a b c) true (-1) 1 (w_pair c a b).
Proof.
  unfold rotated_model. splits; try reflexivity.
  - intros k H. unfold pair_coupling. change (spin_length true (w_pair c a b)) with (spin_length true (w_pair a b c)).
    destruct (spin_length true (w_pair a b c) (b_from k)) as [x|]; [|reflexivity]. destruct (spin_length true (w_pair a b c) (b_to k)) as [y|]; [|reflexivity]. cbn [option_map].
    rewrite turned_scale, turned_add. do 3 f_equal; unfold stored; rewrite !pair_value; change (bonds (w_pair c a b)) with (bonds (w_pair a b c)).
    + destruct (in_dec _ k _); [rewrite cycle_diag; reflexivity|rewrite turned_zero; reflexivity].
    + rewrite turned_trans. destruct (in_dec _ (mirror k) _); [rewrite cycle_diag; reflexivity|rewrite turned_zero; reflexivity].
Qed.

Definition ex : V3 R := mkV 1 0 0.
Definition sideways : atom -> option (V3 R) := fun _ => Some ex.
Lemma cycle_ez : mvec cycle ez = ex. Proof. unfold cycle, ez, ex. r3. f_equal; ring. Qed.
Lemma sharp_ez : sharp ez.
Proof. right. left. unfold direction_of, ez. replace (dot _ _) with 1 by (r3; ring). rewrite sqrt_1. r3. f_equal; field. Qed.
Lemma sharp_ex : sharp ex.
Proof.
  left. unfold direction_of, ex. replace (dot _ _) with 1 by (r3; ring). rewrite sqrt_1. replace (vscale (/ 1) (mkV 1 0 0)) with (mkV 1 0 0) by (r3; f_equal; field).
  intros (H & _). cbn [vx] in H. rewrite Rabs_R1 in H. assert (/ 10 ^ 8 <= / 10) by (apply Rinv_le_contravar; lra). lra.
Qed.
Lemma pair_made order a b c cell pos (sv : atom -> option (V3 R)) s : (forall l, Permutation (order l) l) -> (forall x, sv x = Some s) -> s <> vzero ->
  exists w1 D, dispersion_init order cell pos sv (w_pair a b c) = (w1, Ret D).
Proof.
  intros P H N. destruct (pair_facts a b c) as (W & U & Sp & _). apply dispersion_total; auto. intros x _. exists s. auto.
Qed.
Lemma ex_nonzero : ex <> vzero. Proof. intros E. apply (f_equal vx) in E. cbn in E. change (@f0 R R_Scalar) with 0 in E. lra. Qed.

Lemma matrix_case : rotation cycle /\ isometry cycle /\ rotated_model cycle true (-1) 1 (w_pair 1 2 3) true (-1) 1 (w_pair 3 1 2) /\
  (wf (w_pair 1 2 3) /\ unshared (w_pair 1 2 3) /\ spins_defined (w_pair 1 2 3) /\ reciprocal_storage (w_pair 1 2 3) true /\ notation_is (w_pair 1 2 3) true true (-1) 1 /\ distinctly_indexed (w_pair 1 2 3)) /\
  (wf (w_pair 3 1 2) /\ unshared (w_pair 3 1 2) /\ spins_defined (w_pair 3 1 2) /\ reciprocal_storage (w_pair 3 1 2) true /\ notation_is (w_pair 3 1 2) true true (-1) 1) /\
  (forall a, carries (w_pair 1 2 3) a -> exists s, up a = Some s /\ sideways a = Some (mvec cycle s) /\ sharp s /\ sharp (mvec cycle s)) /\
  (exists w1 D, dispersion_init keep one3 origin up (w_pair 1 2 3) = (w1, Ret D)) /\
  (exists w1 D, dispersion_init (@rev atom) (turned_cell cycle one3) (fun a => mvec cycle (origin a)) sideways (w_pair 3 1 2) = (w1, Ret D)).
Proof.
  refine (conj cycle_rotation (conj (proj1 cycle_rotation) (conj (pair_model 1 2 3) (conj (pair_facts 1 2 3) (conj _ (conj _ (conj _ _))))))).
  - destruct (pair_facts 3 1 2) as (A & B & C & D & E & _). exact (conj A (conj B (conj C (conj D E)))).
  - intros a _. exists ez. rewrite cycle_ez. splits; [reflexivity|reflexivity|exact sharp_ez|exact sharp_ex].
  - apply (pair_made keep 1 2 3 one3 origin up ez keep_perm); [reflexivity|exact ez_nonzero].
  - apply (pair_made (@rev atom) 3 1 2 _ _ sideways ex); [intros l; apply Permutation_sym, Permutation_rev|reflexivity|exact ex_nonzero].
Qed.

Lemma energy_case : rotation cycle /\ isometry cycle /\ rotated_parameters cycle (w_pair 1 2 3) (w_pair 3 1 2) /\ wf (w_pair 1 2 3) /\ wf (w_pair 3 1 2) /\
  mirror_closed (w_pair 1 2 3) /\ notation_is (w_pair 1 2 3) true true (-1) 1 /\ notation_is (w_pair 3 1 2) true true (-1) 1 /\
  (forall a, carries (w_pair 1 2 3) a -> spin_of (w_pair 1 2 3) a <> None) /\ distinctly_indexed (w_pair 1 2 3) /\
  (exists w1 E, energy_init keep (fun _ => 2) one3 (w_pair 1 2 3) = (w1, Ret E)) /\
  (exists w1 E, energy_init (@rev atom) (fun _ => 2) (turned_cell cycle one3) (w_pair 3 1 2) = (w1, Ret E)).
Proof.
  assert (HO := cycle_rotation). assert (Sp : forall a b c x, carries (w_pair a b c) x -> spin_of (w_pair a b c) x <> None).
  { intros a b c x [(k & I & J)|I]; [|rewrite pair_sites in I; destruct I]. rewrite pair_bonds in I. destruct I as [<-|[<-|[]]]; destruct J as [<-|<-]; discriminate. }
  assert (Mc : forall a b c, mirror_closed (w_pair a b c)) by (intros a b c; destruct (pair_facts a b c) as (_ & _ & _ & (_ & _ & X & _) & _); exact X).
  assert (Nz : (1 : R) <> 0) by lra.
  assert (In0 : forall order cell a b c, (forall l, Permutation (order l) l) -> exists w1 E, energy_init order (fun _ => 2) cell (w_pair a b c) = (w1, Ret E)).
  { intros order cell a b c Po. destruct (init_atoms order (w_pair a b c) Po (Sp a b c)) as (atoms & Ea & Sa).
    destruct (@energy_init_ok R R_Scalar order (fun _ => 2) cell (w_pair a b c) atoms (-1) 1 true Po (pair_wf a b c) (fun _ => Mc a b c) ltac:(discriminate) eq_refl eq_refl eq_refl Nz Ea Sa) as (w1 & E & _ & _ & X & _).
    eauto. }
  refine (conj HO (conj (proj1 HO) (conj (pair_rotated 1 2 3) (conj (pair_wf 1 2 3) (conj (pair_wf 3 1 2) (conj (Mc 1 2 3) (conj _ (conj _ (conj (Sp 1 2 3) (conj _ (conj _ _))))))))))).
  - destruct (pair_facts 1 2 3) as (_ & _ & _ & _ & E & _). exact E.
  - destruct (pair_facts 3 1 2) as (_ & _ & _ & _ & E & _). exact E.
  - destruct (pair_facts 1 2 3) as (_ & _ & _ & _ & _ & E). exact E.
  - apply In0, keep_perm.
  - apply In0. intros l; apply Permutation_sym, Permutation_rev.
Qed.
