(** Property C79: magnons of a classically stable state. *)
From Coq Require Import List Bool ZArith Reals Permutation.
From Coquelicot Require Import Coquelicot.
From Coq Require Import List.
From Verif.Base Require Import Scalar ScalarR Linear3 PyDict.
From Verif.Model Require Import MatrixParam Hamiltonian History EnergyInit Energy Dispersion Solver.
From Verif.Spec Require Import HamSpec HistorySpec NotationSpec EnergySpec DispersionSpec RotationSpec OmegaSpec StableSpec.
From Verif.Proofs Require Import HamWitness EnergyWitness OptimizerWitness DispersionWitness StableGlue.
Import ListNotations.
Local Open Scope R_scope.

(** When no nearby periodic arrangement of the spins has a lower energy, h(k) is positive semidefinite at every wave vector and
    [omega] returns N real numbers, none of them negative or NaN. *)
Theorem C79_stable : forall np order cell pos sv (w w1 : @world R) D dc sn ef of_ Sl, numpy_works np ->
  wf w -> unshared w -> spins_defined w -> reciprocal_storage w dc -> symmetric_onsite w -> notation_is w dc sn ef of_ -> ef <> 0 -> of_ <> 0 ->
  (forall a, carries w a -> spin_of w a = Some (Sl a)) -> (forall a s, carries w a -> sv a = Some s -> norm s = Sl a /\ sharp s) ->
  mdet cell <> 0 -> dispersion_init order cell pos sv w = (w1, Ret D) -> classically_stable w (uniform (pointing sv)) ->
  forall k, (forall psi, 0 <= fst (quad (2 * d_N D) (d_h (w_store w1) D k) psi)) /\
  forall zeros_to_none return_imaginary, exists l,
    fst (omega (colpa_solver np (d_N D)) (d_N D) (d_h (w_store w1) D k) zeros_to_none false return_imaginary) = map (fun r => Num (RtoC r)) l /\
    List.length l = d_N D /\ forall r, In r l -> 0 <= r.
Proof. exact stable_energies. Qed.
Print Assumptions C79_stable.

(** A state in which every bond and every site has the lowest energy it can have is stable: ferromagnets, antiferromagnets
    without frustration. *)
Theorem C79_unfrustrated : forall (w : @world R) dc sn ef of_ d, wf w -> spins_defined w -> notation_is w dc sn ef of_ ->
  (forall a x, carries w a -> spin_of w a = Some x -> 0 < x) ->
  (forall b J u v, bond_value w b = Some J -> dot u u = 1 -> dot v v = 1 -> ef * dot (d (b_from b)) (mvec J (d (b_to b))) <= ef * dot u (mvec J v)) ->
  (forall a A u, onsite_value w a = Some A -> dot u u = 1 -> of_ * dot (d a) (mvec A (d a)) <= of_ * dot u (mvec A u)) ->
  classically_stable w (uniform d).
Proof. exact unfrustrated_stable. Qed.
Print Assumptions C79_unfrustrated.

(** A chain of antiparallel spins. *)
Example C79_case :
  (wf w_neel /\ unshared w_neel /\ spins_defined w_neel /\ reciprocal_storage w_neel true /\ symmetric_onsite w_neel /\ notation_is w_neel true true 1 1) /\
  (forall a, carries w_neel a -> spin_of w_neel a = Some 1) /\ carries w_neel atA /\ carries w_neel atB /\
  (forall a s, carries w_neel a -> neel a = Some s -> norm s = 1 /\ sharp s) /\ mdet (one3 : M3 R) <> 0 /\
  (exists w1 D, dispersion_init keep one3 origin neel w_neel = (w1, Ret D)) /\ pointing neel atA = mkV 0 0 1 /\ pointing neel atB = mkV 0 0 (-1) /\
  (forall b J u v, bond_value w_neel b = Some J -> dot u u = 1 -> dot v v = 1 -> 1 * dot (pointing neel (b_from b)) (mvec J (pointing neel (b_to b))) <= 1 * dot u (mvec J v)) /\
  (forall a A, onsite_value w_neel a <> Some A).
Proof. exact neel_case. Qed.
