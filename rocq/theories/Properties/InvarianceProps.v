(** Property C72: the magnon matrix does not depend on how the Hamiltonian is written down. *)
From Coq Require Import List Bool ZArith Reals Permutation.
From Coquelicot Require Import Coquelicot.
From Coq Require Import List.
From Verif.Base Require Import Scalar ScalarR Linear3 PyDict.
From Verif.Model Require Import MatrixParam Hamiltonian History EnergyInit Energy Dispersion.
From Verif.Spec Require Import HamSpec HistorySpec NotationSpec EnergySpec DispersionSpec InvarianceSpec.
From Verif.Proofs Require Import HamWitness EnergyWitness OptimizerWitness DispersionWitness InvarianceProofs InvarianceCases.
Import ListNotations.
Local Open Scope R_scope.

(** Two Hamiltonians with the same spins, the same pairs and sites and the same couplings, whatever their notations, the order
    in which the parameters were added and the order in which Python walks through the set of magnetic atoms: the objects have
    the same number of modes and the same matrix at every wave vector. *)
Theorem C72_same_model : forall order order' cell pos sv (w w' w1 w1' : @world R) D D' dc sn ef of_ dc' sn' ef' of',
  (forall l, Permutation (order l) l) -> (forall l, Permutation (order' l) l) ->
  wf w -> unshared w -> spins_defined w -> reciprocal_storage w dc -> notation_is w dc sn ef of_ -> ef <> 0 -> of_ <> 0 ->
  wf w' -> unshared w' -> spins_defined w' -> reciprocal_storage w' dc' -> notation_is w' dc' sn' ef' of' -> ef' <> 0 -> of' <> 0 ->
  distinctly_indexed w -> same_model sn ef of_ w sn' ef' of' w' ->
  dispersion_init order cell pos sv w = (w1, Ret D) -> dispersion_init order' cell pos sv w' = (w1', Ret D') ->
  d_N D' = d_N D /\ forall k p q, d_h (w_store w1') D' k p q = d_h (w_store w1) D k p q.
Proof. exact h_model. Qed.
Print Assumptions C72_same_model.

(** In particular: assigning any notation to the Hamiltonian changes nothing. *)
Theorem C72_notation : forall order order' cell pos sv (w w' w1 w1' : @world R) D D' dc sn ef of_ n dc' sn' ef' of',
  (forall l, Permutation (order l) l) -> (forall l, Permutation (order' l) l) ->
  wf w -> unshared w -> spins_defined w -> reciprocal_storage w dc -> notation_is w dc sn ef of_ -> ef <> 0 -> of_ <> 0 -> distinctly_indexed w ->
  parse_notation n = Some (dc', sn', ef', of') -> ef' <> 0 -> of' <> 0 -> set_notation n w = (w', Ret tt) ->
  dispersion_init order cell pos sv w = (w1, Ret D) -> dispersion_init order' cell pos sv w' = (w1', Ret D') ->
  d_N D' = d_N D /\ forall k p q, d_h (w_store w1') D' k p q = d_h (w_store w1) D k p q.
Proof. exact h_notation. Qed.
Print Assumptions C72_notation.

Example C72_model_case :
  (wf w_iso /\ unshared w_iso /\ spins_defined w_iso /\ reciprocal_storage w_iso true /\ notation_is w_iso true true (-1) 1 /\ distinctly_indexed w_iso) /\
  (wf w_once2 /\ unshared w_once2 /\ spins_defined w_once2 /\ reciprocal_storage w_once2 false /\ notation_is w_once2 false false 4 7) /\
  same_model true (-1) 1 w_iso false 4 7 w_once2 /\ List.length (bonds w_iso) = 2%nat /\ List.length (bonds w_once2) = 1%nat /\
  (exists w1 D, dispersion_init keep one3 origin up w_iso = (w1, Ret D)) /\
  (exists w1 D, dispersion_init (@rev atom) one3 origin up w_once2 = (w1, Ret D)).
Proof. exact model_case. Qed.

Example C72_notation_case : exists w' w1 D w1' D',
  set_notation (N4 false false 4 7) w_iso = (w', Ret tt) /\ ~ same_parameters w_iso w' /\
  dispersion_init keep one3 origin up w_iso = (w1, Ret D) /\ dispersion_init (@rev atom) one3 origin up w' = (w1', Ret D').
Proof. exact notation_case. Qed.
