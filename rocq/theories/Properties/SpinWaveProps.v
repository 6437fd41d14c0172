(** Property C68: the magnon matrix is the second-order term of the classical energy. *)
From Coq Require Import List Bool ZArith Reals.
From Coquelicot Require Import Coquelicot.
From Coq Require Import List.
From Verif.Base Require Import Scalar ScalarR Linear3 PyDict.
From Verif.Model Require Import MatrixParam Hamiltonian History EnergyInit Energy Dispersion.
From Verif.Spec Require Import HamSpec HistorySpec NotationSpec EnergySpec DispersionSpec SpinWaveSpec.
From Verif.Proofs Require Import HamWitness EnergyWitness OptimizerWitness DispersionWitness SpinWaveProofs SpinWaveWitness.
Import ListNotations.
Local Open Scope R_scope.

(** Atoms with parameters have distinct rows [index] and right-handed axes whose third one is the direction of the spin. For
    every wave vector [k] and amplitudes [psi] the energy of a cell in the wave of strength [t] is a function [E t phi] with an
    expansion to second order in [t]; averaged over the phase, the first-order term vanishes and the second-order term is the
    quadratic form of [h(k)]. *)
Theorem C68_second_order : forall order cell pos sv (w w1 : @world R) D dc sn ef of_ Sl,
  wf w -> unshared w -> spins_defined w -> reciprocal_storage w dc -> symmetric_onsite w -> notation_is w dc sn ef of_ -> ef <> 0 -> of_ <> 0 ->
  (forall a, carries w a -> spin_of w a = Some (Sl a)) -> (forall a s, carries w a -> sv a = Some s -> norm s = Sl a) ->
  dispersion_init order cell pos sv w = (w1, Ret D) ->
  exists (index : atom -> nat) (e1 e2 e3 : atom -> V3 R),
    (forall a, carries w a -> (index a < d_N D)%nat) /\
    (forall a b, carries w a -> carries w b -> index a = index b -> a = b) /\
    (forall a, carries w a -> exists s, sv a = Some s /\ right_handed (e1 a) (e2 a) (e3 a) /\
       (~ near_pole (direction_of s) \/ direction_of s = mkV 0 0 1 \/ direction_of s = mkV 0 0 (-1) -> e3 a = direction_of s)) /\
    forall k psi, exists E E1 E2,
      (forall t phi, energy w (1, 1, 1)%nat (spin_wave cell pos k Sl e1 e2 e3 (fun a => psi (index a)) (fun a => psi (d_N D + index a)%nat) t phi) = Some (E t phi)) /\
      (forall phi, expands (fun t => E t phi) (E 0 phi) (E1 phi) (E2 phi)) /\
      is_RInt E1 0 (2 * PI) 0 /\ is_RInt E2 0 (2 * PI) (2 * PI * fst (quad (2 * d_N D) (d_h (w_store w1) D k) psi)).
Proof. exact hessian. Qed.
Print Assumptions C68_second_order.

(** The tilted spins of the wave keep their length. *)
Theorem C68_length : forall Sv e1 e2 e3 z t, right_handed e1 e2 e3 -> 0 < Sv -> 2 * (fst z * fst z + snd z * snd z) * (t * t) <= Sv ->
  dot (SpinWaveSpec.tilted Sv e1 e2 e3 z t) (SpinWaveSpec.tilted Sv e1 e2 e3 z t) = 1.
Proof. exact tilted_unit. Qed.
Print Assumptions C68_length.

Example C68_case : (wf w_iso /\ unshared w_iso /\ spins_defined w_iso /\ reciprocal_storage w_iso true /\ symmetric_onsite w_iso) /\
  notation_is w_iso true true (-1) 1 /\ (forall a, carries w_iso a -> spin_of w_iso a = Some 1) /\ carries w_iso atA /\ carries w_iso atB /\
  (forall a s, carries w_iso a -> up a = Some s -> norm s = 1) /\ (exists w1 D, dispersion_init keep one3 origin up w_iso = (w1, Ret D)) /\ bonds w_iso <> [].
Proof. exact iso_wave. Qed.
