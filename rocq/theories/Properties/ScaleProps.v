(** Property C91: classical energies and the magnon matrix are proportional to the parameters. *)
From Coq Require Import List Bool ZArith Reals Permutation.
From Coquelicot Require Import Complex.
From Coq Require Import List.
From Verif.Base Require Import Scalar ScalarR Linear3 PyDict.
From Verif.Model Require Import MatrixParam Hamiltonian History EnergyInit Energy Dispersion.
From Verif.Spec Require Import HamSpec HistorySpec NotationSpec EnergySpec DispersionSpec InvarianceSpec RotationSpec ScaleSpec.
From Verif.Proofs Require Import HamWitness EnergyWitness OptimizerWitness DispersionWitness RotationCases ScaleProofs ScaleMagnons ScaleCases.
Import ListNotations.
Local Open Scope R_scope.

(** All parameters and the field multiplied by any [c]: every energy is multiplied by [c], and the same calls are refused in the same way. The
    order in which the parameters are stored and the bonds are listed may differ. *)
Theorem C91_scaled : forall c order order' g cell (w w' w1 w1' : @world R) E E' (dc sn sn' : bool) ef of_,
  (forall l, Permutation (order l) l) -> (forall l, Permutation (order' l) l) ->
  wf w -> wf w' -> (if dc then mirror_closed w else unshared w /\ unshared w') ->
  notation_is w dc sn ef of_ -> notation_is w' dc sn' ef of_ -> of_ <> 0 ->
  (forall a, carries w a -> spin_of w a <> None) -> distinctly_indexed w -> scaled_parameters c w w' ->
  energy_init order g cell w = (w1, Ret E) -> energy_init order' g cell w' = (w1', Ret E') ->
  (forall mu H a, e_ferro mu (w_store w1') (set_field E' (option_map (vscale c) H)) a = times c (e_ferro mu (w_store w1) (set_field E H) a)) /\
  (forall mu H a n q, e_spiral mu (w_store w1') (set_field E' (option_map (vscale c) H)) a n q = times c (e_spiral mu (w_store w1) (set_field E H) a n q)) /\
  (forall mu H a n q, e_antiferro mu (w_store w1') (set_field E' (option_map (vscale c) H)) a n q = times c (e_antiferro mu (w_store w1) (set_field E H) a n q)).
Proof. exact energies_scaled. Qed.
Print Assumptions C91_scaled.

Example C91_case : forall t, scaled_parameters t (w_pair 1 2 3) (w_pair (t * 1) (t * 2) (t * 3)) /\ wf (w_pair 1 2 3) /\ wf (w_pair (t * 1) (t * 2) (t * 3)) /\
  mirror_closed (w_pair 1 2 3) /\ notation_is (w_pair 1 2 3) true true (-1) 1 /\ notation_is (w_pair (t * 1) (t * 2) (t * 3)) true true (-1) 1 /\
  (forall a, carries (w_pair 1 2 3) a -> spin_of (w_pair 1 2 3) a <> None) /\ distinctly_indexed (w_pair 1 2 3) /\
  (exists w1 E, energy_init keep (fun _ => 2) one3 (w_pair 1 2 3) = (w1, Ret E)) /\
  (exists w1 E, energy_init (@rev atom) (fun _ => 2) one3 (w_pair (t * 1) (t * 2) (t * 3)) = (w1, Ret E)).
Proof. exact scale_case. Qed.

(** All couplings multiplied by any [c], in whatever two notations: the magnon matrix is multiplied by [c] at every k. *)
Theorem C91_magnons : forall c order order' cell pos sv (w w' w1 w1' : @world R) D D' dc sn ef of_ dc' sn' ef' of',
  (forall l, Permutation (order l) l) -> (forall l, Permutation (order' l) l) ->
  wf w -> unshared w -> spins_defined w -> reciprocal_storage w dc -> notation_is w dc sn ef of_ -> ef <> 0 -> of_ <> 0 ->
  wf w' -> unshared w' -> spins_defined w' -> reciprocal_storage w' dc' -> notation_is w' dc' sn' ef' of' -> ef' <> 0 -> of' <> 0 ->
  distinctly_indexed w -> scaled_model c sn ef of_ w sn' ef' of' w' ->
  dispersion_init order cell pos sv w = (w1, Ret D) -> dispersion_init order' cell pos sv w' = (w1', Ret D') ->
  d_N D' = d_N D /\ forall k p q, d_h (w_store w1') D' k p q = Cmult (RtoC c) (d_h (w_store w1) D k p q).
Proof. exact h_rescaled. Qed.
Print Assumptions C91_magnons.

Example C91_magnon_case : forall t, scaled_model t true (-1) 1 (w_pair 1 2 3) true (-1) 1 (w_pair (t * 1) (t * 2) (t * 3)) /\
  (wf (w_pair 1 2 3) /\ unshared (w_pair 1 2 3) /\ spins_defined (w_pair 1 2 3) /\ reciprocal_storage (w_pair 1 2 3) true /\ notation_is (w_pair 1 2 3) true true (-1) 1 /\ distinctly_indexed (w_pair 1 2 3)) /\
  (let w' := w_pair (t * 1) (t * 2) (t * 3) in wf w' /\ unshared w' /\ spins_defined w' /\ reciprocal_storage w' true /\ notation_is w' true true (-1) 1) /\
  (exists w1 D, dispersion_init keep one3 origin up (w_pair 1 2 3) = (w1, Ret D)) /\
  (exists w1 D, dispersion_init (@rev atom) one3 origin up (w_pair (t * 1) (t * 2) (t * 3)) = (w1, Ret D)).
Proof. exact scale_magnon_case. Qed.
