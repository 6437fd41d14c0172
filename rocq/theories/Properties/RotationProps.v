(** Properties C73 and C74: energies and magnons do not depend on the choice of the Cartesian axes. *)
From Coq Require Import List Bool ZArith Reals Permutation.
From Coquelicot Require Import Coquelicot.
From Coq Require Import List.
From Verif.Base Require Import Scalar ScalarR Linear3 PyDict.
From Verif.Model Require Import MatrixParam Hamiltonian History EnergyInit Energy Dispersion.
From Verif.Spec Require Import HamSpec HistorySpec NotationSpec EnergySpec DispersionSpec InvarianceSpec RotationSpec.
From Verif.Proofs Require Import HamWitness EnergyWitness OptimizerWitness DispersionWitness InvarianceProofs RotationProofs RotationEnergy RotationCases.
Import ListNotations.
Local Open Scope R_scope.

(** Rotate all spin vectors by O and every coupling to O J O^T, and independently move the crystal (cell and positions) by an
    isometry P: the matrix at P k is the matrix at k up to a phase for each boson operator, the same for all k. *)
Theorem C73_matrix : forall O P order order' cell pos sv sv' (w w' w1 w1' : @world R) D D' dc sn ef of_ dc' sn' ef' of', rotation O -> isometry P ->
  (forall l, Permutation (order l) l) -> (forall l, Permutation (order' l) l) ->
  wf w -> unshared w -> spins_defined w -> reciprocal_storage w dc -> notation_is w dc sn ef of_ -> ef <> 0 -> of_ <> 0 ->
  wf w' -> unshared w' -> spins_defined w' -> reciprocal_storage w' dc' -> notation_is w' dc' sn' ef' of' -> ef' <> 0 -> of' <> 0 ->
  distinctly_indexed w -> rotated_model O sn ef of_ w sn' ef' of' w' ->
  (forall a, carries w a -> exists s, sv a = Some s /\ sv' a = Some (mvec O s) /\ sharp s /\ sharp (mvec O s)) ->
  dispersion_init order cell pos sv w = (w1, Ret D) -> dispersion_init order' (turned_cell P cell) (fun a => mvec P (pos a)) sv' w' = (w1', Ret D') ->
  d_N D' = d_N D /\ exists phi, (forall i, (i < d_N D)%nat -> Cmod (phi i) = 1) /\
    forall k p q, (p < 2 * d_N D)%nat -> (q < 2 * d_N D)%nat ->
      d_h (w_store w1') D' (mvec P k) p q = Cmult (Cmult (phases (d_N D) phi p) (d_h (w_store w1) D k p q)) (Cconj (phases (d_N D) phi q)).
Proof. exact h_rotated. Qed.
Print Assumptions C73_matrix.

Example C73_case : rotation cycle /\ isometry cycle /\ rotated_model cycle true (-1) 1 (w_pair 1 2 3) true (-1) 1 (w_pair 3 1 2) /\
  (wf (w_pair 1 2 3) /\ unshared (w_pair 1 2 3) /\ spins_defined (w_pair 1 2 3) /\ reciprocal_storage (w_pair 1 2 3) true /\ notation_is (w_pair 1 2 3) true true (-1) 1 /\ distinctly_indexed (w_pair 1 2 3)) /\
  (wf (w_pair 3 1 2) /\ unshared (w_pair 3 1 2) /\ spins_defined (w_pair 3 1 2) /\ reciprocal_storage (w_pair 3 1 2) true /\ notation_is (w_pair 3 1 2) true true (-1) 1) /\
  (forall a, carries (w_pair 1 2 3) a -> exists s, up a = Some s /\ sideways a = Some (mvec cycle s) /\ sharp s /\ sharp (mvec cycle s)) /\
  (exists w1 D, dispersion_init keep one3 origin up (w_pair 1 2 3) = (w1, Ret D)) /\
  (exists w1 D, dispersion_init (@rev atom) (turned_cell cycle one3) (fun a => mvec cycle (origin a)) sideways (w_pair 3 1 2) = (w1, Ret D)).
Proof. exact matrix_case. Qed.

(** The three energies: directions, field and cone axis are rotated by O with the parameters, cell and spiral vector by P. *)
Theorem C74_energies : forall O P order order' g cell (w w' w1 w1' : @world R) E E' (dc sn sn' : bool) ef of_, rotation O -> isometry P ->
  (forall l, Permutation (order l) l) -> (forall l, Permutation (order' l) l) ->
  wf w -> wf w' -> (if dc then mirror_closed w else unshared w /\ unshared w') ->
  notation_is w dc sn ef of_ -> notation_is w' dc sn' ef of_ -> of_ <> 0 ->
  (forall a, carries w a -> spin_of w a <> None) -> distinctly_indexed w -> rotated_parameters O w w' ->
  energy_init order g cell w = (w1, Ret E) -> energy_init order' g (turned_cell P cell) w' = (w1', Ret E') ->
  (forall mu H a, e_ferro mu (w_store w1') (set_field E' (option_map (mvec O) H)) (turn_arg O a) = e_ferro mu (w_store w1) (set_field E H) a) /\
  (forall mu H a n q, e_antiferro mu (w_store w1') (set_field E' (option_map (mvec O) H)) (turn_arg O a) (option_map (mvec O) n) (option_map (mvec P) q)
     = e_antiferro mu (w_store w1) (set_field E H) a n q) /\
  (forall mu H a n q, e_spiral mu (w_store w1') (set_field E' (option_map (mvec O) H)) (turn_arg O a) (option_map (mvec O) n) (option_map (mvec P) q)
     = e_spiral mu (w_store w1) (set_field E H) a n q).
Proof. exact energies_rotated. Qed.
Print Assumptions C74_energies.

Example C74_case : rotation cycle /\ isometry cycle /\ rotated_parameters cycle (w_pair 1 2 3) (w_pair 3 1 2) /\ wf (w_pair 1 2 3) /\ wf (w_pair 3 1 2) /\
  mirror_closed (w_pair 1 2 3) /\ notation_is (w_pair 1 2 3) true true (-1) 1 /\ notation_is (w_pair 3 1 2) true true (-1) 1 /\
  (forall a, carries (w_pair 1 2 3) a -> spin_of (w_pair 1 2 3) a <> None) /\ distinctly_indexed (w_pair 1 2 3) /\
  (exists w1 E, energy_init keep (fun _ => 2) one3 (w_pair 1 2 3) = (w1, Ret E)) /\
  (exists w1 E, energy_init (@rev atom) (fun _ => 2) (turned_cell cycle one3) (w_pair 3 1 2) = (w1, Ret E)).
Proof. exact energy_case. Qed.
