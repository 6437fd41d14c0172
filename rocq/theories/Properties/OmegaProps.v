(** Properties C76 and C77: the energies that MagnonDispersion.omega returns, through construction, matrix, the four attempts and
    Colpa's diagonalization. [np], [np'] are the numerical routines of two runs. *)
From Coq Require Import List Bool ZArith Reals Permutation.
From Coquelicot Require Import Coquelicot.
From Coq Require Import List.
From Verif.Base Require Import Scalar ScalarR Linear3 PyDict.
From Verif.Model Require Import MatrixParam Hamiltonian History EnergyInit Energy Dispersion Solver.
From Verif.Spec Require Import HamSpec HistorySpec NotationSpec EnergySpec DispersionSpec InvarianceSpec RotationSpec OmegaSpec.
From Verif.Proofs Require Import HamWitness EnergyWitness OptimizerWitness DispersionWitness OmegaSolver NumpyExists OmegaGlue GoldstoneCase.
Import ListNotations.
Local Open Scope R_scope.

(** What C58 assumes of the solver is true of Colpa's routine. *)
Theorem C76_solver : forall np N, numpy_works np ->
  succeeds_on_positive_definite (2 * N) (colpa_solver np N) /\ one_energy_per_row (2 * N) (colpa_solver np N) /\ real_energies (colpa_solver np N).
Proof. exact solver_ok. Qed.
Print Assumptions C76_solver.

(** The hypotheses are those of C73_matrix; C73_case meets them. *)
Theorem C76_axes : forall np np' O P order order' cell pos sv sv' (w w' w1 w1' : @world R) D D' dc sn ef of_ dc' sn' ef' of', numpy_works np -> numpy_works np' -> rotation O -> isometry P ->
  (forall l, Permutation (order l) l) -> (forall l, Permutation (order' l) l) ->
  wf w -> unshared w -> spins_defined w -> reciprocal_storage w dc -> notation_is w dc sn ef of_ -> ef <> 0 -> of_ <> 0 ->
  wf w' -> unshared w' -> spins_defined w' -> reciprocal_storage w' dc' -> notation_is w' dc' sn' ef' of' -> ef' <> 0 -> of' <> 0 ->
  distinctly_indexed w -> rotated_model O sn ef of_ w sn' ef' of' w' ->
  (forall a, carries w a -> exists s, sv a = Some s /\ sv' a = Some (mvec O s) /\ sharp s /\ sharp (mvec O s)) ->
  dispersion_init order cell pos sv w = (w1, Ret D) -> dispersion_init order' (turned_cell P cell) (fun a => mvec P (pos a)) sv' w' = (w1', Ret D') ->
  forall k zeros_to_none return_G return_imaginary,
    fst (omega (colpa_solver np' (d_N D')) (d_N D') (d_h (w_store w1') D' (mvec P k)) zeros_to_none return_G return_imaginary) =
    fst (omega (colpa_solver np (d_N D)) (d_N D) (d_h (w_store w1) D k) zeros_to_none return_G return_imaginary).
Proof. exact axes_omega. Qed.
Print Assumptions C76_axes.

(** The hypotheses are those of C72_same_model; C72_model_case meets them. *)
Theorem C76_same_model : forall np np' order order' cell pos sv (w w' w1 w1' : @world R) D D' dc sn ef of_ dc' sn' ef' of', numpy_works np -> numpy_works np' ->
  (forall l, Permutation (order l) l) -> (forall l, Permutation (order' l) l) ->
  wf w -> unshared w -> spins_defined w -> reciprocal_storage w dc -> notation_is w dc sn ef of_ -> ef <> 0 -> of_ <> 0 ->
  wf w' -> unshared w' -> spins_defined w' -> reciprocal_storage w' dc' -> notation_is w' dc' sn' ef' of' -> ef' <> 0 -> of' <> 0 ->
  distinctly_indexed w -> same_model sn ef of_ w sn' ef' of' w' ->
  dispersion_init order cell pos sv w = (w1, Ret D) -> dispersion_init order' cell pos sv w' = (w1', Ret D') ->
  forall k zeros_to_none return_G return_imaginary,
    fst (omega (colpa_solver np' (d_N D')) (d_N D') (d_h (w_store w1') D' k) zeros_to_none return_G return_imaginary) =
    fst (omega (colpa_solver np (d_N D)) (d_N D) (d_h (w_store w1) D k) zeros_to_none return_G return_imaginary).
Proof. exact model_omega. Qed.
Print Assumptions C76_same_model.

(** Adding a reciprocal lattice vector; C56_case meets the hypotheses. *)
Theorem C76_periodic : forall np np' order cell pos sv (w w1 : @world R) D G, numpy_works np -> numpy_works np' ->
  dispersion_init order cell pos sv w = (w1, Ret D) -> reciprocal_vector cell G ->
  forall k zeros_to_none return_G return_imaginary,
    fst (omega (colpa_solver np' (d_N D)) (d_N D) (d_h (w_store w1) D (vadd k G)) zeros_to_none return_G return_imaginary) =
    fst (omega (colpa_solver np (d_N D)) (d_N D) (d_h (w_store w1) D k) zeros_to_none return_G return_imaginary).
Proof. exact periodic_omega. Qed.
Print Assumptions C76_periodic.

(** With return_G all 2N energies are returned, and those of -k are those of k in the opposite order. *)
Theorem C76_opposite : forall np np' order cell pos sv (w w1 : @world R) D, numpy_works np -> numpy_works np' ->
  wf w -> unshared w -> reciprocal w -> symmetric_onsite w -> dispersion_init order cell pos sv w = (w1, Ret D) ->
  forall k zeros_to_none return_imaginary,
    fst (omega (colpa_solver np' (d_N D)) (d_N D) (d_h (w_store w1) D (vopp k)) zeros_to_none true return_imaginary) =
    rev (fst (omega (colpa_solver np (d_N D)) (d_N D) (d_h (w_store w1) D k) zeros_to_none true return_imaginary)).
Proof. exact opposite_omega. Qed.
Print Assumptions C76_opposite.

Example C76_numpy : exists np, numpy_works np.
Proof. exact numpy_exists. Qed.

(** C77: Goldstone's theorem for the returned numbers. NaN is returned for all of them when no attempt succeeds. *)
Theorem C77_goldstone : forall np order cell pos sv (w w1 : @world R) D n, numpy_works np -> wf w -> unshared w -> reciprocal w ->
  (forall k J, bond_value w k = Some J -> exists x : R, J = mscale x mid) -> (forall a, onsite_value w a = None) ->
  (forall a s, sv a = Some s -> exists c : R, 0 < c /\ s = vscale c n) ->
  dispersion_init order cell pos sv w = (w1, Ret D) -> (0 < d_N D)%nat ->
  forall zeros_to_none return_G return_imaginary, let energies := fst (omega (colpa_solver np (d_N D)) (d_N D) (d_h (w_store w1) D vzero) zeros_to_none return_G return_imaginary) in
    In (Num (RtoC 0)) energies \/ (zeros_to_none = true /\ forall x, In x energies -> x = NaN).
Proof. exact goldstone_omega. Qed.
Print Assumptions C77_goldstone.
Example C77_case : wf w_iso /\ unshared w_iso /\ reciprocal w_iso /\
  (forall k J, bond_value w_iso k = Some J -> exists x : R, J = mscale x mid) /\ (forall a, onsite_value w_iso a = None) /\
  (forall a s, up a = Some s -> exists c : R, 0 < c /\ s = vscale c ez) /\
  exists w1 D, dispersion_init keep one3 origin up w_iso = (w1, Ret D) /\ (0 < d_N D)%nat.
Proof. exact goldstone_case. Qed.
