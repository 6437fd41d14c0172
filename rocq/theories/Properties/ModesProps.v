(** Property C78: the returned energies in closed form for one magnetic atom in the cell. *)
From Coq Require Import List Bool ZArith Reals Permutation.
From Coquelicot Require Import Coquelicot.
From Coq Require Import List.
From Verif.Base Require Import Scalar ScalarR Linear3 PyDict.
From Verif.Model Require Import MatrixParam Hamiltonian History EnergyInit Energy Dispersion Solver.
From Verif.Spec Require Import HamSpec HistorySpec NotationSpec EnergySpec DispersionSpec OmegaSpec TextbookSpec.
From Verif.Proofs Require Import HamWitness EnergyWitness OptimizerWitness DispersionWitness ModesGlue ModesWitness.
Import ListNotations.
Local Open Scope R_scope.

(** Any exchange and on-site parameters, in any notation. [here] and [there] are the normal parts at k and -k. *)
Theorem C78_one_atom : forall order cell pos sv (w w1 : @world R) D dc sn ef of_ a s np, numpy_works np ->
  wf w -> unshared w -> spins_defined w -> reciprocal_storage w dc -> symmetric_onsite w -> notation_is w dc sn ef of_ -> ef <> 0 -> of_ <> 0 ->
  (forall l, Permutation (order l) l) -> carries w a -> (forall b, carries w b -> b = a) -> sv a = Some s -> spin_of w a = Some (norm s) ->
  dispersion_init order cell pos sv w = (w1, Ret D) ->
  d_N D = 1%nat /\ exists e1 e2 e3 : V3 R, right_handed e1 e2 e3 /\
  (~ near_pole (direction_of s) \/ direction_of s = mkV 0 0 1 \/ direction_of s = mkV 0 0 (-1) -> e3 = direction_of s) /\
  forall k zeros_to_none return_imaginary,
    let theta b := dot k (displacement cell pos b) in
    let sig := if sn then 1 else norm s in
    let here := normal_part w ef of_ sig (norm s) theta e1 e2 e3 in
    let there := normal_part w ef of_ sig (norm s) (fun b => - theta b) e1 e2 e3 in
    let pairs := pair_part w ef of_ sig (norm s) theta e1 e2 in
    0 < here -> Cmod pairs * Cmod pairs < here * there ->
    fst (omega (colpa_solver np (d_N D)) (d_N D) (d_h (w_store w1) D k) zeros_to_none false return_imaginary) =
    [chop (Num (RtoC (bogoliubov_energy here there pairs)))].
Proof. exact one_atom_energies. Qed.
Print Assumptions C78_one_atom.
Example C78_one_atom_case :
  (wf w_easy /\ unshared w_easy /\ spins_defined w_easy /\ reciprocal_storage w_easy true /\ symmetric_onsite w_easy /\ notation_is w_easy true false (-1) (-1)) /\
  carries w_easy atA /\ (forall b, carries w_easy b -> b = atA) /\ up2 atA = Some (mkV 0 0 2) /\ spin_of w_easy atA = Some (norm (mkV 0 0 2)) /\
  (exists w1 D, dispersion_init keep one3 origin up2 w_easy = (w1, Ret D)) /\ direction_of (mkV 0 0 2) = mkV 0 0 1 /\
  forall k e1 e2, right_handed e1 e2 (mkV 0 0 1) ->
    let theta b := dot k (displacement one3 origin b) in
    let here := normal_part w_easy (-1) (-1) 2 2 theta e1 e2 (mkV 0 0 1) in
    let there := normal_part w_easy (-1) (-1) 2 2 (fun b => - theta b) e1 e2 (mkV 0 0 1) in
    let pairs := pair_part w_easy (-1) (-1) 2 2 theta e1 e2 in
    0 < here /\ Cmod pairs * Cmod pairs < here * there /\ Cmod pairs * Cmod pairs = 4.
Proof. exact easy_case. Qed.

(** Isotropic exchange, whatever its sign. *)
Theorem C78_ferromagnet : forall order cell pos sv (w w1 : @world R) D dc sn ef of_ a s np, numpy_works np ->
  wf w -> unshared w -> spins_defined w -> reciprocal_storage w dc -> symmetric_onsite w -> notation_is w dc sn ef of_ -> ef <> 0 -> of_ <> 0 ->
  (forall l, Permutation (order l) l) -> carries w a -> (forall b, carries w b -> b = a) -> sv a = Some s -> spin_of w a = Some (norm s) ->
  dispersion_init order cell pos sv w = (w1, Ret D) ->
  forall x : bkey -> R, (forall b J, bond_value w b = Some J -> J = mscale (x b) mid) -> (forall c, onsite_value w c = None) ->
  forall k zeros_to_none return_imaginary,
    fst (omega (colpa_solver np (d_N D)) (d_N D) (d_h (w_store w1) D k) zeros_to_none false return_imaginary) =
    [chop (Num (RtoC (ferromagnet_energy w ef (if sn then 1 else norm s) (norm s) (fun b => dot k (displacement cell pos b)) x)))].
Proof. exact one_ferromagnet. Qed.
Print Assumptions C78_ferromagnet.
Example C78_ferromagnet_case :
  (wf w_chain /\ unshared w_chain /\ spins_defined w_chain /\ reciprocal_storage w_chain true /\ notation_is w_chain true false (-1) (-1)) /\
  carries w_chain atA /\ (forall b, carries w_chain b -> b = atA) /\ up2 atA = Some (mkV 0 0 2) /\ spin_of w_chain atA = Some (norm (mkV 0 0 2)) /\
  (forall b J, bond_value w_chain b = Some J -> J = mscale 1 mid) /\ (forall a, onsite_value w_chain a = None) /\
  (exists w1 D, dispersion_init keep one3 origin up2 w_chain = (w1, Ret D)) /\
  ferromagnet_energy w_chain (-1) 2 2 (fun b => dot (mkV PI 0 0) (displacement one3 origin b)) (fun _ => 1) = 16.
Proof. exact chain_case. Qed.
