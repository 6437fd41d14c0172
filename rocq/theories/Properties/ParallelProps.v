(** Property C85: the returned energies of a ferromagnet with two magnetic atoms in the cell. *)
From Coq Require Import List Bool ZArith Reals Permutation.
From Coquelicot Require Import Coquelicot.
From Coq Require Import List.
From Verif.Base Require Import Scalar ScalarR Linear3 PyDict.
From Verif.Model Require Import MatrixParam Hamiltonian History EnergyInit Energy Dispersion Solver.
From Verif.Spec Require Import HamSpec HistorySpec NotationSpec EnergySpec DispersionSpec OmegaSpec TextbookSpec SublatticeSpec ParallelSpec.
From Verif.Proofs Require Import HamWitness EnergyWitness OptimizerWitness DispersionWitness SublatticeCases ParallelProofs ParallelStable ParallelCases.
Import ListNotations.
Local Open Scope R_scope.

(** Exchange of the easy-axis or easy-plane kind about the common direction of the spins, uniaxial anisotropy about it, both spins
    in that direction: a spin of the other sublattice is seen with the sign opposite to that of C82. *)
Theorem C85_branches : forall order cell pos sv (w w1 : @world R) D dc sn ef of_ a b sa sb np, numpy_works np ->
  wf w -> unshared w -> spins_defined w -> reciprocal_storage w dc -> notation_is w dc sn ef of_ -> ef <> 0 -> of_ <> 0 ->
  (forall l, Permutation (order l) l) -> a <> b -> carries w a -> carries w b -> (forall c, carries w c -> c = a \/ c = b) ->
  sv a = Some sa -> sv b = Some sb -> spin_of w a = Some (norm sa) -> spin_of w b = Some (norm sb) ->
  direction_of sb = direction_of sa -> (~ near_pole (direction_of sa) \/ direction_of sa = mkV 0 0 1 \/ direction_of sa = mkV 0 0 (-1)) ->
  dispersion_init order cell pos sv w = (w1, Ret D) ->
  forall x z y, (forall k J, bond_value w k = Some J -> J = madd (mscale (x k) mid) (mscale (z k) (projector (direction_of sa)))) ->
  (forall c A, onsite_value w c = Some A -> A = mscale (y c) (projector (direction_of sa))) ->
  forall k zeros_to_none return_imaginary,
    let theta c := dot k (displacement cell pos c) in
    let sg s := if sn then 1 else norm s in
    let al := sublattice_energy w ef of_ theta x z y a b (norm sa) (sg sa) (- sg sb) in
    let be := sublattice_energy w ef of_ theta x z y b a (norm sb) (sg sb) (- sg sa) in
    let g := coupling w ef theta x a b (norm sa) (norm sb) (sg sa) (sg sb) in
    0 < al -> g * g < al * be ->
    fst (omega (colpa_solver np (d_N D)) (d_N D) (d_h (w_store w1) D k) zeros_to_none false return_imaginary) = map (fun e => chop (Num (RtoC e))) (optical_and_acoustic al be g).
Proof. exact ferromagnet_two. Qed.
Print Assumptions C85_branches.

(** Ferromagnetic bonds and easy axes only, at least one easy axis on a bond between the sublattices: at every k, and the energies are positive. *)
Theorem C85_easy_axis : forall order cell pos sv (w w1 : @world R) D dc sn ef of_ a b sa sb np, numpy_works np ->
  wf w -> unshared w -> spins_defined w -> reciprocal_storage w dc -> notation_is w dc sn ef of_ -> 0 < ef -> 0 < of_ ->
  (forall l, Permutation (order l) l) -> a <> b -> carries w a -> carries w b -> (forall c, carries w c -> c = a \/ c = b) ->
  sv a = Some sa -> sv b = Some sb -> norm sa <> 0 -> norm sb <> 0 -> spin_of w a = Some (norm sa) -> spin_of w b = Some (norm sb) ->
  direction_of sb = direction_of sa -> (~ near_pole (direction_of sa) \/ direction_of sa = mkV 0 0 1 \/ direction_of sa = mkV 0 0 (-1)) ->
  dispersion_init order cell pos sv w = (w1, Ret D) ->
  forall x z y, (forall k J, bond_value w k = Some J -> J = madd (mscale (x k) mid) (mscale (z k) (projector (direction_of sa)))) ->
  (forall c A, onsite_value w c = Some A -> A = mscale (y c) (projector (direction_of sa))) ->
  (forall k, In k (bonds w) -> x k <= 0 /\ z k <= 0) -> (forall e, In e (sites w) -> y e <= 0) ->
  (exists k, In k (bonds w) /\ b_from k <> b_to k /\ z k < 0) ->
  forall k zeros_to_none return_imaginary,
    let theta c := dot k (displacement cell pos c) in
    let sg s := if sn then 1 else norm s in
    let al := sublattice_energy w ef of_ theta x z y a b (norm sa) (sg sa) (- sg sb) in
    let be := sublattice_energy w ef of_ theta x z y b a (norm sb) (sg sb) (- sg sa) in
    let g := coupling w ef theta x a b (norm sa) (norm sb) (sg sa) (sg sb) in
    fst (omega (colpa_solver np (d_N D)) (d_N D) (d_h (w_store w1) D k) zeros_to_none false return_imaginary) = map (fun e => chop (Num (RtoC e))) (optical_and_acoustic al be g)
    /\ forall e, In e (optical_and_acoustic al be g) -> 0 < e.
Proof. exact easy_axis_ferromagnet. Qed.
Print Assumptions C85_easy_axis.
Example C85_case :
  (wf w_side /\ unshared w_side /\ spins_defined w_side /\ reciprocal_storage w_side true /\ notation_is w_side true false 1 1) /\
  atA <> atB /\ carries w_side atA /\ carries w_side atB /\ (forall c, carries w_side c -> c = atA \/ c = atB) /\
  upup atA = Some (mkV 0 0 2) /\ upup atB = Some (mkV 0 0 1) /\ spin_of w_side atA = Some (norm (mkV 0 0 2)) /\ spin_of w_side atB = Some (norm (mkV 0 0 1)) /\
  direction_of (mkV 0 0 1) = direction_of (mkV 0 0 2) /\ direction_of (mkV 0 0 2) = mkV 0 0 1 /\
  (exists w1 D, dispersion_init keep one3 halfway upup w_side = (w1, Ret D)) /\
  (forall k J, bond_value w_side k = Some J -> J = madd (mscale (x_side k) mid) (mscale (z_side k) (projector (direction_of (mkV 0 0 2))))) /\
  (forall c A, onsite_value w_side c = Some A -> A = mscale (-1) (projector (direction_of (mkV 0 0 2)))) /\
  let theta c := dot (mkV PI 0 0) (displacement one3 halfway c) in
  let al := sublattice_energy w_side 1 1 theta x_side z_side (fun _ => -1) atA atB 2 2 (-(1)) in
  let be := sublattice_energy w_side 1 1 theta x_side z_side (fun _ => -1) atB atA 1 1 (-(2)) in
  let g := coupling w_side 1 theta x_side atA atB 2 1 2 1 in
  al = 24 /\ be = 8 /\ g * g = 8 /\ optical_and_acoustic al be g = [16 + sqrt 72; 16 - sqrt 72].
Proof. exact side_case. Qed.
Example C85_easy_axis_case : norm (mkV 0 0 2) <> 0 /\ norm (mkV 0 0 1) <> 0 /\ (forall k, In k (bonds w_side) -> x_side k <= 0 /\ z_side k <= 0) /\
  (exists k, In k (bonds w_side) /\ b_from k <> b_to k /\ z_side k < 0).
Proof. exact side_easy. Qed.
