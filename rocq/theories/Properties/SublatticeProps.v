(** Property C82: the returned energies of a collinear antiferromagnet or ferrimagnet with two magnetic atoms in the cell. *)
From Coq Require Import List Bool ZArith Reals Permutation.
From Coquelicot Require Import Coquelicot.
From Coq Require Import List.
From Verif.Base Require Import Scalar ScalarR Linear3 PyDict.
From Verif.Model Require Import MatrixParam Hamiltonian History EnergyInit Energy Dispersion Solver.
From Verif.Spec Require Import HamSpec HistorySpec NotationSpec EnergySpec DispersionSpec OmegaSpec TextbookSpec SublatticeSpec.
From Verif.Proofs Require Import HamWitness EnergyWitness OptimizerWitness DispersionWitness SublatticeProofs SublatticeCases.
Import ListNotations.
Local Open Scope R_scope.

(** Exchange of the easy-axis or easy-plane kind about the common direction of the spins, and uniaxial anisotropy about it. *)
Theorem C82_antiferromagnet : forall order cell pos sv (w w1 : @world R) D dc sn ef of_ a b sa sb np, numpy_works np ->
  wf w -> unshared w -> spins_defined w -> reciprocal_storage w dc -> notation_is w dc sn ef of_ -> ef <> 0 -> of_ <> 0 ->
  (forall l, Permutation (order l) l) -> a <> b -> carries w a -> carries w b -> (forall c, carries w c -> c = a \/ c = b) ->
  sv a = Some sa -> sv b = Some sb -> spin_of w a = Some (norm sa) -> spin_of w b = Some (norm sb) ->
  direction_of sb = vopp (direction_of sa) -> (~ near_pole (direction_of sa) \/ direction_of sa = mkV 0 0 1 \/ direction_of sa = mkV 0 0 (-1)) ->
  dispersion_init order cell pos sv w = (w1, Ret D) ->
  forall x z y, (forall k J, bond_value w k = Some J -> J = madd (mscale (x k) mid) (mscale (z k) (projector (direction_of sa)))) ->
  (forall c A, onsite_value w c = Some A -> A = mscale (y c) (projector (direction_of sa))) ->
  forall k zeros_to_none return_imaginary,
    let theta c := dot k (displacement cell pos c) in
    let sg s := if sn then 1 else norm s in
    let al := sublattice_energy w ef of_ theta x z y a b (norm sa) (sg sa) (sg sb) in
    let be := sublattice_energy w ef of_ theta x z y b a (norm sb) (sg sb) (sg sa) in
    let g := coupling w ef theta x a b (norm sa) (norm sb) (sg sa) (sg sb) in
    0 < al -> g * g < al * be ->
    fst (omega (colpa_solver np (d_N D)) (d_N D) (d_h (w_store w1) D k) zeros_to_none false return_imaginary) = map (fun e => chop (Num (RtoC e))) (branches al be g).
Proof. exact antiferromagnet. Qed.
Print Assumptions C82_antiferromagnet.
Example C82_antiferromagnet_case :
  (wf w_ferri /\ unshared w_ferri /\ spins_defined w_ferri /\ reciprocal_storage w_ferri true /\ notation_is w_ferri true false 1 1) /\
  atA <> atB /\ carries w_ferri atA /\ carries w_ferri atB /\ (forall c, carries w_ferri c -> c = atA \/ c = atB) /\
  updown atA = Some (mkV 0 0 2) /\ updown atB = Some (mkV 0 0 (-1)) /\ spin_of w_ferri atA = Some (norm (mkV 0 0 2)) /\ spin_of w_ferri atB = Some (norm (mkV 0 0 (-1))) /\
  direction_of (mkV 0 0 (-1)) = vopp (direction_of (mkV 0 0 2)) /\ direction_of (mkV 0 0 2) = mkV 0 0 1 /\
  (exists w1 D, dispersion_init keep one3 halfway updown w_ferri = (w1, Ret D)) /\
  (forall k J, bond_value w_ferri k = Some J -> J = madd (mscale (x_ferri k) mid) (mscale (z_ferri k) (projector (direction_of (mkV 0 0 2))))) /\
  (forall c A, onsite_value w_ferri c = Some A -> A = mscale (-1) (projector (direction_of (mkV 0 0 2)))) /\
  let theta c := dot (mkV PI 0 0) (displacement one3 halfway c) in
  let al := sublattice_energy w_ferri 1 1 theta x_ferri z_ferri (fun _ => -1) atA atB 2 2 1 in
  let be := sublattice_energy w_ferri 1 1 theta x_ferri z_ferri (fun _ => -1) atB atA 1 1 2 in
  let g := coupling w_ferri 1 theta x_ferri atA atB 2 1 2 1 in
  al = 24 /\ be = 8 /\ g * g = 8 /\ branches al be g = [sqrt 248 + 8; sqrt 248 - 8].
Proof. exact ferri_case. Qed.
