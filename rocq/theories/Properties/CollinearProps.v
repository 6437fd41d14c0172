(** Property C90: the collinear state of an unfrustrated magnet has the lowest energy. *)
From Coq Require Import List Bool ZArith Reals Permutation.
From Verif.Base Require Import Scalar ScalarR Linear3 PyDict.
From Verif.Model Require Import MatrixParam Hamiltonian EnergyInit Energy.
From Verif.Spec Require Import HamSpec NotationSpec EnergySpec CollinearSpec.
From Verif.Proofs Require Import HamWitness EnergyWitness SublatticeCases CollinearGround CollinearCases.
Import ListNotations.
Local Open Scope R_scope.

(** [up] divides the atoms into two sublattices; exchange favours parallel spins within them and antiparallel spins between them.
    Whatever [ferro], [spiral] or [antiferro] return without a field, [ferro] of the state with one sublattice along [n] and the other
    against it, given in the order of magnetic_atoms, returns an energy that is not higher. *)
Theorem C90_collinear (order : list atom -> list atom) (g : atom -> R) (cell : M3 R) (w w1 : world) (E : @energy_obj R) (dc sn : bool) (ef of_ : R) (up : atom -> bool) (n : V3 R) (atoms : list atom) :
  (forall l, Permutation (order l) l) -> wf w -> (if dc then mirror_closed w else unshared w) -> notation_is w dc sn ef of_ -> of_ <> 0 ->
  (forall a, carries w a -> spin_of w a <> None) -> (forall a s, spin_of w a = Some s -> 0 <= s) -> dot n n = 1 -> unfrustrated up n ef of_ w ->
  energy_init order g cell w = (w1, Ret E) -> magnetic_atoms order w = (w, Ret atoms) ->
  forall mu e, (exists a, e_ferro mu (w_store w1) (set_field E None) a = Ret e) \/ (exists a m q, e_spiral mu (w_store w1) (set_field E None) a m q = Ret e) \/
    (exists a m q, e_antiferro mu (w_store w1) (set_field E None) a m q = Ret e) ->
  exists e0, e_ferro mu (w_store w1) (set_field E None) (SRows (map (along_or_against up n) atoms)) = Ret e0 /\ e0 <= e.
Proof. exact (collinear_ground order g cell w w1 E dc sn ef of_ up n atoms). Qed.
Print Assumptions C90_collinear.

Example C90_case : (forall l, Permutation (keep l) l) /\ wf w_ferri /\ mirror_closed w_ferri /\ notation_is w_ferri true false 1 1 /\
  (forall a, carries w_ferri a -> spin_of w_ferri a <> None) /\ (forall a s, spin_of w_ferri a = Some s -> 0 <= s) /\ unfrustrated only_A (mkV 0 0 1) 1 1 w_ferri /\
  magnetic_atoms keep w_ferri = (w_ferri, Ret [atA; atB]) /\ map (along_or_against only_A (mkV 0 0 1)) [atA; atB] = [mkV 0 0 1; vopp (mkV 0 0 1)] /\
  bonds w_ferri <> [] /\ sites w_ferri <> [] /\ exists w1 E, energy_init keep (fun _ => 2) one3 w_ferri = (w1, Ret E) /\
  forall q, exists e, e_spiral 1 (w_store w1) (set_field E None) (SRows [mkV 1 0 0; mkV 2 0 0]) (Some ez) (Some q) = Ret e.
Proof. exact ferri_ground. Qed.
