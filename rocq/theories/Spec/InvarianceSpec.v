(** Vocabulary for C72: two Hamiltonians that are the same model of spins, whatever the notation, the order and the direction
    in which the parameters are stored. *)
From Coq Require Import List Bool ZArith.
From Verif.Base Require Import Scalar Linear3 PyDict.
From Verif.Model Require Import MatrixParam Hamiltonian.
From Verif.Spec Require Import HamSpec.
Import ListNotations.
Local Open Scope fld_scope.

Section Spec.
Context {F : Type} {SF : Scalar F}.
Notation world := (@world F).

Definition stored (w : world) (k : bkey) : M3 F := match bond_value w k with Some J => J | None => mzero end.

(** The bond is stored, in one direction or the other. *)
Definition bonded (w : world) (k : bkey) : Prop := In k (bonds w) \/ In (mirror k) (bonds w).

(** The matrix K such that the classical energy of the pair is e . K e' for the directions e, e' of the two spins: both
    stored directions together, with the factor and the spin lengths of the notation. *)
Definition pair_coupling (sn : bool) (ef : F) (w : world) (k : bkey) : option (M3 F) :=
  match spin_length sn w (b_from k), spin_length sn w (b_to k) with
  | Some x, Some y => Some (mscale (ef * (x * y)) (madd (stored w k) (mtrans (stored w (mirror k)))))
  | _, _ => None
  end.
(** The same for one spin with itself. *)
Definition site_coupling (sn : bool) (of_ : F) (w : world) (a : atom) : option (M3 F) :=
  match spin_length sn w a, onsite_value w a with
  | Some x, Some A => Some (mscale (of_ * (x * x)) A)
  | _, _ => None
  end.

(** The same spins, the same pairs and sites, the same couplings. *)
Definition same_model (sn : bool) (ef of_ : F) (w : world) (sn' : bool) (ef' of' : F) (w' : world) : Prop :=
  (forall a, spin_of w' a = spin_of w a) /\
  (forall k, bonded w' k <-> bonded w k) /\ (forall a, In a (sites w') <-> In a (sites w)) /\
  (forall k, bonded w k -> pair_coupling sn' ef' w' k = pair_coupling sn ef w k) /\
  (forall a, In a (sites w) -> site_coupling sn' of' w' a = site_coupling sn of_ w a).

(** The atoms with parameters have different indices. *)
Definition distinctly_indexed (w : world) : Prop :=
  forall a b, (exists k, In k (bonds w) /\ (b_from k = a \/ b_to k = a)) \/ In a (sites w) ->
              (exists k, In k (bonds w) /\ (b_from k = b \/ b_to k = b)) \/ In b (sites w) -> a_index a = a_index b -> a = b.

End Spec.
