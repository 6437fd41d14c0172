(** Vocabulary for the notation properties (C06-C10). *)
From Coq Require Import List Bool ZArith.
From Verif.Base Require Import Scalar Linear3 PyDict.
From Verif.Model Require Import MatrixParam Hamiltonian.
From Verif.Spec Require Import HamSpec.
Import ListNotations.
Local Open Scope fld_scope.

Section Spec.
Context {F : Type} {SF : Scalar F}.
Notation world := (@world F).

(** Same numbers for every parameter. *)
Definition same_parameters (w w' : world) : Prop :=
  (forall k, bond_value w' k = bond_value w k) /\ (forall a, onsite_value w' a = onsite_value w a).

(** Every atom that carries a parameter has a spin different from zero. *)
Definition spins_defined (w : world) : Prop :=
  (forall k, In k (bonds w) -> (exists x, spin_of w (b_from k) = Some x /\ x <> 0) /\
                               (exists y, spin_of w (b_to k) = Some y /\ y <> 0)) /\
  (forall a, In a (sites w) -> exists x, spin_of w a = Some x /\ x <> 0).

(** A Hamiltonian that the two storage conventions describe equivalently: with double counting both
    directions are stored and transposed to each other, without it only the kept direction is stored;
    no bond joins an atom with itself. *)
Definition reciprocal_storage (w : world) (dc : bool) : Prop :=
  (forall k, In k (bonds w) -> ~ self_bond k) /\ distinct_indices w /\
  (if dc then mirror_closed w /\ reciprocal w else forall k, In k (bonds w) -> kept_direction k).

End Spec.

(** Equal up to the case of the letters A-Z. *)
From Coq Require Import String Ascii NArith.
Definition same_letter (c d : ascii) : Prop :=
  c = d \/ (exists i, (i < 26)%N /\ c = ascii_of_N (65 + i) /\ d = ascii_of_N (97 + i)) \/
  (exists i, (i < 26)%N /\ d = ascii_of_N (65 + i) /\ c = ascii_of_N (97 + i)).
Fixpoint same_ignoring_case (s t : string) : Prop :=
  match s, t with
  | EmptyString, EmptyString => True
  | String c s', String d t' => same_letter c d /\ same_ignoring_case s' t'
  | _, _ => False
  end.
(** The named notations: double counting, spins normalized, exchange factor, on-site factor. *)
Definition named_notations {F} {SF : Scalar F} : list (string * (bool * bool * F * F)) :=
  [("Magnopy", (true, false, 1 / (1 + 1), 1)); ("TB2J", (true, true, - (1), - (1)));
   ("SpinW", (true, false, 1, 1)); ("Vampire", (true, true, - (1 / (1 + 1)), - (1)))]%string.
