(** Property C89: how the magnetic field enters the energies. *)
From Coq Require Import List Reals.
From Verif.Base Require Import Scalar ScalarR Linear3 PyDict.
From Verif.Model Require Import MatrixParam Hamiltonian EnergyInit Energy.
From Verif.Spec Require Import HamSpec EnergySpec ReversalSpec.
From Verif.Proofs Require Import EnergyWitness ReversalProofs.
Import ListNotations.
Local Open Scope R_scope.

(** All spins and the field reversed: the same energy or the same error, for every energy object and all parameters. *)
Theorem C89_reversed (mu : R) (st : list (M3 R)) (E : @energy_obj R) (H : option (V3 R)) (a : spins_arg) (n q : option (V3 R)) :
  e_ferro mu st (set_field E (option_map (@vopp R _) H)) (reversed a) = e_ferro mu st (set_field E H) a /\
  e_spiral mu st (set_field E (option_map (@vopp R _) H)) (reversed a) n q = e_spiral mu st (set_field E H) a n q /\
  e_antiferro mu st (set_field E (option_map (@vopp R _) H)) (reversed a) n q = e_antiferro mu st (set_field E H) a n q.
Proof. exact (conj (ferro_reversed mu st E H a) (conj (cone_reversed_spins spiral_C mu st E H a n q) (cone_reversed_spins antiferro_C mu st E H a n q))). Qed.
Print Assumptions C89_reversed.

(** The energies are linear in the field, and the field has no influence on what is refused. *)
Theorem C89_linear (mu : R) (st : list (M3 R)) (E : @energy_obj R) (a : spins_arg) (n q : option (V3 R)) :
  linear_in_field (fun H => e_ferro mu st (set_field E H) a) /\ linear_in_field (fun H => e_spiral mu st (set_field E H) a n q) /\
  linear_in_field (fun H => e_antiferro mu st (set_field E H) a n q).
Proof. exact (conj (ferro_linear mu st E a) (conj (cone_linear spiral_C mu st E a n q) (cone_linear antiferro_C mu st E a n q))). Qed.
Print Assumptions C89_linear.

Example C89_case : forall C mu H q, exists e, cone_energy C mu st_c (set_field (E_c None) H) (SRows [mkV 2 0 0; ez]) (Some ez) (Some q) = Ret e.
Proof. exact cone_case. Qed.
