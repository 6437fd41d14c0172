(** Vocabulary for C89: all spins reversed. *)
From Coq Require Import List Reals.
From Verif.Base Require Import Scalar ScalarR Linear3.
From Verif.Model Require Import Hamiltonian Energy.
Local Open Scope R_scope.

(** Reversed directions, in any of the accepted shapes. *)
Definition reversed (a : spins_arg) : spins_arg :=
  match a with SRows rows => SRows (map (@vopp R _) rows) | SVec v => SVec (vopp v) | SBad => SBad end.

(** [f] is one of the energies with all arguments but the field fixed: a linear function of the field is added to the energy without a field,
    and a call refused without a field is refused in the same way in every field. *)
Definition linear_in_field (f : option (V3 R) -> out R) : Prop :=
  (forall e, f None = Ret e -> exists m, forall c1 c2 H1 H2, f (Some (vadd (vscale c1 H1) (vscale c2 H2))) = Ret (e + (c1 * m H1 + c2 * m H2))) /\
  (forall x H, f None = Raise x -> f (Some H) = Raise x).
