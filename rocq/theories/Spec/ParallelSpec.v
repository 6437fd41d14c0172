(** Vocabulary for the magnon energies of a ferromagnet with two atoms in the cell (C85). *)
From Coq Require Import List Reals.
Import ListNotations.
Local Open Scope R_scope.

(** The two roots of (e - al) (e - be) = g^2, the upper one first. *)
Definition optical_and_acoustic (al be g : R) : list R :=
  let r := sqrt ((al - be) / 2 * ((al - be) / 2) + g * g) in [(al + be) / 2 + r; (al + be) / 2 - r].
