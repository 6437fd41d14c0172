(** Unit vectors, directions and vectors away from zero. *)
From Coq Require Import Reals.
From Verif.Base Require Import Linear3.
Local Open Scope R_scope.

Definition unit_vector (n : V3 R) : Prop := vx n * vx n + vy n * vy n + vz n * vz n = 1.
(** [v] is a positive multiple of [n]. *)
Definition same_direction (v n : V3 R) : Prop :=
  exists c, 0 < c /\ vx v = c * vx n /\ vy v = c * vy n /\ vz v = c * vz n.
(** Some component is larger than 1e-8 in size. *)
Definition sizable (v : V3 R) : Prop :=
  exists x, (x = vx v \/ x = vy v \/ x = vz v) /\ 1 / 100000000 < Rabs x.
