(** Vocabulary for the properties of the class Energy (C21-C26). *)
From Coq Require Import List Bool ZArith Reals.
From Verif.Base Require Import Scalar ScalarR Linear3 PyDict.
From Verif.Model Require Import MatrixParam Hamiltonian EnergyInit Energy.
From Verif.Spec Require Import HamSpec.
Import ListNotations.
Local Open Scope R_scope.

(** Atoms that carry a parameter. *)
Definition carries {F} (w : @world F) (a : atom) : Prop :=
  (exists k, In k (bonds w) /\ (b_from k = a \/ b_to k = a)) \/ In a (sites w).

(** Parameter objects that an Energy refers to. *)
Definition energy_objects {F} (E : @energy_obj F) : list loc := map (fun b : nat * nat * V3 F * loc => snd b) (e_bonds E).

(** The same direction in every cell. *)
Definition ferro_config {F} (u : atom -> V3 F) : config := fun a _ => u a.

(** [u] is the unit vector along [v]. *)
Definition direction (v u : V3 R) : Prop := dot u u = 1 /\ exists c, 0 < c /\ v = vscale c u.

(** [v'] is a positive multiple of [v]. *)
Definition stretched (v v' : V3 R) : Prop := exists c, 0 < c /\ v' = vscale c v.

(** Rotation by the angle [phi] about the unit vector [n] (Rodrigues). *)
Definition rotate (n : V3 R) (phi : R) (v : V3 R) : V3 R :=
  vadd (vadd (vscale (cos phi) v) (vscale (sin phi) (cross n v))) (vscale ((1 - cos phi) * dot n v) n).

(** Energy of a cone state whose phase in the reference cell is [phi]: the first spin of each bond is turned by [phi]
    about the cone axis, the second one by [phi] plus the spiral angle [q . d] of its cell. *)
Definition phase_bond (st : list (M3 R)) (E : @energy_obj R) (dirs : list (V3 R)) (n q : V3 R) (phi : R)
    (b : nat * nat * V3 R * loc) : R :=
  let '(i, j, d, l) := b in
  e_factor E * nth i (e_spins E) 0 * nth j (e_spins E) 0 *
  dot (rotate n phi (nth i dirs vzero)) (mvec (nth l st mzero) (rotate n (phi + dot q d) (nth j dirs vzero))).
Definition phase_energy st E dirs n q phi : R := fold_right Rplus 0 (map (phase_bond st E dirs n q phi) (e_bonds E)).

(** Zeeman energy of the same state. *)
Fixpoint phase_zeeman (mu : R) (H : V3 R) (gs : list R) (dirs : list (V3 R)) (n : V3 R) (phi : R) : R :=
  match gs, dirs with
  | g :: gs', u :: dirs' => mu * g * dot H (rotate n phi u) + phase_zeeman mu H gs' dirs' n phi
  | _, _ => 0
  end.

(** [mu_B * sum g_i H . s_i] for unrotated spins. *)
Fixpoint plain_zeeman (mu : R) (H : V3 R) (gs : list R) (dirs : list (V3 R)) : R :=
  match gs, dirs with
  | g :: gs', u :: dirs' => mu * g * dot H u + plain_zeeman mu H gs' dirs'
  | _, _ => 0
  end.
