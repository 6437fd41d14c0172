(** Atoms, cone axis and spiral vector of a text file (documented in src/magnopy/io/txt/internal.py:422-447, 885-906,
    959-980), as relations between the lines and what they mean. *)
From Coq Require Import String Ascii List Bool ZArith.
From Verif.Base Require Import Scalar Linear3 PyString PyText.
From Verif.Spec Require Import TxtSpec TxtFormat.
From Verif.Model Require Import MatrixParam Hamiltonian TxtRead.
Import ListNotations.
Local Open Scope string_scope.

(** [cols] names the columns, in any letter case; [w] stands in the column [key] of [line]. *)
Definition has_column (cols key : string) : Prop := exists h, In h (py_split cols) /\ str_lower h = key.
Definition in_column (cols line key w : string) : Prop :=
  exists n h, nth_error (py_split cols) n = Some h /\ str_lower h = key /\ nth_error (py_split line) n = Some w.

Section Atoms.
Context {F : Type} {SF : Scalar F}.
Variable X : externals F.

Definition value (cols line key : string) (x : F) : Prop := exists w, in_column cols line key w /\ x_float X w = Some x.
Definition values (cols line k1 k2 k3 : string) (v : V3 F) : Prop :=
  value cols line k1 (vx v) /\ value cols line k2 (vy v) /\ value cols line k3 (vz v).

(** Relative coordinates r1 r2 r3 as written; absolute coordinates x y z times the unit and the scale. *)
Definition position_said (cell : M3 F) (u : F) (s : V3 F) (cols line : string) (p : V3 F) : Prop :=
  (has_column cols "r1" -> values cols line "r1" "r2" "r3" p)
  /\ (~ has_column cols "r1" -> exists v, values cols line "x" "y" "z" v
        /\ vscale (c_angstrom X) (vmat p cell) = scaled_row u s (vx v) (vy v) (vz v)).
(** Sx Sy Sz, or the length S with the angles St (from z) and Sp (around z), or the length along z, or zero. *)
Definition spin_said (cols line : string) (v : V3 F) : Prop :=
  (has_column cols "sx" -> values cols line "sx" "sy" "sz" v)
  /\ (~ has_column cols "sx" -> has_column cols "sp" -> exists r t p, value cols line "s" r /\ value cols line "st" t /\ value cols line "sp" p
        /\ v = vscale r (mkV (fmul (x_sin X t) (x_cos X p)) (fmul (x_sin X t) (x_sin X p)) (x_cos X t)))
  /\ (~ has_column cols "sx" -> ~ has_column cols "sp" -> has_column cols "s" -> vx v = f0 /\ vy v = f0 /\ value cols line "s" (vz v))
  /\ (~ has_column cols "sx" -> ~ has_column cols "sp" -> ~ has_column cols "s" -> v = mkV f0 f0 f0).
Definition number_said (cols line key : string) (otherwise x : F) : Prop :=
  (has_column cols key -> value cols line key x) /\ (~ has_column cols key -> x = otherwise).
Definition atom_said (cell : M3 F) (u : F) (s : V3 F) (cols line : string) (a : @atom_data F) : Prop :=
  in_column cols line "name" (ad_name a)
  /\ position_said cell u s cols line (ad_position a)
  /\ spin_said cols line (ad_spin a)
  /\ number_said cols line "q" f0 (ad_charge a)
  /\ number_said cols line "g" (fadd f1 f1) (ad_g a).

(** ** Directions *)
Definition says_absolute (hdr : string) : Prop := exists k u ws, py_split hdr = k :: u :: ws /\ initial "a" u.
Definition says_relative (hdr : string) : Prop := (exists k, py_split hdr = [k]) \/ exists k u ws, py_split hdr = k :: u :: ws /\ initial "r" u.
(** The direction with the angles alpha (from z) and beta (around z). *)
Definition direction (alpha beta : F) : V3 F := mkV (fmul (x_sin X alpha) (x_cos X beta)) (fmul (x_sin X alpha) (x_sin X beta)) (x_cos X alpha).
(** [n] is [v] divided by its length. *)
Definition unit_along (n v : V3 F) : Prop := vscale (x_norm X v) n = v /\ x_norm X n = f1.

(** What is trusted of the outside functions here: the relative form of a vector, the length, sine and cosine, and the
    reciprocal cell (with the circle constant [tau]). *)
Record geometry (tau : F) : Prop := {
  geo_relative : forall c v p, x_abs_to_rel X c v = Some p -> vmat p c = v;
  geo_unit : forall v, v <> mkV f0 f0 f0 -> x_norm X (vscale (fdiv f1 (x_norm X v)) v) = f1;
  geo_angles : forall a b, x_norm X (direction a b) = f1;
  geo_reciprocal : forall c r, x_reciprocal X c = Some r ->
    mmul c (mtrans r) = mkM tau f0 f0 f0 tau f0 f0 f0 tau
}.
End Atoms.
