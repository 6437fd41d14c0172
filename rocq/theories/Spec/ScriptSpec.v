(** What the files of the dispersion script should be. *)
From Coq Require Import String Ascii List ZArith Reals.
From Coquelicot Require Import Complex.
From Coq Require Import List.
From Verif.Base Require Import Scalar ScalarR Linear3 PyText.
From Verif.Model Require Import TxtDump Dispersion.
From Verif.Spec Require Import TxtSpec.
Import ListNotations.
Local Open Scope string_scope.

(** [p] is the file [t] in the directory [h]: slashes between them, none in [t]; [h] does not end with a slash unless it
    has nothing else. *)
Definition slashes (s : string) : Prop := all_chars (fun c => c = "/"%char) s.
Definition path_parts (p h t : string) : Prop :=
  all_chars (fun c => c <> "/"%char) t /\
  exists s, p = h ++ s ++ t /\ slashes s /\
    ((h = "" /\ s = "") \/ (h <> "" /\ slashes h /\ s = "") \/ (s <> "" /\ exists h' c, h = h' ++ String c "" /\ c <> "/"%char)).

(** Names of the columns: "b1 (rel)" and the like are two words each. *)
Definition column_names (N : nat) : list string :=
  (["Coordinate"] ++ map (fun i => String.append "omega_" (str_int (Z.of_nat i))) (seq 0 N)
   ++ ["b1"; "(rel)"; "b2"; "(rel)"; "b3"; "(rel)"; "k_x"; "(abs)"; "k_y"; "(abs)"; "k_z"; "(abs)"])%list.

Section Cells.
Variables fixed sci : num -> string.
Definition number (x : R) : num := Num (RtoC x).
(** The cells of one line: the coordinate along the path, the energies at the point, the point. *)
Definition cells (energies : V3 R -> list num) (c : R) (rel abs : V3 R) : list string :=
  ([fixed (number c)] ++ map sci (energies abs)
   ++ [fixed (number (vx rel)); fixed (number (vy rel)); fixed (number (vz rel))]
   ++ [fixed (number (vx abs)); fixed (number (vy abs)); fixed (number (vz abs))])%list.
Fixpoint all_cells (energies : V3 R -> list num) (cs : list R) (rel abs : list (V3 R)) : list (list string) :=
  match cs, rel, abs with
  | c :: cs', r :: rel', a :: abs' => cells energies c r a :: all_cells energies cs' rel' abs'
  | _, _, _ => []
  end.
End Cells.

(** Additional points: a name, a label and three coordinates each. *)
Definition group (g : string * string * string * string * string) : list string := let '(n, l, a, b, c) := g in [n; l; a; b; c].
Section Points.
Context {F : Type}.
Variable to_float : string -> option F.
Definition group_point (g : string * string * string * string * string) : option (string * string * list F) :=
  let '(n, l, a, b, c) := g in
  match to_float a, to_float b, to_float c with Some x, Some y, Some z => Some (n, l, [x; y; z]) | _, _, _ => None end.
Fixpoint all_points (gs : list (string * string * string * string * string)) : option (list (string * string * list F)) :=
  match gs with
  | [] => Some []
  | g :: t => match group_point g, all_points t with Some p, Some ps => Some (p :: ps) | _, _ => None end
  end.
End Points.
