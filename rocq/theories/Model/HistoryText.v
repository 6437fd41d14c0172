(** Model of the default history processors (src/magnopy/spinham/energy.py:415-534) and of their calls in [optimize]
    (1524-1526, 1557-1558, 1612-1630).

    The digits of "%.8e" and "%.8f" are abstract ([sci], [fixed]); padding, joining and the file are concrete. A file is
    the string in it; it is opened for appending, a file that is not there is the empty one. Not modelled: printing
    instead of writing (no file name), the processors called without [nspins] (never done by [optimize]). *)
From Coq Require Import String List.
From Verif.Base Require Import Scalar Linear3 PyString PyText.
From Verif.Model Require Import Hamiltonian TxtDump.
From Coq Require Import ZArith.
Import ListNotations.
Local Open Scope string_scope.

Section HistoryText.
Context {F : Type}.
Variables sci fixed : F -> string.

Definition col (w : string) : string := pad_left 11 w.
Definition f15 (x : F) : string := pad_left 15 (sci x).
Definition f11 (x : F) : string := pad_left 11 (fixed x).
Definition flat (l : list (V3 F)) : list F := flat_map (fun v => [vx v; vy v; vz v]) l.

(** Columns of the spins in the header, 424-425, 456-457, 496-497. *)
Definition spin_columns (n : nat) : string :=
  String.concat "" (map (fun i => " " ++ col ("S" ++ str_int (Z.of_nat i + 1) ++ "_x") ++ " " ++ col ("S" ++ str_int (Z.of_nat i + 1) ++ "_y")
                                  ++ " " ++ col ("S" ++ str_int (Z.of_nat i + 1) ++ "_z")) (seq 0 n)).
(** 422-425 *)
Definition header_ferro (n : nat) : string := pad_left 15 "Energy" ++ " " ++ col "Torque" ++ spin_columns n.
(** 454-460, 494-500 *)
Definition header_cone (n : nat) : string :=
  pad_left 15 "Energy" ++ " " ++ col "Torque" ++ " " ++ col "Torque_n" ++ spin_columns n
  ++ " " ++ col "n_x" ++ " " ++ col "n_y" ++ " " ++ col "n_z" ++ " " ++ col "q_x" ++ " " ++ col "q_y" ++ " " ++ col "q_z".

(** 433-438: energy, torque targets, coordinates. *)
Definition row_ferro (e : F * list F * list (V3 F)) : string :=
  let '(energy, targets, x) := e in
  f15 energy ++ " " ++ join " " (map f11 targets) ++ " " ++ join " " (map f11 (flat x)).
(** 467-479, 507-519 *)
Definition row_cone (e : F * list F * (list (V3 F) * V3 F)) : string :=
  let '(energy, targets, x) := e in
  f15 energy ++ " " ++ join " " (map f11 targets) ++ " " ++ join " " (map f11 (flat (fst x)))
  ++ " " ++ join " " (map f11 [vx (snd x); vy (snd x); vz (snd x)]).

(** One call of a processor with the file: 429-430, 442-443. *)
Definition write_header (header file : string) : string := file ++ header.
Definition write_rows {A} (row : A -> string) (file : string) (history : list A) : string :=
  file ++ (String line_feed "" ++ join (String line_feed "") (map row history)).
(** All calls of one run: the header, then the pieces of the history one after the other. *)
Definition write_history {A} (header : string) (row : A -> string) (file : string) (pieces : list (list A)) : string :=
  fold_left (write_rows row) pieces (write_header header file).

End HistoryText.
