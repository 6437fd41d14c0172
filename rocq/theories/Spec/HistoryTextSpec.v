(** The table a history file should be. *)
From Coq Require Import String List ZArith.
From Verif.Base Require Import Linear3 PyText.
From Verif.Model Require Import TxtDump.
Import ListNotations.
Local Open Scope string_scope.

(** Names of the columns. *)
Definition spin_names (n : nat) : list string :=
  flat_map (fun i => let s := "S" ++ str_int (Z.of_nat i + 1) in [s ++ "_x"; s ++ "_y"; s ++ "_z"]) (seq 0 n).
Definition names_ferro (n : nat) : list string := (["Energy"; "Torque"] ++ spin_names n)%list.
Definition names_cone (n : nat) : list string :=
  (["Energy"; "Torque"; "Torque_n"] ++ spin_names n ++ ["n_x"; "n_y"; "n_z"; "q_x"; "q_y"; "q_z"])%list.

(** The words of the lines of a text file. *)
Definition lines_of (s : string) : list string := readlines s.
Definition table (s : string) : list (list string) := map py_split (lines_of s).

Section Spec.
Context {F : Type}.
Variables sci fixed : F -> string.
Definition xyz (v : V3 F) : list string := [fixed (vx v); fixed (vy v); fixed (vz v)].
Definition cells_ferro (e : F * list F * list (V3 F)) : list string :=
  (sci (fst (fst e)) :: map fixed (snd (fst e)) ++ flat_map xyz (snd e))%list.
Definition cells_cone (e : F * list F * (list (V3 F) * V3 F)) : list string :=
  (sci (fst (fst e)) :: map fixed (snd (fst e)) ++ flat_map xyz (fst (snd e)) ++ xyz (snd (snd e)))%list.
(** One torque target and [n] spins; two targets, [n] spins and the cone axis. *)
Definition shape_ferro (n : nat) (e : F * list F * list (V3 F)) : Prop :=
  List.length (snd (fst e)) = 1%nat /\ List.length (snd e) = n.
Definition shape_cone (n : nat) (e : F * list F * (list (V3 F) * V3 F)) : Prop :=
  List.length (snd (fst e)) = 2%nat /\ List.length (fst (snd e)) = (n + 1)%nat.
End Spec.

(** Pieces of a list, of which only the last may be empty. *)
Fixpoint pieces_of {A} (pieces : list (list A)) : Prop :=
  match pieces with
  | [] | [_] => True
  | p :: t => p <> [] /\ pieces_of t
  end.
