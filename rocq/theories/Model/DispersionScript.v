(** Model of the spectra over many points (src/magnopy/magnons/dispersion.py:347-367) and of the script that writes them
    (src/magnopy/score/magnon_dispersion.py:35-209).

    The path in reciprocal space is an object of wulfric: [kp_flat], [kp_rel] and [kp_abs] are what [flatten_points()],
    [points(relative=True)] and [points(relative=False)] return. Paths of files are those of posixpath. The digits of
    "%.8f" and "%.8e" are abstract, the lines, columns and file names are concrete. Not modelled: the picture, what is
    printed to the terminal, the text of the information above the line "dispersion" ([info]). *)
From Coq Require Import String Ascii List Bool ZArith Reals.
From Coquelicot Require Import Complex.
From Coq Require Import List.
From Verif.Base Require Import Scalar ScalarR Linear3 PyString PyText.
From Verif.Model Require Import Hamiltonian TxtDump Dispersion.
Import ListNotations.
Local Open Scope string_scope.

(** ** omegas, dispersion.py:347-367 *)
(** [np.array(data).T] for a list of arrays of one length. *)
Definition transposed {A} (zero : A) (data : list (list A)) : list (list A) :=
  match data with
  | [] => []
  | r :: _ => map (fun i => map (fun row => nth i row zero) data) (seq 0 (List.length r))
  end.
Definition omegas (solve : mat -> option (list C * mat)) (st : list (M3 R)) (D : dispersion) (zeros_to_none : bool) (points : list (V3 R)) : list (list num) :=
  transposed NaN (map (fun k => fst (omega solve (d_N D) (d_h st D k) zeros_to_none false false)) points).

(** ** posixpath.split and posixpath.join *)
Definition slash : ascii := "/"%char.
(** [p[:i], p[i:]] with [i = p.rfind("/") + 1] *)
Fixpoint cut_slash (p : string) : string * string :=
  match p with
  | EmptyString => ("", "")
  | String c p' => let '(h, t) := cut_slash p' in
                   if emptyb h then (if Ascii.eqb c slash then (String c "", t) else ("", String c t)) else (String c h, t)
  end.
Fixpoint rstrip_slash (s : string) : string :=
  match s with
  | EmptyString => ""
  | String c s' => let r := rstrip_slash s' in if (emptyb r && Ascii.eqb c slash)%bool then "" else String c r
  end.
Definition path_split (p : string) : string * string :=
  let '(h, t) := cut_slash p in
  if (negb (emptyb h) && negb (String.eqb h (repeat_char slash (String.length h))))%bool then (rstrip_slash h, t) else (h, t).
Definition path_join (a b : string) : string :=
  if starts_with "/" b then b
  else if (emptyb a || ends_with "/" a)%bool then a ++ b else a ++ "/" ++ b.

(** ** The names of the files, magnon_dispersion.py:46-53 *)
Definition out_head (spinham seedname : string) : string :=
  let head := fst (path_split spinham) in
  let out_head := fst (path_split seedname) in if emptyb out_head then head else out_head.
Definition out_tail (seedname : string) : string :=
  let out_tail := snd (path_split seedname) in if emptyb out_tail then "dispersion" else out_tail.
Definition output_name (spinham seedname : string) : string := path_join (out_head spinham seedname) (out_tail seedname).
(** The directory that is created, 56-57. *)
Definition made_directory (spinham seedname : string) : option string :=
  if String.eqb (out_head spinham seedname) "" then None else Some (out_head spinham seedname).

(** ** Additional points, 72-80: the calls of [add_hs_point] (name, label, coordinates). *)
Section Points.
Context {F : Type}.
Variable to_float : string -> option F.
Definition point_at (args : list string) (i : nat) : out (string * string * list F) :=
  match nth_error args (5 * i), nth_error args (5 * i + 1) with
  | Some name, Some label =>
      (fix floats (l : list string) (acc : list F) : out (string * string * list F) :=
         match l with
         | [] => Ret (name, label, rev acc)
         | w :: t => match to_float w with None => Raise ValueError | Some x => floats t (x :: acc) end
         end) (firstn 3 (skipn (5 * i + 2) args)) []
  | _, _ => Raise IndexError
  end.
Fixpoint points_from (args : list string) (is : list nat) : out (list (string * string * list F)) :=
  match is with
  | [] => Ret []
  | i :: t => match point_at args i with
              | Raise e => Raise e
              | Ret p => match points_from args t with Raise e => Raise e | Ret ps => Ret (p :: ps) end
              end
  end.
Definition extra_points (args : list string) : out (list (string * string * list F)) :=
  points_from args (seq 0 (List.length args / 5)).
End Points.

(** ** The table, 151-205 *)
Record kpath := mkPath { kp_flat : list R; kp_rel : list (V3 R); kp_abs : list (V3 R) }.
Definition xyz_rows (l : list (V3 R)) : list (list num) :=
  [map (fun v => Num (RtoC (vx v))) l; map (fun v => Num (RtoC (vy v))) l; map (fun v => Num (RtoC (vz v))) l].
(** [np.concatenate((...), axis=0).T], 187-196: ValueError when the numbers of columns differ. *)
Definition table_rows (kp : kpath) (om : list (list num)) : out (list (list num)) :=
  let rows := ([map (fun x => Num (RtoC x)) (kp_flat kp)] ++ om ++ xyz_rows (kp_rel kp) ++ xyz_rows (kp_abs kp))%list in
  if forallb (fun r => Nat.eqb (List.length r) (List.length (kp_flat kp))) rows then Ret (transposed NaN rows) else Raise ValueError.

Section Text.
(** "%.8f" and "%.8e". *)
Variables fixed sci : num -> string.
(** The format of a line, 197-202: the text before a number and how it is printed. *)
Definition line_format (N : nat) : list (string * (num -> string)) :=
  ([("", fixed)] ++ repeat (" ", sci) N ++ [("    ", fixed); (" ", fixed); (" ", fixed)] ++ [("    ", fixed); (" ", fixed); (" ", fixed)])%list.
(** One line of [np.savetxt]; ValueError when the numbers of columns and formats differ. *)
Fixpoint line_text (format : list (string * (num -> string))) (row : list num) : out string :=
  match format, row with
  | [], [] => Ret ""
  | (s, p) :: f, x :: r => match line_text f r with Raise e => Raise e | Ret t => Ret (s ++ p x ++ t) end
  | _, _ => Raise ValueError
  end.
Fixpoint lines_text (format : list (string * (num -> string))) (rows : list (list num)) : out string :=
  match rows with
  | [] => Ret ""
  | r :: t => match line_text format r with
              | Raise e => Raise e
              | Ret l => match lines_text format t with Raise e => Raise e | Ret s => Ret (l ++ String line_feed "" ++ s) end
              end
  end.
(** 155-160 *)
Definition names_line (N : nat) : string :=
  "Coordinate" ++ String.concat "" (map (fun i => " " ++ pad_left 14 ("omega_" ++ str_int (Z.of_nat i))) (seq 0 N))
  ++ "    " ++ pad_left 10 "b1 (rel)" ++ " " ++ pad_left 10 "b2 (rel)" ++ " " ++ pad_left 10 "b3 (rel)"
  ++ "    " ++ pad_left 10 "k_x (abs)" ++ " " ++ pad_left 10 "k_y (abs)" ++ " " ++ pad_left 10 "k_z (abs)".
(** The files written with [save_txt], 161-205: names and contents. [header] of [np.savetxt] is written only when it is not
    empty, with [comments] before every line: "#" with an empty header, "" with the information. *)
Definition script_files (abspath : string -> string) (name info : string) (join_output : bool) (kp : kpath) (om : list (list num)) : out (list (string * string)) :=
  let header := info ++ "dispersion" ++ String line_feed "" ++ names_line (List.length om) in
  match table_rows kp om with
  | Raise e => Raise e
  | Ret rows =>
      match lines_text (line_format (List.length om)) rows with
      | Raise e => Raise e
      | Ret text =>
          if join_output then Ret [(name ++ ".txt", header ++ String line_feed "" ++ text)]
          else Ret [(name ++ "_info.txt", header ++ String line_feed "" ++ "separate" ++ String line_feed "" ++ abspath (name ++ "_data.txt"));
                    (name ++ "_data.txt", text)]
      end
  end.
(** The call of the script: [omegas = dispersion(kp)], 92; a path without points raises at 116. *)
Definition manager_files solve st D (abspath : string -> string) (spinham seedname info : string) (join_output : bool) (kp : kpath) : out (list (string * string)) :=
  match kp_flat kp with
  | [] => Raise IndexError
  | _ => script_files abspath (output_name spinham seedname) info join_output kp (omegas solve st D false (kp_abs kp))
  end.
End Text.
