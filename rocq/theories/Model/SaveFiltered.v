(** Model of [_filter_txt_file] with [save_filtered] and of [load_spinham_txt] on a disk
    (src/magnopy/io/txt/internal.py:1027-1160).

    A disk maps paths to the text of the files and knows its directories. Opening for reading fails with [OSError]
    when there is no such file, opening for writing when the directory is missing or the path is a directory;
    other reasons (permissions, space, encoding) are not modelled. Paths are those of POSIX. *)
From Coq Require Import String Ascii List Bool Arith.
From Verif.Base Require Import Scalar PyDict PyString PyText.
From Verif.Model Require Import Hamiltonian TxtVerify TxtRead.
Import ListNotations.
Local Open Scope string_scope.

Definition LF : ascii := "010".
Definition CR : ascii := "013".
(** Text mode, reading: "\r\n" and "\r" become "\n" (universal newlines). *)
Fixpoint universal (s : string) : string :=
  match s with
  | "" => ""
  | String c t =>
      if Ascii.eqb c CR then String LF (match t with String d t' => if Ascii.eqb d LF then universal t' else universal t | "" => "" end)
      else String c (universal t)
  end.
(** [f.readlines()]: the lines with their "\n". *)
Fixpoint lines_of (s : string) : list string :=
  match s with
  | "" => []
  | String c t => if Ascii.eqb c LF then String LF "" :: lines_of t
                  else match lines_of t with [] => [String c ""] | l :: ls => String c l :: ls end
  end.
Definition readlines (text : string) : list string := lines_of (universal text).
(** Text mode, writing: "\n" becomes the line separator of the system. *)
Fixpoint written (linesep s : string) : string :=
  match s with
  | "" => ""
  | String c t => if Ascii.eqb c LF then linesep ++ written linesep t else String c (written linesep t)
  end.

Record disk := mkDisk { files : dict string string; is_dir : string -> bool }.
(** Whether there is a "/" and everything before the last one. *)
Fixpoint dir_of (p : string) : option string :=
  match p with
  | "" => None
  | String c t => match dir_of t with Some d => Some (String c d) | None => if Ascii.eqb c "/" then Some "" else None end
  end.
Definition dir_exists (d : disk) (p : string) : bool := match dir_of p with Some "" => true | Some r => is_dir d r | None => true end.
Definition can_write (d : disk) (p : string) : bool := dir_exists d p && negb (is_dir d p).

(** 1086-1093 *)
Definition copy_name (filename : string) : string := "filtered_" ++ filename.
Definition copy_text (lines : list string) : string := String.concat (String LF "") lines.

Section Load.
Context {F : Type} {SF : Scalar F}.
Variable X : externals F.
(** The line separator of the system. *)
Variable linesep : string.

(** [_filter_txt_file] of a file, 1057-1097. *)
Definition filter_file_on (d : disk) (filename : string) (save_filtered : bool) : disk * out (list string * list nat) :=
  match dget (files d) filename with
  | None => (d, Raise OSError)
  | Some text =>
      match filter_txt_file (Some (readlines text)) None with
      | Raise e => (d, Raise e)
      | Ret p =>
          if save_filtered then
            if can_write d (copy_name filename)
            then (mkDisk (dset (files d) (copy_name filename) (written linesep (copy_text (fst p)))) (is_dir d), Ret p)
            else (d, Raise OSError)
          else (d, Ret p)
      end
  end.
(** [load_spinham_txt], 1120-1160. The file is read twice. *)
Definition load_on (d : disk) (filename : string) (save_filtered : bool) : disk * out (loaded (F := F)) :=
  match dget (files d) filename with
  | None => (d, Raise OSError)
  | Some _ =>
      let '(d', r) := filter_file_on d filename save_filtered in
      (d', obind r (fun p => obind (verify_model_file (isfloat X) (isint X) (x_float X) true (fst p)) (load_sections X)))
  end.
End Load.
