(** Model of the text dump (src/magnopy/io/txt/internal.py:44-314).

    The object is that of the HDF5 model ([spinham]). [text] is the list the code builds: an entry may hold several
    lines (the logo, a bond). The file is the entries joined by line feeds; exceptions leave no file (it is opened
    after the text is complete, 308-310).

    Outside /repo and abstract here ([printer]): the digits of "%.8f", "%.4f" and of [str] of a float, wulfric's
    distances (only ever written behind "#") and the lines of the logo. Padding, signs of integers and all else is
    concrete. Simplification: ASCII text (the logo, all of it comments, is drawn with other characters); "\r" does
    not occur, so [readlines] cuts at line feeds. *)
From Coq Require Import String Ascii List Bool ZArith Arith DecimalString.
From Verif.Base Require Import Scalar Linear3 PyDict PyString PyText.
From Verif.Model Require Import MatrixParam Hamiltonian TxtVerify TxtRead Hdf5.
Import ListNotations.
Local Open Scope string_scope.

(** ** Text *)
Definition line_feed : ascii := ascii_of_nat 10.
(** sep.join(l) *)
Definition join (sep : string) (l : list string) : string := String.concat sep l.
(** f"{s:>n}", f"{s:<n}" *)
Definition pad_left (n : nat) (s : string) : string := repeat_char " " (n - String.length s) ++ s.
Definition pad_right (n : nat) (s : string) : string := s ++ repeat_char " " (n - String.length s).
(** str(z) of an integer *)
Definition str_int (z : Z) : string := NilZero.string_of_int (Z.to_int z).
(** str(b) of a boolean *)
Definition str_bool (b : bool) : string := if b then "True" else "False".
(** f.readlines(): the pieces up to and including each line feed, and what is left. *)
Fixpoint readlines (s : string) : list string :=
  match s with
  | EmptyString => []
  | String c s' =>
      if Ascii.eqb c line_feed then String c "" :: readlines s'
      else match readlines s' with [] => [String c ""] | l :: t => String c l :: t end
  end.

(** internal.py:44-45 *)
Definition SEPARATOR : string := repeat_char "=" 80.
Definition SUBSEPARATOR : string := repeat_char "-" 80.

(** The keyword arguments write_matrix, write_iso, write_dmi, write_symm, write_distance, write_spin_angles. *)
Record flags := mkFlags { fl_matrix : bool; fl_iso : bool; fl_dmi : bool; fl_symm : bool; fl_distance : bool; fl_angles : bool }.
Definition default_flags : flags := mkFlags true false false false false false.

Record printer (F : Type) := {
  pr_fixed : nat -> F -> string;      (* digits of f"{x:.nf}" *)
  pr_str : F -> string;               (* str(x) *)
  pr_distance : atom -> atom -> cell3 -> F;
  pr_logo : list string               (* the lines of logo(comment=True) *)
}.
Arguments pr_fixed {F}. Arguments pr_str {F}. Arguments pr_distance {F}. Arguments pr_logo {F}.

Section Dump.
Context {F : Type} {SF : Scalar F}.
Variable P : printer F.
Notation world := (@world F).
Notation spinham := (@spinham F).
Notation site := (@site F).

(** f"{x:12.8f}", f"{x:>8.4f}" and f"{x:8.4f}" *)
Definition f12_8 (x : F) : string := pad_left 12 (pr_fixed P 8 x).
Definition f8_4 (x : F) : string := pad_left 8 (pr_fixed P 4 x).

(** *** _write_exchange, 48-121 *)
(** 84-98: the header of a bond; the distance is a comment. *)
Definition bond_header (fl : flags) (k : bkey) : string :=
  let '(i, j, l) := b_cell k in
  join " " ([pad_right 6 (a_name (b_from k)); pad_right 6 (a_name (b_to k));
             pad_left 3 (str_int i); pad_left 3 (str_int j); pad_left 3 (str_int l)]
            ++ (if fl_distance fl then ["# " ++ pad_right 8 (pr_fixed P 4 (pr_distance P (b_from k) (b_to k) (b_cell k)))] else [])).
(** 98-121 *)
Definition row_text (v : V3 F) : string := join " " [f8_4 (vx v); f8_4 (vy v); f8_4 (vz v)].
Definition write_exchange (fl : flags) (k : bkey) (m : M3 F) : string :=
  join (String line_feed "") (
    [bond_header fl k]
    ++ (if fl_iso fl then ["Isotropic " ++ f8_4 (p_iso m)] else [])
    ++ (if fl_dmi fl then [join " " ["DMI"; f8_4 (vx (p_dmi m)); f8_4 (vy (p_dmi m)); f8_4 (vz (p_dmi m))]] else [])
    ++ (if fl_symm fl then
          ["#" ++ repeat_char " " 20 ++ join " " [pad_left 8 "Axx"; pad_left 8 "Ayy"; pad_left 8 "Axy"; pad_left 8 "Axz"; pad_left 8 "Ayz"];
           let a := p_aniso m in
           join " " ["Symmetric-anisotropy"; f8_4 (mxx a); f8_4 (myy a); f8_4 (mxy a); f8_4 (mxz a); f8_4 (myz a)]] else [])
    ++ (if fl_matrix fl then ["Matrix"; row_text (row1 m); row_text (row2 m); row_text (row3 m)] else [])).

(** *** dump_spinham_txt, 124-314 *)
(** 170-190; the comments end in the names of the vectors *)
Definition cell_row (v : V3 F) (com : string) : string := join " " [f12_8 (vx v); f12_8 (vy v); f12_8 (vz v); com].
Definition cell_text (m : M3 F) : list string :=
  [join (String line_feed "") (pr_logo P); SEPARATOR; "Cell Angstrom";
   join " " ["#"; pad_left 10 "x"; pad_left 12 "y"; pad_left 12 "z"];
   cell_row (row1 m) "# <- a (first lattice vector)";
   cell_row (row2 m) "# <- b (second lattice vector)";
   cell_row (row3 m) "# <- c (third lattice vector)";
   SEPARATOR].
(** 193-198 *)
Definition atoms_header (fl : flags) : string :=
  join " " (["name"; pad_left 10 "r1"; pad_left 12 "r2"; pad_left 12 "r3"]
            ++ (if fl_angles fl then [pad_left 6 "St"; pad_left 6 "Sp"; pad_left 6 "S"]
                else [pad_left 8 "Sx"; pad_left 8 "Sy"; pad_left 8 "Sz"])).
(** 199-236: [spin_vector] of an atom that has none is a ValueError (wulfric), which is caught; [vector_to_angles]
    asks numpy for [linalg.notm] (geometry.py:43): AttributeError, which is not. *)
Definition atom_text (fl : flags) (x : site) : out string :=
  let v := st_position x in
  match st_spin x with
  | None => Ret (join " " [pad_right 4 (a_name (st_atom x)); f12_8 (vx v); f12_8 (vy v); f12_8 (vz v);
                           pad_left 8 "-"; pad_left 8 "-"; pad_left 8 "-"])
  | Some s =>
      if fl_angles fl then Raise AttributeError
      else Ret (join " " [pad_right 4 (a_name (st_atom x)); f12_8 (vx v); f12_8 (vy v); f12_8 (vz v);
                          f8_4 (vx s); f8_4 (vy s); f8_4 (vz s)])
  end.
Fixpoint atom_texts (fl : flags) (l : list site) : out (list string) :=
  match l with
  | [] => Ret []
  | x :: t => obind (atom_text fl x) (fun a => obind (atom_texts fl t) (fun r => Ret (a :: r)))
  end.
(** 238-247; unset properties: NotationError *)
Definition notation_text (h : @ham F) : out (list string) :=
  if Hdf5.nonempty (h_exch h) || Hdf5.nonempty (h_ons h) then
    obind (of_option NotationError (h_sn h)) (fun sn =>
    obind (if Hdf5.nonempty (h_exch h) then
             obind (of_option NotationError (h_dc h)) (fun dc => obind (of_option NotationError (h_ef h)) (fun ef =>
             Ret ["Double-counting " ++ str_bool dc; "Exchange-factor " ++ pr_str P ef]))
           else Ret []) (fun ex =>
    obind (if Hdf5.nonempty (h_ons h) then
             obind (of_option NotationError (h_of h)) (fun of_ => Ret ["On-site-factor " ++ pr_str P of_])
           else Ret []) (fun os =>
    Ret (["Notation"; ("Spin-normalized " ++ str_bool sn)%string] ++ ex ++ os ++ [SEPARATOR])%list)))
  else Ret [].
(** 249-277: bonds of an atom with itself in the same cell are left out. *)
Definition self_bond (k : bkey) : bool :=
  (if eq_dec (b_from k) (b_to k) then true else false) && (if eq_dec (b_cell k) (0, 0, 0)%Z then true else false).
Definition exchange_text_of (fl : flags) (w : world) : list string :=
  if Hdf5.nonempty (h_exch (w_ham w)) then
    (["Exchange milli-electron-Volt";
      (join " " [pad_right 13 "# Atom1 Atom2"; pad_left 3 "i"; pad_left 3 "j"; pad_left 3 "k"] ++ (if fl_distance fl then " # distance" else ""))%string;
      SUBSEPARATOR]
     ++ flat_map (fun p => if self_bond (fst p) then [] else [write_exchange fl (fst p) (matrix_of w (snd p)); SUBSEPARATOR]) (h_exch (w_ham w))
     ++ [SEPARATOR])%list
  else [].
(** 279-290 *)
Definition on_site_text_of (w : world) : list string :=
  if Hdf5.nonempty (h_ons (w_ham w)) then
    (["On-site milli-electron-Volt"; SUBSEPARATOR]
     ++ flat_map (fun p => let m := matrix_of w (snd p) in
          [a_name (fst p);
           join " " [f8_4 (mxx m); f8_4 (myy m); f8_4 (mzz m); f8_4 (mxy m); f8_4 (mxz m); f8_4 (myz m)];
           SUBSEPARATOR]) (h_ons (w_ham w))
     ++ [SEPARATOR])%list
  else [].
(** 292-298, 300-306 *)
Definition vector_line (v : V3 F) : string := join " " [f12_8 (vx v); f12_8 (vy v); f12_8 (vz v)].
Definition cone_text (o : option (V3 F)) : list string :=
  match o with Some n => ["Cone-axis absolute"; vector_line n; SEPARATOR] | None => [] end.
Definition spiral_text (o : option (V3 F)) : list string :=
  match o with Some q => ["Spiral-vector relative"; vector_line q; SEPARATOR] | None => [] end.

(** [text]: what the function returns without a file name (and with print_if_none = False). *)
Definition dump_text (fl : flags) (s : spinham) : out (list string) :=
  let w := sh_ham s in
  obind (atom_texts fl (sh_sites s)) (fun atoms =>
  obind (notation_text (w_ham w)) (fun notation_ =>
  Ret (cell_text (sh_cell s) ++ ["Atoms"; atoms_header fl] ++ atoms ++ [SEPARATOR] ++ notation_
       ++ exchange_text_of fl w ++ on_site_text_of w ++ cone_text (sh_cone s) ++ spiral_text (sh_spiral s))%list)).
(** The content of the file. *)
Definition dump_txt (fl : flags) (s : spinham) : out string :=
  obind (dump_text fl s) (fun text => Ret (join (String line_feed "") text)).

End Dump.
