(** Output files of TB2J (exchange.out) and the Hamiltonian they describe. Only the words of a line ([py_split]),
    deletion of brackets, the number conversions of [externals] and types of the model are used. *)
From Coq Require Import String Ascii List Bool ZArith.
From Verif.Base Require Import Scalar Linear3 PyString PyText PyText2.
From Verif.Spec Require Import TxtFormat.
From Verif.Model Require Import MatrixParam Hamiltonian TxtRead.
Import ListNotations.
Local Open Scope string_scope.

Definition contains (p s : string) : Prop := exists a b, s = a ++ p ++ b.

(** A line of 88 dashes separates the bonds. *)
Definition dashes88 : string := repeat_char "-" 88.
Definition data_flag (l : string) : Prop := contains "J_iso:" l \/ contains "J_ani:" l \/ contains "DMI:" l.
Definition separator (l : string) : Prop := contains dashes88 l /\ ~ data_flag l.
(** A line of the head that announces nothing. *)
Definition plain (l : string) : Prop :=
  ~ contains "Cell (Angstrom):" l /\ ~ contains "Atoms:" l /\ ~ contains "Exchange:" l.
(** Words of a line once brackets, commas and quotes are gone. *)
Definition bare_words (l : string) : list string := py_split (delete_chars ["("; ")"; "["; "]"; ","; "'"]%char l).

Section Tb2jSpec.
Context {F : Type} {SF : Scalar F}.
Variable X : externals F.
Local Open Scope fld_scope.

(** ** Atoms: name, position, maybe charge, maybe magnetic moment. *)
Record table_row := mkRow { tr_name : string; tr_position : V3 F; tr_charge : option F; tr_magmom : option (V3 F) }.
Definition row_text (l : string) (r : table_row) : Prop :=
  ~ In "Total" (py_split l) /\
  exists pos more a b c, py_split l = (tr_name r :: pos ++ more)%list /\ numbers X pos [a; b; c] /\ tr_position r = mkV a b c /\
    ((more = [] /\ tr_charge r = None /\ tr_magmom r = None)
     \/ (exists w q ws, more = w :: ws /\ (List.length ws < 3)%nat /\ x_float X w = Some q /\ tr_charge r = Some q /\ tr_magmom r = None)
     \/ (exists w q ws rest x y z, more = (w :: ws ++ rest)%list /\ x_float X w = Some q /\ numbers X ws [x; y; z]
           /\ tr_charge r = Some q /\ tr_magmom r = Some (mkV x y z))).

(** ** One bond: a header and lines of data; a later line of the same kind replaces an earlier one. *)
Record entry := mkEntry { e_from : string; e_to : string; e_cell : cell3;
  e_iso : option F; e_ani : option (M3 F); e_dmi : option (V3 F) }.
Definition otherwise {A} (later : option A) (now : A) : option A := match later with Some x => Some x | None => Some now end.
Inductive data_lines : list string -> option F -> option (M3 F) -> option (V3 F) -> Prop :=
| dl_nil : data_lines [] None None None
| dl_iso l x ls i a d : contains "J_iso:" l -> ~ contains "J_ani:" l -> ~ contains "DMI:" l -> ~ contains dashes88 l ->
    x_float X (last (py_split l) "") = Some x -> data_lines ls i a d -> data_lines (l :: ls) (otherwise i x) a d
| dl_ani l r1 r2 r3 a1 a2 a3 b1 b2 b3 c1 c2 c3 ls i a d :
    contains "J_ani:" l -> ~ contains "J_iso:" l -> ~ contains "DMI:" l -> ~ contains dashes88 l ->
    numbers X (bare_words r1) [a1; a2; a3] -> numbers X (bare_words r2) [b1; b2; b3] -> numbers X (bare_words r3) [c1; c2; c3] ->
    data_lines ls i a d ->
    data_lines (l :: r1 :: r2 :: r3 :: ls) i (otherwise a (mkM a1 a2 a3 b1 b2 b3 c1 c2 c3)) d
| dl_dmi l front ws x y z ls i a d :
    contains "DMI:" l -> ~ contains "J_iso:" l -> ~ contains "J_ani:" l -> ~ contains dashes88 l ->
    bare_words l = (front ++ ws)%list -> numbers X ws [x; y; z] ->
    data_lines ls i a d -> data_lines (l :: ls) i a (otherwise d (mkV x y z))
| dl_other l ls i a d : ~ data_flag l -> ~ contains dashes88 l -> data_lines ls i a d -> data_lines (l :: ls) i a d.
Definition entry_text (lines : list string) (e : entry) : Prop :=
  exists hdr data wi wj wk i j k more dist,
    lines = hdr :: data /\ bare_words hdr = e_from e :: e_to e :: wi :: wj :: wk :: more
    /\ x_int X wi = Some i /\ x_int X wj = Some j /\ x_int X wk = Some k /\ e_cell e = (i, j, k)
    /\ x_float X (last (bare_words hdr) "") = Some dist /\ ~ In dashes88 (bare_words hdr)
    /\ data_lines data (e_iso e) (e_ani e) (e_dmi e).
(** Bonds, each below a separator. *)
Inductive entries_text : list string -> list entry -> Prop :=
| en_last sep s e : separator sep -> entry_text s e -> entries_text (sep :: s) [e]
| en_cons sep s e ls es : separator sep -> entry_text s e -> entries_text ls es -> entries_text (sep :: s ++ ls) (e :: es).

(** ** The file: cell, atoms, exchange. *)
Definition is_tb2j_file (f : list string) (cell : M3 F) (atoms : list table_row) (es : list entry) : Prop :=
  exists pre hcell ra rb rc a1 a2 a3 b1 b2 b3 c1 c2 c3 mid hatoms x y table total mid' hexch gap bonds,
    f = (pre ++ [hcell; ra; rb; rc] ++ mid ++ [hatoms; x; y] ++ table ++ [total] ++ mid' ++ [hexch] ++ gap ++ bonds)%list
    /\ Forall plain pre /\ Forall plain mid /\ Forall plain mid'
    /\ contains "Cell (Angstrom):" hcell /\ ~ contains "Atoms:" hcell /\ ~ contains "Exchange:" hcell
    /\ numbers X (py_split ra) [a1; a2; a3] /\ numbers X (py_split rb) [b1; b2; b3] /\ numbers X (py_split rc) [c1; c2; c3]
    /\ cell = mkM a1 a2 a3 b1 b2 b3 c1 c2 c3
    /\ contains "Atoms:" hatoms /\ ~ contains "Cell (Angstrom):" hatoms
    /\ Forall2 row_text table atoms
    /\ In "Total" (py_split total) /\ ~ In "Exchange:" (py_split total)
    /\ contains "Exchange:" hexch /\ ~ contains "Cell (Angstrom):" hexch /\ ~ contains "Atoms:" hexch /\ ~ contains dashes88 hexch
    /\ Forall (fun l => ~ contains dashes88 l) gap
    /\ entries_text bonds es.

(** ** The matrix of an entry: J_iso I + J_ani + (DMI x). *)
Definition iso_part (e : entry) : F := match e_iso e with Some x => x | None => 0 end.
Definition ani_part (e : entry) : M3 F := match e_ani e with Some x => x | None => mkM 0 0 0 0 0 0 0 0 0 end.
Definition dmi_part (e : entry) : V3 F := match e_dmi e with Some x => x | None => mkV 0 0 0 end.
(** S1 . M S2 = J_iso S1 . S2 + S1 . J_ani S2 + D . (S1 x S2), for all vectors; this determines M. *)
Definition energy_of_entry (e : entry) (m : M3 F) : Prop :=
  forall u v, dot u (mvec m v) = iso_part e * dot u v + dot u (mvec (ani_part e) v)
    + (vx (dmi_part e) * (vy u * vz v - vz u * vy v) + vy (dmi_part e) * (vz u * vx v - vx u * vz v)
       + vz (dmi_part e) * (vx u * vy v - vy u * vx v)).

(** The entry is about the bond [k]. *)
Definition about (k : bkey) (e : entry) : Prop :=
  a_name (b_from k) = e_from e /\ a_name (b_to k) = e_to e /\ b_cell k = e_cell e.
(** [e] is the last (first) entry of [es] about [k]. *)
Definition last_about (k : bkey) (es : list entry) (e : entry) : Prop :=
  exists before after, es = (before ++ e :: after)%list /\ about k e /\ Forall (fun e' => ~ about k e') after.
Definition first_about (k : bkey) (es : list entry) (e : entry) : Prop :=
  exists before after, es = (before ++ e :: after)%list /\ about k e /\ Forall (fun e' => ~ about k e') before.

(** Atom names are distinct and bonds join listed atoms. *)
Definition consistent (atoms : list table_row) (es : list entry) : Prop :=
  NoDup (map tr_name atoms) /\
  Forall (fun e => In (e_from e) (map tr_name atoms) /\ In (e_to e) (map tr_name atoms)) es.
End Tb2jSpec.
