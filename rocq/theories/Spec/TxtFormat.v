(** The text format as documented (docs of the sections in src/magnopy/io/txt/internal.py:317-1024), as relations
    between the lines of a section and what they mean. Only [py_split] (the words of a line), the number
    conversions of [externals] and types of the model are used. *)
From Coq Require Import String Ascii List Bool ZArith.
From Verif.Base Require Import Scalar Linear3 PyDict PyString PyText.
From Verif.Spec Require Import TxtSpec.
From Verif.Model Require Import MatrixParam Hamiltonian TxtRead.
Import ListNotations.
Local Open Scope string_scope.

(** Ten or more dashes separate bonds and on-site parameters. *)
Definition dash_separator (l : string) : Prop := exists n s, (10 <= n)%nat /\ l = repeat_char "-" n ++ s.

(** The first letter of a word, ignoring case. *)
Definition initial (c : ascii) (w : string) : Prop := exists w', str_lower w = String c w'.

(** The file [f] consists of the sections [secs], no name twice. *)
Definition is_file (secs : list (list string)) (f : list string) : Prop :=
  exists ts, file_shows f ts /\ laid_out secs ts /\ NoDup (map section_name secs).

Section Format.
Context {F : Type} {SF : Scalar F}.
Variable X : externals F.

Definition numbers (ws : list string) (xs : list F) : Prop := Forall2 (fun w x => x_float X w = Some x) ws xs.

(** ** Bonds *)
Inductive datum :=
| DIso (x : F)                       (* Isotropic Jiso *)
| DDmi (d : V3 F)                    (* DMI Dx Dy Dz *)
| DSymm (sxx syy sxy sxz syz : F)    (* Symmetric-anisotropy Sxx Syy Sxy Sxz Syz *)
| DMatrix (m : M3 F)                 (* Matrix, three rows below *)
| DOther.                            (* any other line *)

Inductive data_text : list string -> list datum -> Prop :=
| dt_nil : data_text [] []
| dt_iso l k w x ls ds : py_split l = [k; w] -> initial "i" k -> x_float X w = Some x ->
    data_text ls ds -> data_text (l :: ls) (DIso x :: ds)
| dt_dmi l k ws a b c ls ds : py_split l = k :: ws -> initial "d" k -> numbers ws [a; b; c] ->
    data_text ls ds -> data_text (l :: ls) (DDmi (mkV a b c) :: ds)
| dt_symm l k ws a b c d e ls ds : py_split l = k :: ws -> initial "s" k -> numbers ws [a; b; c; d; e] ->
    data_text ls ds -> data_text (l :: ls) (DSymm a b c d e :: ds)
| dt_matrix l k r1 r2 r3 a b c d e f g h i ls ds : py_split l = [k] -> initial "m" k ->
    numbers (py_split r1) [a; b; c] -> numbers (py_split r2) [d; e; f] -> numbers (py_split r3) [g; h; i] ->
    data_text ls ds -> data_text (l :: r1 :: r2 :: r3 :: ls) (DMatrix (mkM a b c d e f g h i) :: ds)
| dt_other l k ws ls ds : py_split l = k :: ws ->
    ~ initial "i" k -> ~ initial "d" k -> ~ initial "s" k -> ~ initial "m" k ->
    data_text ls ds -> data_text (l :: ls) (DOther :: ds).

(** Header and data of one bond. *)
Record bond := mkBond { bn_from : string; bn_to : string; bn_cell : cell3; bn_data : list datum }.
Definition bond_text (lines : list string) (b : bond) : Prop :=
  exists hdr data wi wj wk i j k,
    lines = hdr :: data /\ py_split hdr = [bn_from b; bn_to b; wi; wj; wk]
    /\ x_int X wi = Some i /\ x_int X wj = Some j /\ x_int X wk = Some k /\ bn_cell b = (i, j, k)
    /\ data_text data (bn_data b).

(** The lines below the header of the section: bonds with separators between them. *)
Inductive exchange_text : list string -> list bond -> Prop :=
| et_nil : exchange_text [] []
| et_sep l ls bs : dash_separator l -> exchange_text ls bs -> exchange_text (l :: ls) bs
| et_last s b : bond_text s b -> Forall (fun l => ~ dash_separator l) s -> exchange_text s [b]
| et_cons s b l ls bs : bond_text s b -> Forall (fun l => ~ dash_separator l) s -> dash_separator l ->
    exchange_text ls bs -> exchange_text (s ++ l :: ls) (b :: bs).

(** The matrix described by data lines: each line sets its part of the MatrixParameter. *)
Definition last_some {A B} (f : A -> option B) (l : list A) : option B :=
  fold_left (fun acc x => match f x with Some y => Some y | None => acc end) l None.
Definition described (ds : list datum) : M3 F :=
  p_init (last_some (fun d => match d with DMatrix m => Some m | _ => None end) ds)
         (last_some (fun d => match d with DIso x => Some x | _ => None end) ds)
         (last_some (fun d => match d with
                              | DSymm sxx syy sxy sxz syz =>
                                  Some (mkM sxx sxy sxz sxy syy syz sxz syz (fsub (fopp sxx) syy))
                              | _ => None end) ds)
         (last_some (fun d => match d with DDmi v => Some v | _ => None end) ds).

(** The entry describes the bond [k] (atoms compared by name, cells exactly). *)
Definition is_entry (k : bkey) (b : bond) : bool :=
  (if string_dec (a_name (b_from k)) (bn_from b) then true else false)
  && (if string_dec (a_name (b_to k)) (bn_to b) then true else false)
  && (if eq_dec (b_cell k) (bn_cell b) then true else false).
Definition last_for (k : bkey) (bs : list bond) : option bond :=
  last_some (fun b => if is_entry k b then Some b else None) bs.
Definition first_for (k : bkey) (bs : list bond) : option bond := find (is_entry k) bs.

(** ** On-site parameters: a name, then xx yy zz xy xz yz *)
Inductive on_site_text : list string -> list (string * M3 F) -> Prop :=
| os_nil : on_site_text [] []
| os_sep l ls es : dash_separator l -> on_site_text ls es -> on_site_text (l :: ls) es
| os_entry l l' n axx ayy azz axy axz ayz ls es :
    py_split l = [n] -> ~ dash_separator l ->
    numbers (py_split l') [axx; ayy; azz; axy; axz; ayz] -> on_site_text ls es ->
    on_site_text (l :: l' :: ls) ((n, mkM axx axy axz axy ayy ayz axz ayz azz) :: es).

(** The last entry for a name counts. *)
Definition last_entry (n : string) (es : list (string * M3 F)) : option (M3 F) :=
  last_some (fun e => if string_dec (fst e) n then Some (snd e) else None) es.

(** ** Notation: property and value *)
Inductive property := PSpin (b : bool) | PDouble (b : bool) | PExchange (x : F) | POnSite (x : F) | POther.
Definition says (w : string) (b : bool) : Prop :=
  In (str_lower w) (if b then ["true"; "t"; "yes"; "y"; "1"] else ["false"; "f"; "no"; "n"; "0"]).
Inductive property_text : string -> property -> Prop :=
| pt_spin l k w b : py_split l = [k; w] -> initial "s" k -> says w b -> property_text l (PSpin b)
| pt_double l k w b : py_split l = [k; w] -> initial "d" k -> says w b -> property_text l (PDouble b)
| pt_exchange l k w x : py_split l = [k; w] -> initial "e" k -> x_float X w = Some x -> property_text l (PExchange x)
| pt_on_site l k w x : py_split l = [k; w] -> initial "o" k -> x_float X w = Some x -> property_text l (POnSite x)
| pt_other l k w : py_split l = [k; w] ->
    ~ initial "s" k -> ~ initial "d" k -> ~ initial "e" k -> ~ initial "o" k -> property_text l POther.

(** ** Units: the size of the declared unit in SI units *)
Inductive energy_unit : string -> F -> Prop :=
| eu_default hdr k : py_split hdr = [k] -> energy_unit hdr (fmul (c_milli X) (c_electron_volt X))
| eu_milli hdr k u : py_split hdr = [k; u] -> initial "m" u -> energy_unit hdr (fmul (c_milli X) (c_electron_volt X))
| eu_electron_volt hdr k u : py_split hdr = [k; u] -> initial "e" u -> energy_unit hdr (c_electron_volt X)
| eu_joule hdr k u : py_split hdr = [k; u] -> initial "j" u -> energy_unit hdr f1
| eu_kelvin hdr k u : py_split hdr = [k; u] -> initial "k" u -> energy_unit hdr (c_k_boltzmann X)
| eu_rydberg hdr k u : py_split hdr = [k; u] -> initial "r" u -> energy_unit hdr (c_rydberg_energy X).
Inductive length_unit : string -> F -> Prop :=
| lu_default hdr k : py_split hdr = [k] -> length_unit hdr (c_angstrom X)
| lu_angstrom hdr k u : py_split hdr = [k; u] -> initial "a" u -> length_unit hdr (c_angstrom X)
| lu_bohr hdr k u : py_split hdr = [k; u] -> initial "b" u -> length_unit hdr (c_bohr_radius X).

(** ** The lattice: three rows, below an optional scale (none, one for all or one per component) *)
Inductive scale_text : list string -> V3 F -> Prop :=
| st_none : scale_text [] (mkV f1 f1 f1)
| st_one l s : numbers (py_split l) [s] -> fltb s f0 = false -> scale_text [l] (mkV s s s)
| st_three l a b c : numbers (py_split l) [a; b; c] -> scale_text [l] (mkV a b c).

(** A row in SI units. *)
Definition scaled_row (u : F) (s : V3 F) (a b c : F) : V3 F :=
  mkV (fmul (vx s) (fmul u a)) (fmul (vy s) (fmul u b)) (fmul (vz s) (fmul u c)).

(** ** What the outside functions are trusted for *)
Record sane : Prop := {
  sane_case : forall w, x_float X (str_lower w) = x_float X w;       (* "1E3" and "1e3" *)
  sane_norm : forall v, x_norm X v = f0 -> v = mkV f0 f0 f0;
  sane_unit : forall v, v <> mkV f0 f0 f0 -> x_close0 X (vscale (fdiv f1 (x_norm X v)) v) = false;
  sane_angles : forall a b,                                          (* a direction given by angles is not zero *)
    x_close0 X (mkV (fmul (x_cos X b) (x_sin X a)) (fmul (x_sin X b) (x_sin X a)) (x_cos X a)) = false;
  sane_zero : x_close0 X (mkV f0 f0 f0) = true;
  sane_relative : forall c v, mdet c <> f0 -> x_abs_to_rel X c v <> None;
  sane_reciprocal : forall c, mdet c <> f0 -> x_reciprocal X c <> None;
  sane_lengths : c_angstrom X <> f0 /\ c_bohr_radius X <> f0
}.

(** The shortcomings of the loader, see C41: what else a file must not do. *)
Definition has_parameters (secs : list (list string)) : Prop :=
  exists s, has_section secs "exchange" s \/ has_section secs "on-site" s.
Definition undashed (secs : list (list string)) : Prop :=
  forall s l, has_section secs "atoms" s -> In l s -> ~ In "-" (py_split l).
Definition not_joule (secs : list (list string)) : Prop :=
  forall s k u, has_section secs "exchange" s -> py_split (hd "" s) = [k; u] -> ~ initial "j" u.
(** The three lattice vectors are independent; the cone axis is not the zero vector. *)
Definition true_cell (secs : list (list string)) : Prop :=
  forall s p l1 l2 l3 a b c d e f g h i, has_section secs "cell" s -> s = (p ++ [l1; l2; l3])%list ->
    numbers (py_split l1) [a; b; c] -> numbers (py_split l2) [d; e; f] -> numbers (py_split l3) [g; h; i] ->
    mdet (mkM a b c d e f g h i) <> f0.
Definition true_axis (secs : list (list string)) : Prop :=
  forall s hdr l a b c, has_section secs "cone-axis" s -> s = [hdr; l] ->
    numbers (py_split l) [a; b; c] -> mkV a b c <> mkV f0 f0 f0.

End Format.
