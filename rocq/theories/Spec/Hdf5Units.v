(** What an HDF5 group says about a Hamiltonian, in the units it declares, and what it means in units of magnopy
    (Angstrom, meV). The tree of groups and datasets is the one of the model; nothing of the loader is used. *)
From Coq Require Import String List Bool ZArith.
From Verif.Base Require Import Scalar Linear3 PyDict PyString.
From Verif.Model Require Import Hamiltonian TxtRead Hdf5.
From Verif.Spec Require Import HamSpec TxtFormat Hdf5Spec AtomsSpec.
Import ListNotations.

Section Units.
Context {F : Type} {SF : Scalar F}.
Variable X : externals F.
Notation node := (@node F).
Notation spinham := (@spinham F).

(** ** Names of units, in any case of letters *)
Definition energy_named (u : string) (v : F) : Prop :=
  In (str_lower u, v)
    [("rydberg", c_rydberg_energy X); ("joule", f1); ("kelvin", c_k_boltzmann X); ("electron-volt", c_electron_volt X);
     ("milli-electron-volt", fmul (c_milli X) (c_electron_volt X))]%string.
Definition begins (p w : string) : Prop := exists t, w = String.append p t.
Definition length_named (u : string) (v : F) : Prop :=
  (begins "bohr" (str_lower u) /\ v = c_bohr_radius X) \/ (begins "angstrom" (str_lower u) /\ v = c_angstrom X).
Definition known_energy (u : string) : Prop := exists v, energy_named u v.
Definition known_length (u : string) : Prop := exists v, length_named u v.

(** ** What is written *)
Record atom_item := mkAI { ai_name : string; ai_position : V3 F; ai_spin : V3 F; ai_g : F; ai_charge : option F }.
Record bond_item := mkBI { bi_from : string; bi_to : string; bi_cell : cell3; bi_matrix : M3 F }.
Record contents := mkContents {
  co_length : string; co_rows : M3 F; co_atoms : list atom_item;
  co_sn : option bool; co_dc : option bool; co_ef : option F; co_of : option F;
  co_exchange : option (string * list bond_item);
  co_on_site : option (string * list (string * M3 F));
  co_spiral : option (string * V3 F); co_cone : option (string * V3 F) }.

Definition member (n : node) (name : string) (m : node) : Prop := exists a l, n = Grp a l /\ dget l name = Some m.
Definition absent (n : node) (name : string) : Prop := exists a l, n = Grp a l /\ dget l name = None.
Definition with_member {A} (P : node -> A -> Prop) (n : node) (name : string) (x : A) : Prop := exists m, member n name m /\ P m x.
Definition optional {A} (P : node -> A -> Prop) (n : node) (name : string) (o : option A) : Prop :=
  match o with Some x => with_member P n name x | None => absent n name end.
Definition unit_of (n : node) (u : string) : Prop := dget (node_attrs n) "units"%string = Some u.

Definition is_text (n : node) (s : string) : Prop := exists a, n = Dset (DStr s) a.
Definition is_vector (n : node) (v : V3 F) : Prop := exists a, n = Dset (DVec [vx v; vy v; vz v]) a.
Definition is_matrix (n : node) (m : M3 F) : Prop := exists a, n = Dset (DMat m) a.
Definition is_cell (n : node) (c : cell3) : Prop := let '(i, j, k) := c in exists a, n = Dset (DInts [i; j; k]) a.
Definition is_number (n : node) (x : F) : Prop := exists a, n = Dset (DNum x) a.
Definition is_flag (n : node) (b : bool) : Prop := exists z a, n = Dset (DInt z) a /\ (b = true <-> z <> 0%Z).

Definition is_atom (n : node) (x : atom_item) : Prop :=
  with_member is_text n "name" (ai_name x) /\ with_member is_vector n "position" (ai_position x)
  /\ with_member is_vector n "spin" (ai_spin x) /\ with_member is_number n "g-factor" (ai_g x)
  /\ optional is_number n "charge" (ai_charge x).
Definition is_bond (n : node) (x : bond_item) : Prop :=
  with_member is_text n "atom-1" (bi_from x) /\ with_member is_text n "atom-2" (bi_to x)
  /\ with_member is_cell n "ijk" (bi_cell x) /\ with_member is_matrix n "matrix" (bi_matrix x).
Definition is_site (n : node) (x : string * M3 F) : Prop :=
  with_member is_text n "atom" (fst x) /\ with_member is_matrix n "matrix" (snd x).
(** The members of a group, in the order of their names, whatever the names are. *)
Definition all_members {A} (P : node -> A -> Prop) (n : node) (l : list A) : Prop :=
  exists a k, n = Grp a k /\ Forall2 P (map snd k) l.
Definition in_units {A} (P : node -> A -> Prop) (n : node) (x : string * A) : Prop := unit_of n (fst x) /\ P n (snd x).
Definition is_lattice (n : node) (x : string * M3 F) : Prop :=
  unit_of n (fst x) /\ with_member is_vector n "a1" (row1 (snd x)) /\ with_member is_vector n "a2" (row2 (snd x))
  /\ with_member is_vector n "a3" (row3 (snd x)).
Definition is_some {A} (o : option A) : bool := match o with Some _ => true | None => false end.
(** The notation is read only with parameters, and only what these need. *)
Definition is_notation (root : node) (c : contents) : Prop :=
  if is_some (co_exchange c) || is_some (co_on_site c) then
    exists n, member root "notation" n
      /\ (exists b, co_sn c = Some b /\ with_member is_flag n "spin-normalized" b)
      /\ (if is_some (co_exchange c) then (exists b, co_dc c = Some b /\ with_member is_flag n "double-counting" b)
                                          /\ (exists x, co_ef c = Some x /\ with_member is_number n "exchange-factor" x)
          else co_dc c = None /\ co_ef c = None)
      /\ (if is_some (co_on_site c) then exists x, co_of c = Some x /\ with_member is_number n "on-site-factor" x else co_of c = None)
  else co_sn c = None /\ co_dc c = None /\ co_ef c = None /\ co_of c = None.
Definition describes (root : node) (c : contents) : Prop :=
  with_member is_lattice root "cell" (co_length c, co_rows c)
  /\ with_member (all_members is_atom) root "atoms" (co_atoms c)
  /\ optional (in_units (all_members is_bond)) root "exchange" (co_exchange c)
  /\ optional (in_units (all_members is_site)) root "on-site" (co_on_site c)
  /\ optional (in_units is_vector) root "spiral-vector" (co_spiral c)
  /\ optional (in_units is_vector) root "cone-axis" (co_cone c)
  /\ is_notation root c.

(** ** What it means *)
Definition about (k : bkey) (x : bond_item) : bool :=
  (if string_dec (a_name (b_from k)) (bi_from x) then true else false)
  && (if string_dec (a_name (b_to k)) (bi_to x) then true else false)
  && (if eq_dec (b_cell k) (bi_cell x) then true else false).
Definition last_about (k : bkey) (l : list bond_item) : option bond_item := last_some (fun x => if about k x then Some x else None) l.
Definition first_about (k : bkey) (l : list bond_item) : option bond_item := find (about k) l.
(** The written matrix of a bond: its last entry; with double counting also the transpose of the first entry of its mirror. *)
Definition written_bond (dc : option bool) (l : list bond_item) (k : bkey) : option (M3 F) :=
  match last_about k l with
  | Some x => Some (bi_matrix x)
  | None => match dc with Some true => option_map (fun x => mtrans (bi_matrix x)) (first_about (mirror k) l) | _ => None end
  end.
Definition meV : F := fmul (c_milli X) (c_electron_volt X).
(** [o] in meV is [o'] in the unit [u]. *)
Definition in_meV (u : F) (o o' : option (M3 F)) : Prop := option_map (mscale meV) o = option_map (mscale u) o'.

Definition same_atoms (s : spinham) (l : list atom_item) : Prop :=
  map facts (sh_sites s) = map (fun x => (ai_name x, ai_position x, Some (ai_spin x), Some (ai_g x), ai_charge x)) l
  /\ numbered_from_one (sh_sites s).
Definition lattice_means (c : contents) (s : spinham) : Prop :=
  exists u, length_named (co_length c) u /\ mscale (c_angstrom X) (sh_cell s) = mscale u (co_rows c).
Definition notation_means (c : contents) (s : spinham) : Prop :=
  h_sn (w_ham (sh_ham s)) = co_sn c /\ h_dc (w_ham (sh_ham s)) = co_dc c
  /\ h_ef (w_ham (sh_ham s)) = co_ef c /\ h_of (w_ham (sh_ham s)) = co_of c.
Definition exchange_means (c : contents) (s : spinham) : Prop :=
  match co_exchange c with
  | Some (name, l) => exists u, energy_named name u
      /\ forall k, In (b_from k) (atoms_of s) -> In (b_to k) (atoms_of s) -> in_meV u (bond_value (sh_ham s) k) (written_bond (co_dc c) l k)
  | None => bonds (sh_ham s) = []
  end.
Definition on_site_means (c : contents) (s : spinham) : Prop :=
  match co_on_site c with
  | Some (name, l) => exists u, energy_named name u
      /\ forall a, In a (atoms_of s) -> in_meV u (onsite_value (sh_ham s) a) (last_entry (a_name a) l)
  | None => sites (sh_ham s) = []
  end.
(** An absolute spiral vector is the sum of the rows of the reciprocal cell with the loaded components. *)
Definition spiral_means (c : contents) (s : spinham) : Prop :=
  match co_spiral c with
  | Some (name, q) => exists q', sh_spiral s = Some q'
      /\ ((str_lower name = "relative" /\ q' = q)
          \/ (str_lower name = "absolute" /\ exists r, x_reciprocal X (sh_cell s) = Some r /\ vmat q' r = q))%string
  | None => sh_spiral s = None
  end.
(** The cone axis has length one and the direction of the written vector; a relative one is taken in the loaded cell. *)
Definition cone_means (c : contents) (s : spinham) : Prop :=
  match co_cone c with
  | Some (name, v) => exists n v', sh_cone s = Some n /\ vscale (x_norm X v') n = v' /\ x_norm X v' <> f0
      /\ ((str_lower name = "absolute" /\ v' = v) \/ (str_lower name = "relative" /\ v' = vmat v (sh_cell s)))%string
  | None => sh_cone s = None
  end.
Definition means (c : contents) (s : spinham) : Prop :=
  lattice_means c s /\ same_atoms s (co_atoms c) /\ one_object s /\ notation_means c s
  /\ exchange_means c s /\ on_site_means c s /\ spiral_means c s /\ cone_means c s.

(** ** Which contents are accepted *)
Definition known_way (name : string) : Prop := (str_lower name = "relative" \/ str_lower name = "absolute")%string.
Definition names_told_apart (c : contents) : Prop :=
  NoDup (map ai_name (co_atoms c)) /\ Forall (fun x => ai_name x <> ""%string) (co_atoms c).
Definition names_known (c : contents) : Prop :=
  (forall u l, co_exchange c = Some (u, l) ->
     Forall (fun x => In (bi_from x) (map ai_name (co_atoms c)) /\ In (bi_to x) (map ai_name (co_atoms c))) l)
  /\ (forall u l, co_on_site c = Some (u, l) -> Forall (fun x => In (fst x) (map ai_name (co_atoms c))) l).
Definition units_known (c : contents) : Prop :=
  known_length (co_length c)
  /\ (forall u l, co_exchange c = Some (u, l) -> known_energy u) /\ (forall u l, co_on_site c = Some (u, l) -> known_energy u)
  /\ (forall u v, co_spiral c = Some (u, v) -> known_way u) /\ (forall u v, co_cone c = Some (u, v) -> known_way u).
(** A cone axis is not (close to) zero. *)
Definition proper_axis (c : contents) : Prop := forall u v, co_cone c = Some (u, v) ->
  (str_lower u = "absolute"%string -> x_close0 X v = false)
  /\ (str_lower u = "relative"%string -> forall cell k, length_named (co_length c) k -> mscale (c_angstrom X) cell = mscale k (co_rows c) ->
        x_close0 X (vmat v cell) = false).
(** An absolute spiral vector can be expressed in the reciprocal cell. *)
Definition proper_spiral (c : contents) : Prop := forall u q, co_spiral c = Some (u, q) -> str_lower u = "absolute"%string ->
  forall cell k, length_named (co_length c) k -> mscale (c_angstrom X) cell = mscale k (co_rows c) ->
  exists r q', x_reciprocal X cell = Some r /\ x_abs_to_rel X r q = Some q'.
End Units.
