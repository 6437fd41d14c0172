(** Model of the HDF5 dump and loader (src/magnopy/io/hdf5/internal.py).

    An HDF5 file is a tree: groups (attributes, named members) and datasets (a value, attributes). h5py lists the
    members of a group in the order of their names (byte order), which is how they are kept here. Exceptions are
    values; what was written before an exception stays in the file.

    Simplifications. Values are exact (floats of the model are field elements); attributes are strings; a group
    name is the list of its parts ("a/b" is ["a"; "b"]). A dataset of another shape or type than the reader asks
    for is a ValueError, whatever h5py or numpy would raise for it; so is an item of a dataset. Names are ASCII.
    wulfric's [add_atom] gives consecutive indices 1, 2, ... to atoms without one. *)
From Coq Require Import String Ascii List Bool ZArith Arith DecimalString.
From Verif.Base Require Import Scalar Linear3 PyDict PyString PyText.
From Verif.Model Require Import MatrixParam Hamiltonian TxtVerify TxtRead.
Import ListNotations.

(** str(n) *)
Definition decimal (n : nat) : string := NilZero.string_of_uint (Nat.to_uint n).

Section Hdf5.
Context {F : Type} {SF : Scalar F}.
Variable X : externals F.
Local Open Scope fld_scope.
Notation M := (@M F).
Notation world := (@world F).

(** ** Files *)
Inductive data := DStr (s : string) | DVec (l : list F) | DMat (m : M3 F) | DInts (l : list Z) | DNum (x : F) | DInt (z : Z).
Definition attrs := dict string string.
Inductive node := Dset (d : data) (a : attrs) | Grp (a : attrs) (kids : list (string * node)).
Definition kids_t := list (string * node).
Definition empty_file : node := Grp [] [].

(** A new member takes its place in the order of names. *)
Fixpoint insert (name : string) (n : node) (l : kids_t) : kids_t :=
  match l with
  | [] => [(name, n)]
  | (x, m) :: t => match String.compare name x with Lt => (name, n) :: l | _ => (x, m) :: insert name n t end
  end.
Fixpoint kset (name : string) (n : node) (l : kids_t) : kids_t :=
  match l with
  | [] => []
  | (x, m) :: t => if eq_dec name x then (x, n) :: t else (x, m) :: kset name n t
  end.
Fixpoint kdel (name : string) (l : kids_t) : kids_t :=
  match l with
  | [] => []
  | (x, m) :: t => if eq_dec name x then kdel name t else (x, m) :: kdel name t
  end.
(** file[path] *)
Fixpoint lookup (n : node) (p : list string) : option node :=
  match p with
  | [] => Some n
  | x :: p' => match n with
               | Grp _ l => match dget l x with Some m => lookup m p' | None => None end
               | Dset _ _ => None
               end
  end.
(** file.create_group(path), the new group given with what will be written into it; groups on the way are made. *)
Fixpoint chain (p : list string) (new : node) : node :=
  match p with [] => new | x :: p' => Grp [] [(x, chain p' new)] end.
Fixpoint create (p : list string) (new : node) (n : node) : option node :=
  match p with
  | [] => None
  | x :: p' => match n with
               | Grp a l => match dget l x with
                            | None => Some (Grp a (insert x (chain p' new) l))
                            | Some m => match create p' new m with Some m' => Some (Grp a (kset x m' l)) | None => None end
                            end
               | Dset _ _ => None
               end
  end.
(** del file[path] *)
Fixpoint remove (p : list string) (n : node) : option node :=
  match p with
  | [] => None
  | x :: p' => match n with
               | Grp a l => match dget l x with
                            | None => None
                            | Some m => match p' with
                                        | [] => Some (Grp a (kdel x l))
                                        | _ => match remove p' m with Some m' => Some (Grp a (kset x m' l)) | None => None end
                                        end
                            end
               | Dset _ _ => None
               end
  end.
(** file.visit: every object below the root, members in the order of names, a group before its members. *)
Fixpoint visit (n : node) : list (list string * node) :=
  match n with
  | Dset _ _ => []
  | Grp _ l => (fix go (l : kids_t) : list (list string * node) :=
      match l with
      | [] => []
      | (x, m) :: t => (([x], m) :: map (fun q => (x :: fst q, snd q)) (visit m)) ++ go t
      end) l
  end.
Definition node_attrs (n : node) : attrs := match n with Dset _ a => a | Grp a _ => a end.

(** ** Writing into a group *)
Definition group := (attrs * kids_t)%type.
Definition G (A : Type) := group -> group * out A.
Definition gret {A} (a : A) : G A := fun g => (g, Ret a).
Definition gbind {A B} (m : G A) (k : A -> G B) : G B :=
  fun g => match m g with (g', Ret a) => k a g' | (g', Raise e) => (g', Raise e) end.
Local Notation "x <~ m ;; k" := (gbind m (fun x => k)) (at level 61, m at next level, right associativity).
Local Notation "m ;~ k" := (gbind m (fun _ => k)) (at level 61, right associativity).
Definition glift {A} (o : out A) : G A := fun g => (g, o).
Definition set_attr (k v : string) : G unit := fun g => ((dset (fst g) k v, snd g), Ret tt).
Definition create_dataset (name : string) (d : data) (a : attrs) : G unit :=
  fun g => if dmem (snd g) name then (g, Raise ValueError) else ((fst g, insert name (Dset d a) (snd g)), Ret tt).
(** A group is made, then filled; it stays, with what is in it, if filling it fails. *)
Definition create_group (name : string) (body : G unit) : G unit :=
  fun g => if dmem (snd g) name then (g, Raise ValueError)
           else let '(g', o) := body ([], []) in ((fst g, insert name (Grp (fst g') (snd g')) (snd g)), o).
(** for i, x in enumerate(l) *)
Fixpoint enum {A} (i : nat) (l : list A) (body : nat -> A -> G unit) : G unit :=
  match l with [] => gret tt | x :: t => body i x ;~ enum (S i) t body end.

(** ** The object that is saved *)
Record site := mkSite { st_atom : atom; st_position : V3 F; st_spin : option (V3 F); st_g : option F; st_charge : option F }.
Record spinham := mkSH { sh_cell : M3 F; sh_sites : list site; sh_ham : world; sh_spiral : option (V3 F); sh_cone : option (V3 F) }.

Definition vec (v : V3 F) : data := DVec [vx v; vy v; vz v].
Definition row1 (m : M3 F) : V3 F := mkV (mxx m) (mxy m) (mxz m).
Definition row2 (m : M3 F) : V3 F := mkV (myx m) (myy m) (myz m).
Definition row3 (m : M3 F) : V3 F := mkV (mzx m) (mzy m) (mzz m).
Definition int_of_bool (b : bool) : Z := if b then 1%Z else 0%Z.

(** *** dump_spinham_hdf5, 332-420 *)
(** 344-349 *)
Definition write_cell (m : M3 F) : G unit :=
  create_group "cell" (
    create_dataset "a1" (vec (row1 m)) [] ;~ create_dataset "a2" (vec (row2 m)) [] ;~ create_dataset "a3" (vec (row3 m)) [] ;~
    set_attr "units" "Angstrom").
(** 354-362; [spin_vector] and [g_factor] of an atom that has none: ValueError (wulfric) *)
Definition write_atom (i : nat) (s : site) : G unit :=
  create_group (decimal (i + 1)) (
    create_dataset "name" (DStr (a_name (st_atom s))) [] ;~
    create_dataset "position" (vec (st_position s)) [] ;~
    v <~ glift (of_option ValueError (st_spin s)) ;; create_dataset "spin" (vec v) [] ;~
    g <~ glift (of_option ValueError (st_g s)) ;; create_dataset "g-factor" (DNum g) [] ;~
    match st_charge s with Some q => create_dataset "charge" (DNum q) [] | None => gret tt end).
Definition nonempty {A} (l : list A) : bool := negb (Nat.eqb (List.length l) 0).
(** 365-382; unset properties: NotationError *)
Definition write_notation (h : @ham F) : G unit :=
  create_group "notation" (
    sn <~ glift (of_option NotationError (h_sn h)) ;; create_dataset "spin-normalized" (DInt (int_of_bool sn)) [] ;~
    (if nonempty (h_exch h) then
       dc <~ glift (of_option NotationError (h_dc h)) ;; create_dataset "double-counting" (DInt (int_of_bool dc)) [] ;~
       ef <~ glift (of_option NotationError (h_ef h)) ;; create_dataset "exchange-factor" (DNum ef) []
     else gret tt) ;~
    (if nonempty (h_ons h) then
       of_ <~ glift (of_option NotationError (h_of h)) ;; create_dataset "on-site-factor" (DNum of_) []
     else gret tt)).
(** The matrix of a parameter: [parameter.matrix]. Every key refers to an object of the store. *)
Definition matrix_of (w : world) (l : loc) : M3 F := nth l (w_store w) (mkM 0 0 0 0 0 0 0 0 0).
Definition ints (c : cell3) : data := let '(i, j, k) := c in DInts [i; j; k].
(** 388-393 *)
Definition write_bond (w : world) (i : nat) (p : bkey * loc) : G unit :=
  create_group (decimal (i + 1)) (
    create_dataset "atom-1" (DStr (a_name (b_from (fst p)))) [] ;~ create_dataset "atom-2" (DStr (a_name (b_to (fst p)))) [] ;~
    create_dataset "ijk" (ints (b_cell (fst p))) [] ;~ create_dataset "matrix" (DMat (matrix_of w (snd p))) []).
(** 399-402 *)
Definition write_on_site (w : world) (i : nat) (p : atom * loc) : G unit :=
  create_group (decimal (i + 1)) (
    create_dataset "atom" (DStr (a_name (fst p))) [] ;~ create_dataset "matrix" (DMat (matrix_of w (snd p))) []).
(** 341-417: everything that goes into the group. A dataset and its attribute (405-408, 412-415) are written in one step. *)
Definition write_spinham (s : spinham) : G unit :=
  let w := sh_ham s in let h := w_ham w in
  set_attr "type" "SpinHamiltonian" ;~
  write_cell (sh_cell s) ;~
  create_group "atoms" (enum 0 (sh_sites s) write_atom) ;~
  (if nonempty (h_exch h) || nonempty (h_ons h) then write_notation h else gret tt) ;~
  (if nonempty (h_exch h) then
     create_group "exchange" (set_attr "units" "milli-electron-Volt" ;~ enum 0 (h_exch h) (write_bond w))
   else gret tt) ;~
  (if nonempty (h_ons h) then
     create_group "on-site" (set_attr "units" "milli-electron-Volt" ;~ enum 0 (h_ons h) (write_on_site w))
   else gret tt) ;~
  match sh_spiral s with Some q => create_dataset "spiral-vector" (vec q) [("units", "Relative")]%string | None => gret tt end ;~
  match sh_cone s with Some n => create_dataset "cone-axis" (vec n) [("units", "Absolute")]%string | None => gret tt end.
(** 332-342: the file after the call, and how the call ended. *)
Definition dump (s : spinham) (path : list string) (overwrite : bool) (file : node) : node * out unit :=
  let '(g, o) := write_spinham s ([], []) in
  let new := Grp (fst g) (snd g) in
  match create path new file with
  | Some file' => (file', o)
  | None =>
      if overwrite then
        match remove path file with
        | None => (file, Raise KeyError)
        | Some file1 => match create path new file1 with
                        | Some file' => (file', o)
                        | None => (file1, Raise ValueError)
                        end
        end
      else (file, Raise FileExistsError)
  end.

(** *** load_spinham_hdf5, 74-296 *)
Local Notation "x <-- m ;; k" := (obind m (fun x => k)) (at level 61, m at next level, right associativity).
Definition kid (n : node) (name : string) : out node :=
  match n with Grp _ l => of_option KeyError (dget l name) | Dset _ _ => Raise ValueError end.
Definition members (n : node) : out kids_t := match n with Grp _ l => Ret l | Dset _ _ => Raise ValueError end.
(** [name in group] *)
Definition has (n : node) (name : string) : bool := match n with Grp _ l => dmem l name | Dset _ _ => false end.
Definition attr (n : node) (k : string) : out string := of_option KeyError (dget (node_attrs n) k).
Definition get_str (n : node) : out string := match n with Dset (DStr s) _ => Ret s | _ => Raise ValueError end.
Definition get_vec (n : node) : out (V3 F) := match n with Dset (DVec [a; b; c]) _ => Ret (mkV a b c) | _ => Raise ValueError end.
Definition get_mat (n : node) : out (M3 F) := match n with Dset (DMat m) _ => Ret m | _ => Raise ValueError end.
Definition get_ints (n : node) : out cell3 := match n with Dset (DInts [a; b; c]) _ => Ret (a, b, c) | _ => Raise ValueError end.
Definition get_num (n : node) : out F := match n with Dset (DNum x) _ => Ret x | _ => Raise ValueError end.
(** [bool(new_value)] of an integer *)
Definition get_bool (n : node) : out bool := match n with Dset (DInt z) _ => Ret (negb (Z.eqb z 0)) | _ => Raise ValueError end.

(** 77-113 *)
Definition is_spinham (n : node) : bool :=
  match dget (node_attrs n) "type"%string with Some t => String.eqb (str_lower t) "spinhamiltonian" | None => false end.
Definition detect (file : node) : out (list string) :=
  match filter (fun p => is_spinham (snd p)) (visit file) with
  | [] => Raise RuntimeError
  | [p] => Ret (fst p)
  | _ => Raise RuntimeError
  end.
(** 120-132; the error message of the third case asks for a member "units" of the group: KeyError *)
Definition load_cell (root : node) : out (M3 F) :=
  cell <-- kid root "cell" ;;
  a <-- obind (kid cell "a1") get_vec ;; b <-- obind (kid cell "a2") get_vec ;; c <-- obind (kid cell "a3") get_vec ;;
  u <-- attr cell "units" ;;
  conv <-- (if starts_with "bohr" (str_lower u) then Ret (c_bohr_radius X / LENGTH X)
            else if starts_with "angstrom" (str_lower u) then Ret (c_angstrom X / LENGTH X)
            else obind (kid cell "units") (fun _ => Raise UnboundLocalError)) ;;
  Ret (mscale conv (rows a b c)).
(** 137-156; [_verify_atom_name] only logs, but looks at the first letter: IndexError for the empty name *)
Definition load_atom (i : nat) (atom_group : node) : out site :=
  name <-- obind (kid atom_group "name") get_str ;;
  _ <-- (if String.eqb name "" then Raise IndexError else Ret tt) ;;
  pos <-- obind (kid atom_group "position") get_vec ;;
  spin <-- obind (kid atom_group "spin") get_vec ;;
  g <-- obind (kid atom_group "g-factor") get_num ;;
  charge <-- (if has atom_group "charge" then obind (kid atom_group "charge") (fun n => obind (get_num n) (fun q => Ret (Some q)))
              else Ret None) ;;
  Ret (mkSite (mkAtom name (Z.of_nat i + 1)) pos (Some spin) (Some g) charge).
Fixpoint load_atoms (i : nat) (l : kids_t) : out (list site) :=
  match l with [] => Ret [] | (_, n) :: t => s <-- load_atom i n ;; r <-- load_atoms (S i) t ;; Ret (s :: r) end.
Definition length_of_spin (s : site) : list (atom * F) :=
  match st_spin s with Some v => [(st_atom s, x_norm X v)] | None => [] end.
Definition crystal (l : list site) : world := mkW [] (new_ham (map st_atom l) (flat_map length_of_spin l)).
(** 158-198 *)
Local Open Scope py_scope.
Definition load_notation (root : node) : M unit :=
  if has root "exchange" || has root "on-site" then
    notation_ <- lift (kid root "notation") ;;
    sn <- lift (obind (kid notation_ "spin-normalized") get_bool) ;; set_spin_normalized sn ;;;
    (if has root "exchange" then
       dc <- lift (obind (kid notation_ "double-counting") get_bool) ;; set_double_counting dc ;;;
       ef <- lift (obind (kid notation_ "exchange-factor") get_num) ;; set_exchange_factor ef
     else ret tt) ;;;
    (if has root "on-site" then
       of_ <- lift (obind (kid notation_ "on-site-factor") get_num) ;; set_on_site_factor of_
     else ret tt)
  else ret tt.
(** 203-217, 243-257 *)
Definition energy_units (u : string) : out F :=
  let u := str_lower u in
  if String.eqb u "rydberg" then Ret (c_rydberg_energy X / ENERGY X)
  else if String.eqb u "joule" then Ret (1 / ENERGY X)
  else if String.eqb u "kelvin" then Ret (c_k_boltzmann X / ENERGY X)
  else if String.eqb u "electron-volt" then Ret (c_electron_volt X / ENERGY X)
  else if String.eqb u "milli-electron-volt" then Ret (c_milli X * c_electron_volt X / ENERGY X)
  else Raise ValueError.
(** An atom that is not found (ValueError) or ambiguous: the log message computes [index+1] with the string [index]: TypeError. *)
Definition is_value_error (e : exn) : bool := match e with ValueError => true | _ => false end.
Definition find_atom (name : string) : M atom := try_catch (get_atom name) is_value_error (raise TypeError).
(** 219-236 *)
Definition load_bond (conv : F) (p : string * node) : M unit :=
  let bond := snd p in
  n1 <- lift (obind (kid bond "atom-1") get_str) ;; a1 <- find_atom n1 ;;
  n2 <- lift (obind (kid bond "atom-2") get_str) ;; a2 <- find_atom n2 ;;
  R <- lift (obind (kid bond "ijk") get_ints) ;;
  m <- lift (obind (kid bond "matrix") get_mat) ;;
  add_exchange_new (AObj a1) (AObj a2) R (Some (p_init (Some (mscale conv m)) None None None)).
Definition load_exchange (root : node) : M unit :=
  if has root "exchange" then
    g <- lift (kid root "exchange") ;;
    conv <- lift (obind (attr g "units") energy_units) ;;
    l <- lift (members g) ;;
    for_each l (load_bond conv)
  else ret tt.
(** 259-269 *)
Definition load_site_parameter (conv : F) (p : string * node) : M unit :=
  n <- lift (obind (kid (snd p) "atom") get_str) ;; a <- find_atom n ;;
  m <- lift (obind (kid (snd p) "matrix") get_mat) ;;
  add_on_site_new (AObj a) (Some (p_init (Some (mscale conv m)) None None None)).
Definition load_on_site (root : node) : M unit :=
  if has root "on-site" then
    g <- lift (kid root "on-site") ;;
    conv <- lift (obind (attr g "units") energy_units) ;;
    l <- lift (members g) ;;
    for_each l (load_site_parameter conv)
  else ret tt.
(** 272-284; hamiltonian.py:148-160 *)
Definition load_spiral (cell : M3 F) (root : node) : out (option (V3 F)) :=
  if has root "spiral-vector" then
    n <-- kid root "spiral-vector" ;; q <-- get_vec n ;; u <-- attr n "units" ;;
    let u := str_lower u in
    if String.eqb u "absolute" then
      r <-- of_option LinAlgError (x_reciprocal X cell) ;; q' <-- of_option LinAlgError (x_abs_to_rel X r q) ;; Ret (Some q')
    else if String.eqb u "relative" then Ret (Some q) else Raise ValueError
  else Ret None.
(** 287-295; hamiltonian.py:176-190 *)
Definition load_cone (cell : M3 F) (root : node) : out (option (V3 F)) :=
  if has root "cone-axis" then
    n <-- kid root "cone-axis" ;; v <-- get_vec n ;; u <-- attr n "units" ;;
    let u := str_lower u in
    v' <-- (if String.eqb u "relative" then Ret (vmat v cell) else if String.eqb u "absolute" then Ret v else Raise ValueError) ;;
    c <-- set_cone_axis X (vlist v') ;; Ret (Some c)
  else Ret None.
Definition load_group (root : node) : out spinham :=
  cell <-- load_cell root ;;
  l <-- obind (kid root "atoms") members ;;
  sites <-- load_atoms 0 l ;;
  w1 <-- run_out (load_notation root) (crystal sites) ;;
  w2 <-- run_out (load_exchange root) w1 ;;
  w3 <-- run_out (load_on_site root) w2 ;;
  spiral <-- load_spiral cell root ;;
  cone <-- load_cone cell root ;;
  Ret (mkSH cell sites w3 spiral cone).
Definition load (groupname : option (list string)) (file : node) : out spinham :=
  p <-- match groupname with Some p => Ret p | None => detect file end ;;
  n <-- of_option KeyError (lookup file p) ;;
  load_group n.
End Hdf5.
