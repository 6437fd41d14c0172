(** Model of the text loader (src/magnopy/io/txt/internal.py:317-1025, 1100-1158).

    The section readers get the lines of their section (the slice stored in [sections]). Exceptions are
    values; a Python name that is read before it was bound raises UnboundLocalError.

    Outside /repo and abstract here ([externals]): conversion of words to numbers, sine and cosine of
    an angle in degrees, the vector norm, wulfric's absolute_to_relative and reciprocal_cell, numpy's closeness
    to zero; the SI constants of units/si.py are fields, so that statements hold for any values.
    wulfric's [add_atom] gives consecutive indices 1, 2, ... to atoms without one.

    Simplification: inf and nan (accepted by [float]) are not numbers of the model; a division by zero in numpy
    stops with [NonFinite]. *)
From Coq Require Import String Ascii List Bool ZArith Arith.
From Verif.Base Require Import Scalar Linear3 PyDict PyString PyText.
From Verif.Model Require Import MatrixParam Hamiltonian TxtVerify.
Import ListNotations.

Record externals (F : Type) := {
  x_float : string -> option F;                  (* float(word), None: ValueError *)
  x_int : string -> option Z;                    (* int(word) *)
  x_sin : F -> F; x_cos : F -> F;                (* np.sin(x * TORADIANS), np.cos(x * TORADIANS) *)
  x_norm : V3 F -> F;                            (* np.linalg.norm *)
  x_close0 : V3 F -> bool;                       (* np.allclose(v, np.zeros(3)) *)
  x_abs_to_rel : M3 F -> V3 F -> option (V3 F);  (* wulfric.absolute_to_relative; None: singular cell *)
  x_reciprocal : M3 F -> option (M3 F);          (* Lattice.reciprocal_cell *)
  c_electron_volt : F; c_angstrom : F; c_k_boltzmann : F; c_bohr_radius : F; c_rydberg_energy : F; c_milli : F
}.
Arguments x_float {F}. Arguments x_int {F}. Arguments x_sin {F}. Arguments x_cos {F}. Arguments x_norm {F}.
Arguments x_close0 {F}. Arguments x_abs_to_rel {F}. Arguments x_reciprocal {F}. Arguments c_electron_volt {F}.
Arguments c_angstrom {F}. Arguments c_k_boltzmann {F}. Arguments c_bohr_radius {F}. Arguments c_rydberg_energy {F}.
Arguments c_milli {F}.

Section Read.
Context {F : Type} {SF : Scalar F}.
Variable X : externals F.
Local Open Scope fld_scope.
Notation M := (@M F).
Notation world := (@world F).

(** ** Exceptions as values *)
Definition obind {A B} (m : out A) (k : A -> out B) : out B := match m with Ret a => k a | Raise e => Raise e end.
Local Notation "x <-- m ;; k" := (obind m (fun x => k)) (at level 61, m at next level, right associativity).
Definition of_option {A} (e : exn) (o : option A) : out A := match o with Some a => Ret a | None => Raise e end.

(** float(w), int(w), l[i] *)
Definition py_float (w : string) : out F := of_option ValueError (x_float X w).
Definition py_int (w : string) : out Z := of_option ValueError (x_int X w).
Definition item {A} (l : list A) (n : nat) : out A := of_option IndexError (nth_error l n).
(** [float(x) for x in ws] *)
Fixpoint py_floats (ws : list string) : out (list F) :=
  match ws with [] => Ret [] | w :: t => x <-- py_float w ;; r <-- py_floats t ;; Ret (x :: r) end.
(** unpacking of an iterable into exactly so many names, or a row of an array: ValueError otherwise *)
Definition three {A} (l : list A) : out (A * A * A) :=
  match l with [a; b; c] => Ret (a, b, c) | _ => Raise ValueError end.

(** units/inside.py *)
Definition LENGTH : F := c_angstrom X.
Definition ENERGY : F := c_milli X * c_electron_volt X.

(** ** Cell, internal.py:317-419 *)
Definition length_units (u : string) : out F :=
  if starts_with "b" u then Ret (c_bohr_radius X / LENGTH)
  else if starts_with "a" u then Ret (c_angstrom X / LENGTH)
  else Raise UnboundLocalError.
Definition read_row (line : string) : out (V3 F) :=
  r <-- py_floats (firstn 3 (py_split line)) ;; t <-- three r ;;
  let '(a, b, c) := t in Ret (mkV a b c).
(** [cell *= scale]: the three components of every row are multiplied (broadcast along rows). *)
Definition scale_row (s v : V3 F) : V3 F := mkV (vx v * vx s) (vy v * vy s) (vz v * vz s).
Definition rows (a b c : V3 F) : M3 F := mkM (vx a) (vy a) (vz a) (vx b) (vy b) (vz b) (vx c) (vy c) (vz c).
Definition fabs (x : F) : F := if fltb x 0 then - x else x.
Definition read_scale (cell : M3 F) (line : string) : out (V3 F) :=
  match py_split line with
  | [w] => s <-- py_float w ;;
           s' <-- (if fltb s 0 then
                     if feq_dec (mdet cell) 0 then Raise NonFinite else Ret (fabs s / fabs (mdet cell))
                   else Ret s) ;;
           Ret (mkV (1 * s') (1 * s') (1 * s'))
  | [w1; w2; w3] => a <-- py_float w1 ;; b <-- py_float w2 ;; c <-- py_float w3 ;; Ret (mkV a b c)
  | _ => Raise TypeError           (* a list of another length: the multiplication below cannot broadcast *)
  end.
Definition read_cell (lines : list string) : out (M3 F * V3 F) :=
  l0 <-- item lines 0 ;;
  u <-- (match py_split l0 with
         | [_] => Ret "Angstrom"%string
         | [_; u] => Ret u
         | _ => Raise UnboundLocalError
         end) ;;
  conv <-- length_units (str_lower u) ;;
  start <-- (if Nat.eqb (List.length lines) 4 then Ret 1%nat
             else if Nat.eqb (List.length lines) 5 then Ret 2%nat else Raise UnboundLocalError) ;;
  r1 <-- obind (item lines start) read_row ;;
  r2 <-- obind (item lines (start + 1)) read_row ;;
  r3 <-- obind (item lines (start + 2)) read_row ;;
  let a := vscale conv r1 in let b := vscale conv r2 in let c := vscale conv r3 in
  scale <-- (if Nat.eqb (List.length lines) 5 then obind (item lines 1) (read_scale (rows a b c)) else Ret (mkV 1 1 1)) ;;
  Ret (rows (scale_row scale a) (scale_row scale b) (scale_row scale c), scale).

(** ** Atoms, internal.py:422-562 *)
(** What is handed to wulfric's [add_atom]; the position in relative coordinates. *)
Record atom_data := mkAD { ad_name : string; ad_position : V3 F; ad_charge : F; ad_g : F; ad_spin : V3 F }.

(** [float(line[data_header.index(key)])] *)
Definition column (header ws : list string) (key : string) : out F :=
  n <-- of_option ValueError (index_of key header) ;; w <-- item ws n ;; py_float w.
Definition read_position (cell : M3 F) (scale : V3 F) (conv : F) (header ws : list string) : out (V3 F) :=
  if mem_str "r1" header then
    a <-- column header ws "r1" ;; b <-- column header ws "r2" ;; c <-- column header ws "r3" ;; Ret (mkV a b c)
  else
    x <-- column header ws "x" ;; y <-- column header ws "y" ;; z <-- column header ws "z" ;;
    of_option LinAlgError (x_abs_to_rel X cell
      (mkV (x * vx scale * conv) (y * vy scale * conv) (z * vz scale * conv))).
Definition read_spin (header ws : list string) : out (V3 F) :=
  if mem_str "sx" header then
    a <-- column header ws "sx" ;; b <-- column header ws "sy" ;; c <-- column header ws "sz" ;; Ret (mkV a b c)
  else if mem_str "sp" header then
    phi <-- column header ws "sp" ;; theta <-- column header ws "st" ;; s <-- column header ws "s" ;;
    Ret (mkV (s * x_sin X theta * x_cos X phi) (s * x_sin X theta * x_sin X phi) (s * x_cos X theta))
  else if mem_str "s" header then
    s <-- column header ws "s" ;; Ret (mkV 0 0 s)
  else Ret (mkV 0 0 0).
Definition read_atom (cell : M3 F) (scale : V3 F) (conv : F) (header : list string) (line : string) : out atom_data :=
  let ws := py_split line in
  n <-- of_option ValueError (index_of "name" header) ;;
  name <-- item ws n ;;
  pos <-- read_position cell scale conv header ws ;;
  charge <-- (if mem_str "q" header then column header ws "q" else Ret 0) ;;
  g <-- (if mem_str "g" header then column header ws "g" else Ret f2) ;;
  spin <-- read_spin header ws ;;
  Ret (mkAD name pos charge g spin).
Fixpoint read_atom_lines (cell : M3 F) (scale : V3 F) (conv : F) (header : list string) (lines : list string) : out (list atom_data) :=
  match lines with
  | [] => Ret []
  | l :: t => a <-- read_atom cell scale conv header l ;; r <-- read_atom_lines cell scale conv header t ;; Ret (a :: r)
  end.
Definition atoms_units (l0 : string) : out F :=
  let u := match py_split (str_lower l0) with [_; u] => u | _ => "relative"%string end in
  if starts_with "r" u then Ret 1
  else if starts_with "b" u then Ret (c_bohr_radius X / LENGTH)
  else if starts_with "a" u then Ret (c_angstrom X / LENGTH)
  else Raise UnboundLocalError.
Definition read_atoms (cell : M3 F) (scale : V3 F) (lines : list string) : out (list atom_data) :=
  l0 <-- item lines 0 ;; conv <-- atoms_units l0 ;;
  l1 <-- item lines 1 ;;
  read_atom_lines cell scale conv (py_split (str_lower l1)) (skipn 2 lines).

(** The crystal made of the atoms: indices 1, 2, ...; [Atom.spin] is the length of the spin vector. *)
Fixpoint number_atoms (n : Z) (l : list atom_data) : list (atom * atom_data) :=
  match l with [] => [] | a :: t => (mkAtom (ad_name a) n, a) :: number_atoms (n + 1)%Z t end.
Definition crystal_of (l : list atom_data) : world :=
  mkW [] (new_ham (map fst (number_atoms 1 l)) (map (fun p => (fst p, x_norm X (ad_spin (snd p)))) (number_atoms 1 l))).

(** ** Notation, internal.py:565-602 *)
Definition lift {A} (o : out A) : M A := fun w => (w, o).
Local Open Scope py_scope.
Definition read_bool (line : string) : M bool :=
  v <- lift (item (py_split line) 1) ;; ret (mem_str (str_lower v) true_keywords).
Definition read_number (line : string) : M F := v <- lift (item (py_split line) 1) ;; lift (py_float v).
Definition read_notation_line (line : string) : M unit :=
  let l := str_lower line in
  if starts_with "s" l then b <- read_bool line ;; set_spin_normalized b
  else if starts_with "d" l then b <- read_bool line ;; set_double_counting b
  else if starts_with "e" l then x <- read_number line ;; set_exchange_factor x
  else if starts_with "o" l then x <- read_number line ;; set_on_site_factor x
  else ret tt.
Definition read_notation (lines : list string) : M unit := for_each (tl lines) read_notation_line.

(** ** Exchange, internal.py:605-705 *)
(** The word that names the units, 632-638, 808-815. *)
Definition units_word (l0 : string) : string := nth 1 (py_split (str_lower l0)) "meV"%string.
(** 640-672: ENERGY_UNITS (648) is not defined in the module. *)
Definition exchange_units (u : string) : out F :=
  if starts_with "r" u then Ret (c_rydberg_energy X / ENERGY)
  else if starts_with "j" u then Raise NameError
  else if starts_with "k" u then Ret (c_k_boltzmann X / ENERGY)
  else if starts_with "e" u then Ret (c_electron_volt X / ENERGY)
  else if starts_with "m" u then Ret (c_milli X * c_electron_volt X / ENERGY)
  else Raise UnboundLocalError.

(** What the data lines of a bond have set so far: iso, matrix, symm, dmi. *)
Record bond_data := mkBD { bd_iso : option F; bd_matrix : option (M3 F); bd_symm : option (M3 F); bd_dmi : option (list F) }.

(** One data line, 751-766: the keywords are tested one after the other (the first letter decides, so at most one
    applies); a matrix takes the next three lines. Returns the data and the lines left. *)
Definition read_matrix (rest : list string) : out (M3 F * list string) :=
  match rest with
  | a :: b :: c :: rest' =>
      obind (obind (py_floats (py_split a)) three) (fun r1 => obind (obind (py_floats (py_split b)) three) (fun r2 =>
      obind (obind (py_floats (py_split c)) three) (fun r3 =>
      let '(a1, a2, a3) := r1 in let '(b1, b2, b3) := r2 in let '(c1, c2, c3) := r3 in
      Ret (mkM a1 a2 a3 b1 b2 b3 c1 c2 c3, rest'))))
  | _ => Raise IndexError
  end.
Definition read_bond_line (bd : bond_data) (l : string) (rest : list string) : out (bond_data * list string) :=
  let k := str_lower l in
  let ws := py_split l in
  if starts_with "i" k then obind (obind (item ws 1) py_float) (fun x => Ret (mkBD (Some x) (bd_matrix bd) (bd_symm bd) (bd_dmi bd), rest))
  else if starts_with "d" k then obind (py_floats (tl ws)) (fun d => Ret (mkBD (bd_iso bd) (bd_matrix bd) (bd_symm bd) (Some d), rest))
  else if starts_with "s" k then
    obind (py_floats (tl ws)) (fun s =>
      match s with
      | [sxx; syy; sxy; sxz; syz] =>
          Ret (mkBD (bd_iso bd) (bd_matrix bd) (Some (mkM sxx sxy sxz sxy syy syz sxz syz (- sxx - syy))) (bd_dmi bd), rest)
      | _ => Raise ValueError
      end)
  else if starts_with "m" k then
    obind (read_matrix rest) (fun p => Ret (mkBD (bd_iso bd) (Some (fst p)) (bd_symm bd) (bd_dmi bd), snd p))
  else Ret (bd, rest).
(** The keyword arguments of [add_exchange], parameter.py:56-70: a [dmi] of another length is a ValueError. *)
Definition bond_matrix (bd : bond_data) : option (M3 F) :=
  match bd_dmi bd with
  | None => Some (p_init (bd_matrix bd) (bd_iso bd) (bd_symm bd) None)
  | Some d => match array3 d with Some v => Some (p_init (bd_matrix bd) (bd_iso bd) (bd_symm bd) (Some v)) | None => None end
  end.
(** [_read_bond], 708-768: [add_exchange] is called after every data line (764-766); [units_conversion] is not
    used. [fuel] bounds the number of data lines. *)
Fixpoint read_bond_lines (fuel : nat) (n1 n2 : string) (R : cell3) (bd : bond_data) (lines : list string) : M unit :=
  match fuel, lines with
  | O, _ => ret tt
  | _, [] => ret tt
  | S fuel', l :: rest =>
      p <- lift (read_bond_line bd l rest) ;;
      add_exchange_new (AName n1) (AName n2) R (bond_matrix (fst p)) ;;;
      read_bond_lines fuel' n1 n2 R (fst p) (snd p)
  end.
(** [add_exchange] does not check the length of [ijk]; the verified header has three integers (others: ValueError
    here). *)
Definition read_bond (conv : F) (lines : list string) : M unit :=
  l0 <- lift (item lines 0) ;;
  match py_split l0 with
  | n1 :: n2 :: r =>
      match firstn 3 r with
      | [i; j; k] =>
          i' <- lift (py_int i) ;; j' <- lift (py_int j) ;; k' <- lift (py_int k) ;;
          read_bond_lines (List.length (tl lines)) n1 n2 (i', j', k') (mkBD None None None None) (tl lines)
      | _ => raise ValueError
      end
  | _ => raise ValueError
  end.
Definition read_exchange (lines : list string) : M unit :=
  l0 <- lift (item lines 0) ;;
  conv <- lift (exchange_units (units_word l0)) ;;
  for_each (split_runs is_subsep (tl lines)) (read_bond conv).

(** ** On-site, internal.py:771-880 *)
Definition on_site_units (u : string) : out F :=
  if starts_with "r" u then Ret (c_rydberg_energy X / ENERGY)
  else if starts_with "j" u then Ret (1 / ENERGY)
  else if starts_with "k" u then Ret (c_k_boltzmann X / ENERGY)
  else if starts_with "e" u then Ret (c_electron_volt X / ENERGY)
  else if starts_with "m" u then Ret (c_milli X * c_electron_volt X / ENERGY)
  else Raise UnboundLocalError.
(** [[float(lines[i].split()[j]) for j in range(6)]] and the matrix of 866-870. *)
Definition read_six (conv : F) (line : string) : out (M3 F) :=
  let ws := py_split line in
  if Nat.ltb (List.length ws) 6 then obind (py_floats ws) (fun _ => Raise IndexError)
  else obind (py_floats (firstn 6 ws)) (fun r =>
    match r with
    | [axx; ayy; azz; axy; axz; ayz] => Ret (mscale conv (mkM axx axy axz axy ayy ayz axz ayz azz))
    | _ => Raise ValueError
    end).
Fixpoint read_on_site_lines (conv : F) (name : option atom) (lines : list string) : M unit :=
  match lines, name with
  | [], None => ret tt
  | [], Some _ => raise IndexError
  | l :: t, None => if is_subsep l then read_on_site_lines conv None t
                    else a <- get_atom (py_strip l) ;; read_on_site_lines conv (Some a) t
  | l :: t, Some a => m <- lift (read_six conv l) ;; add_on_site_new (AObj a) (Some m) ;;;
                      read_on_site_lines conv None t
  end.
Definition read_on_site (lines : list string) : M unit :=
  l0 <- lift (item lines 0) ;;
  conv <- lift (on_site_units (units_word l0)) ;;
  read_on_site_lines conv None (tl lines).

(** ** Cone axis, internal.py:883-956, and hamiltonian.py:176-190 *)

(** [cone_axis] setter given an array of numbers. *)
Definition set_cone_axis (v : list F) : out (V3 F) :=
  match v with
  | [a; b; c] =>
      let n := mkV a b c in
      if x_close0 X n then Raise ValueError
      else if feq_dec (x_norm X n) 0 then Raise NonFinite
      else Ret (vscale (1 / x_norm X n) n)
  | _ => Raise ValueError
  end.
Definition vlist (v : V3 F) : list F := [vx v; vy v; vz v].
Definition relative_units (l0 : string) : out bool :=
  let u := nth 1 (py_split (str_lower l0)) "relative"%string in
  if starts_with "r" u then Ret true else if starts_with "a" u then Ret false else Raise UnboundLocalError.
Definition read_cone_axis (cell : M3 F) (lines : list string) : out (V3 F) :=
  obind (item lines 0) (fun l0 => obind (relative_units l0) (fun relative =>
  obind (obind (item lines 1) (fun l => py_floats (py_split l))) (fun n =>
  match n with
  | [alpha; beta] => set_cone_axis [x_cos X beta * x_sin X alpha; x_sin X beta * x_sin X alpha; x_cos X alpha]
  | [a; b; c] =>
      let v := mkV a b c in
      let v' := if relative then vmat v cell else v in
      if feq_dec (x_norm X v') 0 then Raise NonFinite
      else set_cone_axis (vlist (vscale (1 / x_norm X v') v'))
  | _ => Raise ValueError
  end))).

(** ** Spiral vector, internal.py:959-1024, and hamiltonian.py:148-160 *)
Definition read_spiral_vector (cell : M3 F) (lines : list string) : out (V3 F) :=
  obind (item lines 0) (fun l0 => obind (relative_units l0) (fun relative =>
  obind (obind (item lines 1) (fun l => py_floats (py_split l))) (fun q =>
  match q with
  | [a; b; c] =>
      let v := mkV a b c in
      if relative then obind (of_option LinAlgError (x_reciprocal X cell)) (fun r => Ret (vmat v r)) else Ret v
  | _ => Raise ValueError
  end))).

(** ** The file, internal.py:1100-1158 *)
Record loaded := mkL {
  ld_cell : M3 F; ld_atoms : list atom_data; ld_ham : world; ld_cone : option (V3 F); ld_spiral : option (V3 F) }.

Definition run_out {A} (m : M A) (w : world) : out world :=
  match m w with (w', Ret _) => Ret w' | (_, Raise e) => Raise e end.
Definition isfloat (w : string) : bool := match x_float X w with Some _ => true | None => false end.
Definition isint (w : string) : bool := match x_int X w with Some _ => true | None => false end.

(** Reading the verified sections, 1127-1158. *)
Definition load_sections (sections : dict string (list string)) : out loaded :=
  let sec n := of_option KeyError (dget sections n) in
  let has n := dmem sections n in
  obind (obind (sec "cell"%string) read_cell) (fun '(cell, scale) =>
  obind (obind (sec "atoms"%string) (read_atoms cell scale)) (fun atoms =>
  let w0 := crystal_of atoms in
  obind (if (has "exchange" || has "on-site")%string%bool then obind (sec "notation"%string) (fun l => run_out (read_notation l) w0) else Ret w0) (fun w1 =>
  obind (if has "exchange"%string then obind (sec "exchange"%string) (fun l => run_out (read_exchange l) w1) else Ret w1) (fun w2 =>
  obind (if has "on-site"%string then obind (sec "on-site"%string) (fun l => run_out (read_on_site l) w2) else Ret w2) (fun w3 =>
  obind (if has "cone-axis"%string then obind (sec "cone-axis"%string) (fun l => obind (read_cone_axis cell l) (fun n => Ret (Some n))) else Ret None) (fun cone =>
  obind (if has "spiral-vector"%string then obind (sec "spiral-vector"%string) (fun l => obind (read_spiral_vector cell l) (fun q => Ret (Some q))) else Ret None) (fun spiral =>
  Ret (mkL cell atoms w3 cone spiral)))))))).

(** [load_spinham_txt] of a file with the given lines (the result of [f.readlines()]). *)
Definition load_txt (content : list string) : out loaded :=
  obind (filter_txt_file (Some content) None) (fun p =>
  obind (verify_model_file isfloat isint (x_float X) true (fst p)) load_sections).

(** The verifier's verdict on a file: no errors. *)
Definition accepts (content : list string) : Prop :=
  exists found, verify_model_file isfloat isint (x_float X) true (fst (filter_lines 0 content)) = Ret found.

End Read.
