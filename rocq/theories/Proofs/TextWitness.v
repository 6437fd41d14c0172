(** Text files over the rationals: the outside world of the text reader as exact, executable functions, and
    sample files. *)
From Coq Require Import String Ascii List Bool ZArith NArith QArith Qcanon Lia.
From Verif.Base Require Import Scalar Linear3 QcLit PyDict PyString PyText.
From Verif.Model Require Import MatrixParam Hamiltonian TxtVerify TxtRead.
Import ListNotations.
Local Open Scope string_scope.

(** ** Decimal numbers: sign, digits, dot, digits *)
Definition digit (c : ascii) : option Z :=
  let n := N_of_ascii c in if (N.leb 48 n && N.leb n 57)%bool then Some (Z.of_N n - 48)%Z else None.
Fixpoint digits (s : string) (acc : Z) (scale : positive) (dot seen : bool) : option (Z * positive) :=
  match s with
  | EmptyString => if seen then Some (acc, scale) else None
  | String c s' =>
      match digit c with
      | Some d => digits s' (acc * 10 + d)%Z (if dot then scale * 10 else scale)%positive dot true
      | None => if (Ascii.eqb c "." && negb dot)%bool then digits s' acc scale true seen else None
      end
  end.
Definition unsigned (s : string) : option Q :=
  match digits s 0 1 false false with Some (n, d) => Some (n # d) | None => None end.
Definition decimal (s : string) : option Qc :=
  match s with
  | String "-" s' => option_map (fun x => Q2Qc (- x)) (unsigned s')
  | _ => option_map Q2Qc (unsigned s)
  end.
Definition integer (s : string) : option Z :=
  match s with
  | String "-" s' => match digits s' 0 1 true false with Some (n, _) => Some (- n)%Z | None => None end
  | _ => match digits s 0 1 true false with Some (n, _) => Some n | None => None end
  end.

(** ** Geometry *)
Definition qabs (x : Qc) : Qc := if fltb x f0 then fopp x else x.
(** Sum norm: exact for vectors along the axes. *)
Definition qnorm (v : V3 Qc) : Qc := fadd (fadd (qabs (vx v)) (qabs (vy v))) (qabs (vz v)).
Definition tiny : Qc := qq 1 100000000.
Definition qclose0 (v : V3 Qc) : bool := (fltb (qabs (vx v)) tiny && fltb (qabs (vy v)) tiny && fltb (qabs (vz v)) tiny)%bool.
(** Exact for 0 and 90 degrees. *)
Definition qsin (x : Qc) : Qc := if feq_dec x (q 90) then f1 else f0.
Definition qcos (x : Qc) : Qc := if feq_dec x (q 90) then f0 else f1.
Definition cofactors (m : M3 Qc) : M3 Qc :=
  let r1 := mrow1 m in let r2 := mrow2 m in let r3 := mrow3 m in
  let a := cross r2 r3 in let b := cross r3 r1 in let c := cross r1 r2 in
  mkM (vx a) (vy a) (vz a) (vx b) (vy b) (vz b) (vx c) (vy c) (vz c).
Definition qinv (m : M3 Qc) : option (M3 Qc) :=
  if feq_dec (mdet m) f0 then None else Some (mdivs (mtrans (cofactors m)) (mdet m)).
Definition qabs_to_rel (cell : M3 Qc) (v : V3 Qc) : option (V3 Qc) := option_map (vmat v) (qinv cell).
(** With 2 pi replaced by 44/7. *)
Definition qreciprocal (cell : M3 Qc) : option (M3 Qc) := option_map (fun i => mscale (qq 44 7) (mtrans i)) (qinv cell).

(** units/si.py *)
Definition QX : externals Qc := {|
  x_float := decimal; x_int := integer; x_sin := qsin; x_cos := qcos; x_norm := qnorm; x_close0 := qclose0;
  x_abs_to_rel := qabs_to_rel; x_reciprocal := qreciprocal;
  c_electron_volt := qq 1602176634 10000000000000000000000000000;
  c_angstrom := qq 1 10000000000;
  c_k_boltzmann := qq 1380649 100000000000000000000000000000;
  c_bohr_radius := qq 529177210903 10000000000000000000000;
  c_rydberg_energy := (qq 662607015 1000000000000000000000000000000000000000000 * q 299792458 * qq 10973731568160 1000000)%Qc;
  c_milli := qq 1 1000 |}.

(** ** Files *)
Definition line_sep := "==============================" .
Definition line_sub := "------------------------------".
Definition s_cell : list string := ["Cell Angstrom"; "2.0 0.0 0.0"; "0.0 3.0 0.0"; "0.0 0.0 5.0"].
Definition s_atoms : list string := ["Atoms"; "name r1 r2 r3 Sx Sy Sz"; "Cr1 0 0 0 0 0 1.5"; "Cr2 0.5 0.5 0 0 0 -1"].
Definition s_notation : list string := ["Notation"; "Spin-normalized NO"; "Double-counting True"; "Exchange-factor -0.5"; "On-site-factor -1"].
Definition s_exchange : list string :=
  ["Exchange meV"; line_sub; "Cr1 Cr2 0 0 0"; "Isotropic 2"; line_sub; "Cr1 Cr1 1 0 0"; "Matrix"; "1 2 3"; "4 5 6"; "7 8 9"; line_sub].
Definition s_on_site : list string := ["On-site meV"; "Cr2"; "1 2 3 4 5 6"; line_sub].
Definition s_cone : list string := ["Cone-axis absolute"; "0 0 2"].
Definition s_spiral : list string := ["Spiral-vector absolute"; "0 0 0.5"].
Definition s_extra : list string := ["Remarks"; "anything"].
Fixpoint join (secs : list (list string)) : list string :=
  match secs with [] => [] | s :: t => (s ++ line_sep :: join t)%list end.
Definition full_sections := [s_cell; s_atoms; s_notation; s_exchange; s_on_site; s_cone; s_spiral; s_extra].
Definition shuffled_sections := [s_spiral; s_on_site; s_extra; s_exchange; s_notation; s_atoms; s_cone; s_cell].

Definition returns {A} (o : out A) : bool := match o with Ret _ => true | _ => false end.
