(** Model of the ground state attributes of SpinHamiltonian (src/magnopy/spinham/hamiltonian.py:128-190).

    Numbers are real; [np.allclose] has numpy's default tolerances (rtol 1e-5, atol 1e-8). *)
From Coq Require Import List Reals.
From Verif.Base Require Import Scalar ScalarR Linear3.
From Verif.Model Require Import Hamiltonian.
Import ListNotations.
Local Open Scope R_scope.

(** What [np.array(x, dtype=float)] makes of the argument: an exception, a one-dimensional array, an array of
    another dimension. *)
Inductive array_arg := NotArray | Array1 (l : list R) | ArrayN.

(** hamiltonian.py:75-76: [_spiral_vector] and [_cone_axis]. *)
Record ground := mkG { g_spiral : option (V3 R); g_cone : option (V3 R) }.
Definition new_ground : ground := mkG None None.

(** [np.allclose(v, np.zeros(3))]: |v_i - 0| <= atol + rtol * |0| *)
Definition atol : R := 1 / 100000000.
Definition rtol : R := 1 / 100000.
Definition close (a b : R) : bool := if Rle_dec (Rabs (a - b)) (atol + rtol * Rabs b) then true else false.
Definition allclose0 (v : V3 R) : bool := (close (vx v) 0 && close (vy v) 0 && close (vz v) 0)%bool.
(** [np.linalg.norm] *)
Definition norm (v : V3 R) : R := sqrt (vx v * vx v + vy v * vy v + vz v * vz v).

(** 147-160 *)
Definition set_spiral_vector (g : ground) (x : array_arg) : ground * out unit :=
  match x with
  | NotArray => (g, Raise ValueError)
  | Array1 [a; b; c] => (mkG (Some (mkV a b c)) (g_cone g), Ret tt)
  | _ => (g, Raise ValueError)
  end.

(** 175-190 *)
Definition set_cone_axis (g : ground) (x : array_arg) : ground * out unit :=
  match x with
  | NotArray => (g, Raise ValueError)
  | Array1 [a; b; c] =>
      let v := mkV a b c in
      if allclose0 v then (g, Raise ValueError)
      else (mkG (g_spiral g) (Some (mkV (a / norm v) (b / norm v) (c / norm v))), Ret tt)
  | _ => (g, Raise ValueError)
  end.

(** A sequence of assignments, going on after exceptions. *)
Inductive assignment := SetSpiral (x : array_arg) | SetCone (x : array_arg).
Definition assign (g : ground) (a : assignment) : ground :=
  match a with SetSpiral x => fst (set_spiral_vector g x) | SetCone x => fst (set_cone_axis g x) end.
Definition assigns (l : list assignment) : ground := fold_left assign l new_ground.
