(** Model of [MatrixParameter] (src/magnopy/spinham/parameter.py).

    A MatrixParameter object is a mutable cell holding [_matrix]; this file models
    the functions on its value (the matrix). Object identity (sharing of one
    MatrixParameter between several owners) is modelled in Hamiltonian.v.

    Simplification: exact arithmetic; [_iso], [_aniso], [_dmi] (parameter.py:58-60) are
    written once by the constructor and never read, so they are not modelled. *)
From Coq Require Import List.
From Verif.Base Require Import Scalar Linear3.
Import ListNotations.
Local Open Scope fld_scope.

Section ParameterModel.
Context {F : Type} {SF : Scalar F}.

(** Array-like input of [np.array(x, dtype=float)], as nested lists: [None] when the shape
    is not (3, 3) (parameter.py:136-144; a ragged list makes np.array raise, which the
    code turns into the same ValueError). *)
Definition array33 (rows : list (list F)) : option (M3 F) :=
  match rows with
  | [[a; b; c]; [d; e; f]; [g; h; i]] => Some (mkM a b c d e f g h i)
  | _ => None
  end.

(** Shape (3,) (parameter.py:397-404). *)
Definition array3 (row : list F) : option (V3 F) :=
  match row with [a; b; c] => Some (mkV a b c) | _ => None end.

(** [T], parameter.py:91-105: a new object with the transposed matrix. *)
Definition p_T (m : M3 F) : M3 F := mtrans m.

(** [symm_matrix], parameter.py:149-171. *)
Definition p_symm (m : M3 F) : M3 F := mdivs (madd m (mtrans m)) f2.

(** [asymm_matrix], parameter.py:176-198 (also [dmi_matrix], 416-442). *)
Definition p_asymm (m : M3 F) : M3 F := mdivs (msub m (mtrans m)) f2.
Definition p_dmi_matrix := p_asymm.

(** [iso], parameter.py:206-227. *)
Definition p_iso (m : M3 F) : F := mtrace (p_symm m) / f3.

(** [iso_matrix], parameter.py:237-261. *)
Definition p_iso_matrix (m : M3 F) : M3 F := mscale (p_iso m) mid.

(** [aniso], parameter.py:266-298. *)
Definition p_aniso (m : M3 F) : M3 F := msub (p_symm m) (mscale (p_iso m) mid).

(** [aniso_diagonal], parameter.py:315-337. *)
Definition p_aniso_diagonal (m : M3 F) : V3 F :=
  let a := p_aniso m in mkV (mxx a) (myy a) (mzz a).

(** [aniso_diagonal_matrix], parameter.py:339-363. *)
Definition p_aniso_diagonal_matrix (m : M3 F) : M3 F :=
  let a := p_aniso m in mkM (mxx a) 0 0 0 (myy a) 0 0 0 (mzz a).

(** [dmi], parameter.py:368-395. *)
Definition p_dmi (m : M3 F) : V3 F :=
  let a := p_asymm m in mkV (myz a) (mzx a) (mxy a).

(** [iso.setter], parameter.py:232-235. *)
Definition p_set_iso (m : M3 F) (new_iso : F) : M3 F :=
  let d := new_iso - p_iso m in madd m (mscale d mid).

(** [dmi.setter] after the shape check, parameter.py:405-414. *)
Definition p_set_dmi (m : M3 F) (new_dmi : V3 F) : M3 F :=
  let d := vsub new_dmi (p_dmi m) in
  madd m (mkM 0 (vz d) (- vy d)
              (- vz d) 0 (vx d)
              (vy d) (- vx d) 0).

(** [aniso.setter] after the shape check, parameter.py:311-313. *)
Definition p_set_aniso (m : M3 F) (new_aniso : M3 F) : M3 F :=
  let d := msub new_aniso (p_aniso m) in madd m d.

(** [__init__], parameter.py:56-70; arguments after their shape checks. Order: matrix, iso,
    dmi, aniso. *)
Definition p_init (matrix : option (M3 F)) (iso : option F) (aniso : option (M3 F)) (dmi : option (V3 F)) : M3 F :=
  let m := mzero in
  let m := match matrix with Some x => x | None => m end in
  let m := match iso with Some x => p_set_iso m x | None => m end in
  let m := match dmi with Some x => p_set_dmi m x | None => m end in
  let m := match aniso with Some x => p_set_aniso m x | None => m end in
  m.

(** Element getters and setters, parameter.py:494-735; [i], [j] in 0..2. *)
Definition p_get (m : M3 F) (i j : nat) : F :=
  match i, j with
  | 0, 0 => mxx m | 0, 1 => mxy m | 0, _ => mxz m
  | 1, 0 => myx m | 1, 1 => myy m | 1, _ => myz m
  | _, 0 => mzx m | _, 1 => mzy m | _, _ => mzz m
  end.
Definition p_put (m : M3 F) (i j : nat) (v : F) : M3 F :=
  let '(mkM a b c d e f g h k) := m in
  match i, j with
  | 0, 0 => mkM v b c d e f g h k | 0, 1 => mkM a v c d e f g h k | 0, _ => mkM a b v d e f g h k
  | 1, 0 => mkM a b c v e f g h k | 1, 1 => mkM a b c d v f g h k | 1, _ => mkM a b c d e v g h k
  | _, 0 => mkM a b c d e f v h k | _, 1 => mkM a b c d e f g v k | _, _ => mkM a b c d e f g h v
  end.

(** Arithmetic, parameter.py:742-850. Each returns a new object. Division by zero (inf/nan
    in numpy) is outside the model: [None]. *)
Definition p_add (a b : M3 F) : M3 F := madd a b.
Definition p_sub (a b : M3 F) : M3 F := msub a b.
Definition p_mul (a : M3 F) (c : F) : M3 F := mscale c a.
Definition p_div (a : M3 F) (c : F) : option (M3 F) := if feq_dec c 0 then None else Some (mdivs a c).
Definition p_neg (a : M3 F) : M3 F := mopp a.
Definition p_pos (a : M3 F) : M3 F := a.

(** [__eq__], parameter.py:853-862, both operands 3x3. *)
Definition p_eqb (a b : M3 F) : bool := if M3_eq_dec a b then true else false.

(** [__array_interface__] based [@], parameter.py:775-783: [self.matrix @ v]. *)
Definition p_matmul_vec (a : M3 F) (v : V3 F) : V3 F := mvec a v.

(** [rel_dmi], parameter.py:467-489, squared to stay in the field:
    (dmi_module / |iso|)^2; [None] when iso = 0 (division by zero). *)
Definition p_rel_dmi_sq (m : M3 F) : option F :=
  if feq_dec (p_iso m) 0 then None
  else Some (dot (p_dmi m) (p_dmi m) / (p_iso m * p_iso m)).

End ParameterModel.
