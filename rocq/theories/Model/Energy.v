(** Energies of the class [Energy] (src/magnopy/spinham/energy.py:1027-1329) over the real numbers.

    Simplifications: exact real arithmetic; a vector of length zero cannot be normalized (numpy yields nan with a
    RuntimeWarning; the model stops with NonFinite). Arrays of three or more dimensions are not modelled. *)
From Coq Require Import List Bool Reals.
From Verif.Base Require Import Scalar ScalarR Linear3.
From Verif.Model Require Import MatrixParam Hamiltonian EnergyInit.
Import ListNotations.
Local Open Scope R_scope.

(** [np.linalg.norm] of a vector. *)
Definition norm (v : V3 R) : R := sqrt (dot v v).

(** [v /= np.linalg.norm(v)] *)
Definition unit (v : V3 R) : V3 R := mkV (vx v / norm v) (vy v / norm v) (vz v / norm v).

(** The argument [spin_orientation] after [np.array(..., dtype=float)]: shape (I, 3), shape (3,), anything else. *)
Inductive spins_arg := SRows (rows : list (V3 R)) | SVec (v : V3 R) | SBad.

(** Shape checks, energy.py:1047-1066 (1121-1130, 1155-1163; 1235-1244, 1269-1277). An empty list has shape (0,), so its
    last dimension is not 3. A vector of shape (3,) is accepted for one spin; for three spins it passes these
    checks as three numbers and [np.einsum] raises ValueError at the first bond. *)
Definition check_spins (E : @energy_obj R) (a : spins_arg) : out (list (V3 R)) :=
  match a with
  | SRows [] => Raise ValueError
  | SRows rows => if Nat.eqb (List.length (e_spins E)) (List.length rows) then Ret rows else Raise ValueError
  | SVec v => if Nat.eqb (List.length (e_spins E)) 1 then Ret [v] else Raise ValueError
  | SBad => Raise ValueError
  end.

(** [spin_orientation[i] /= norm] for every row, energy.py:1068-1069. *)
Fixpoint normalize_all (rows : list (V3 R)) : out (list (V3 R)) :=
  match rows with
  | [] => Ret []
  | v :: t => if Req_EM_T (norm v) 0 then Raise NonFinite
              else match normalize_all t with Ret r => Ret (unit v :: r) | Raise e => Raise e end
  end.

Definition obind {A B} (x : out A) (k : A -> out B) : out B := match x with Ret a => k a | Raise e => Raise e end.
Definition of_option {A} (x : option A) : out A := match x with Some a => Ret a | None => Raise IndexError end.

(** [ferro], energy.py:1027-1090. *)
Definition e_ferro (mu : R) (st : list (M3 R)) (E : energy_obj) (a : spins_arg) : out R :=
  obind (check_spins E a) (fun rows =>
  obind (normalize_all rows) (fun dirs =>
  obind (of_option (bonds_energy st E (fun _ J => J) dirs)) (fun x =>
  Ret (x + zeeman mu E dirs)))).

(** Shape checks of [cone_axis] and [spiral_vector], energy.py:1132-1153: [None] is any other shape. *)
Definition check_vector (v : option (V3 R)) : out (V3 R) := match v with Some x => Ret x | None => Raise ValueError end.
Definition normalize (v : V3 R) : out (V3 R) := if Req_EM_T (norm v) 0 then Raise NonFinite else Ret (unit v).

(** [so_prime], energy.py:1201-1203, 1322-1324: (I + IK_sq) applied to each spin. *)
Definition so_prime (K : M3 R) (dirs : list (V3 R)) : list (V3 R) :=
  map (mvec (madd mid (madd mid (mmul K K)))) dirs.

Definition cone_energy (C : M3 R -> M3 R -> R -> R -> M3 R)
    (mu : R) (st : list (M3 R)) (E : energy_obj) (a : spins_arg) (cone spiral_vector : option (V3 R)) : out R :=
  obind (check_vector cone) (fun n0 =>
  obind (check_vector spiral_vector) (fun q =>
  obind (check_spins E a) (fun rows =>
  obind (normalize_all rows) (fun dirs =>
  obind (normalize n0) (fun n =>
  let K := cone_K n in
  obind (of_option (bonds_energy st E (fun d J => C K J (cos (dot q d)) (sin (dot q d))) dirs)) (fun x =>
  Ret (x + zeeman mu E (so_prime K dirs)))))))).

(** [antiferro], energy.py:1092-1208, and [spiral], energy.py:1210-1329: the same text except for [C_dij]. *)
Definition e_antiferro := cone_energy antiferro_C.
Definition e_spiral := cone_energy spiral_C.
