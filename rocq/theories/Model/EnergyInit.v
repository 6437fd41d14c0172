(** Model of the class [Energy] (src/magnopy/spinham/energy.py): construction from a SpinHamiltonian and the
    sums over bonds. The parts that need square roots and trigonometric functions are in Model/Energy.v.

    wulfric (trusted): [spinham.cell] is a 3x3 matrix and [atom.g_factor] a number, both arguments here; neither
    raises. [spinham.magnetic_atoms] is evaluated three times (553, 557, 558) on the same state: one list. *)
From Coq Require Import List Bool ZArith.
From Verif.Base Require Import Scalar Linear3 PyDict.
From Verif.Model Require Import MatrixParam Hamiltonian.
Import ListNotations.
Local Open Scope fld_scope.
Local Open Scope py_scope.

Section EnergyInit.
Context {F : Type} {SF : Scalar F}.
Notation M := (@M F).

(** Integers as numbers. *)
Fixpoint fpos (p : positive) : F :=
  match p with xH => 1 | xO p' => f2 * fpos p' | xI p' => 1 + f2 * fpos p' end.
Definition fZ (z : Z) : F := match z with Z0 => 0 | Zpos p => fpos p | Zneg p => - fpos p end.

(** The attributes set in [__init__], energy.py:549-595; [e_bonds] is [_bonds], a list of [i, j, d, J] where J is the
    MatrixParameter object itself. The optimizer settings are in Model/Optimizer.v. *)
Record energy_obj := mkEnergy {
  e_factor : F;
  e_g : list F;
  e_spins : list F;
  e_bonds : list (nat * nat * V3 F * loc);
  e_field : option (V3 F) }.

(** [R @ spinham.cell], energy.py:569 *)
Definition lattice_vector (cell : M3 F) (c : cell3) : V3 F :=
  let '(i, j, k) := c in vmat (mkV (fZ i) (fZ j) (fZ k)) cell.

(** [_atom_indices[atom]], energy.py:552-554, 567-568: position in magnetic_atoms, KeyError if absent. *)
Fixpoint position (a : atom) (l : list atom) : option nat :=
  match l with
  | [] => None
  | x :: t => if eq_dec a x then Some O else option_map S (position a t)
  end.
Definition atom_index (atoms : list atom) (a : atom) : M nat :=
  match position a atoms with Some i => ret i | None => raise KeyError end.

(** [[atom.spin for atom in magnetic_atoms]], energy.py:558 *)
Fixpoint all_spins (atoms : list atom) : M (list F) :=
  match atoms with
  | [] => ret []
  | a :: t => s <- spin a ;; r <- all_spins t ;; ret (s :: r)
  end.

(** The loop of energy.py:566-570. *)
Fixpoint index_bonds (atoms : list atom) (cell : M3 F) (items : list (bkey * loc)) : M (list (nat * nat * V3 F * loc)) :=
  match items with
  | [] => ret []
  | (k, l) :: t =>
      i <- atom_index atoms (b_from k) ;;
      j <- atom_index atoms (b_to k) ;;
      r <- index_bonds atoms cell t ;;
      ret ((i, j, lattice_vector cell (b_cell k), l) :: r)
  end.

(** [__init__], energy.py:549-595. *)
Definition energy_init (order : list atom -> list atom) (g_factor : atom -> F) (cell : M3 F) : M energy_obj :=
  factor <- get_ef ;;
  atoms <- magnetic_atoms order ;;
  spins <- all_spins atoms ;;
  previous_dc <- get_dc ;;
  set_double_counting true ;;;
  items <- exchange_like ;;
  bonds <- index_bonds atoms cell items ;;
  set_double_counting previous_dc ;;;
  ret (mkEnergy factor (map g_factor atoms) spins bonds None).

(** [magnetic_field] setter, energy.py:705-721, after the shape check. *)
Definition set_field (E : energy_obj) (H : option (V3 F)) : energy_obj :=
  mkEnergy (e_factor E) (e_g E) (e_spins E) (e_bonds E) H.

(** ** Sums over bonds *)

(** Matrix of the cone axis, energy.py:1172-1178, 1286-1292, 993-999. *)
Definition cone_K (n : V3 F) : M3 F :=
  mkM 0 (- vz n) (vy n)
      (vz n) 0 (- vx n)
      (- vy n) (vx n) 0.

(** [C_dij] of [antiferro], energy.py:1186-1190; [c], [s] are the cosine and sine of [spiral_vector @ d]. *)
Definition antiferro_C (K J : M3 F) (c s : F) : M3 F :=
  let K_sq := mmul K K in let IK_sq := madd mid K_sq in
  msub (madd (mmul (mmul IK_sq J) IK_sq) (mscale c (mmul (mmul K_sq J) K_sq)))
       (mscale s (mmul (mmul K_sq J) K)).

(** [C_dij] of [spiral], energy.py:1303-1311. *)
Definition spiral_C (K J : M3 F) (c s : F) : M3 F :=
  let K_sq := mmul K K in let IK_sq := madd mid K_sq in
  msub (msub (mmul (mmul IK_sq J) IK_sq)
             (mscale c (mdivs (msub (mmul (mmul K J) K) (mmul (mmul K_sq J) K_sq)) f2)))
       (mscale s (mdivs (madd (mmul (mmul K J) K_sq) (mmul (mmul K_sq J) K)) f2)).

(** [C] of the gradient with respect to the spiral vector, energy.py:1005-1009. *)
Definition spiral_dC (K J : M3 F) (c s : F) : M3 F :=
  let K_sq := mmul K K in
  madd (mscale (- c / f2) (madd (mmul (mmul K J) K_sq) (mmul (mmul K_sq J) K)))
       (mscale (s / f2) (msub (mmul (mmul K J) K) (mmul (mmul K_sq J) K_sq))).

(** One term of the loops energy.py:1074-1082, 1185-1197, 1299-1318: [C] turns the displacement and the matrix into the
    matrix used. [st] holds the MatrixParameter objects at the time of the call. [None]: an index or an
    object does not exist (never the case, see [bond_energy_defined] in the proofs). *)
Definition bond_energy (st : list (M3 F)) (E : energy_obj) (C : V3 F -> M3 F -> M3 F) (dirs : list (V3 F))
    (b : nat * nat * V3 F * loc) : option F :=
  let '(i, j, d, l) := b in
  match nth_error (e_spins E) i, nth_error (e_spins E) j, nth_error dirs i, nth_error dirs j, nth_error st l with
  | Some si, Some sj, Some u, Some v, Some J => Some (e_factor E * si * sj * bilin u (C d J) v)
  | _, _, _, _, _ => None
  end.
(** [energy = 0; for ...: energy += ...] *)
Definition bonds_energy st E C dirs : option F :=
  fold_left (fun acc b => match acc, bond_energy st E C dirs b with Some x, Some y => Some (x + y) | _, _ => None end)
            (e_bonds E) (Some 0).

(** [BOHR_MAGNETON * einsum("i,j,ij", g, H, so)], energy.py:1085-1088, 1200-1206, 1321-1327; [mu] is the Bohr magneton
    in internal units (energy.py:34). *)
Fixpoint zeeman_sum (H : V3 F) (gs : list F) (so : list (V3 F)) : F :=
  match gs, so with g :: gs', v :: so' => g * dot H v + zeeman_sum H gs' so' | _, _ => 0 end.
Definition zeeman (mu : F) (E : energy_obj) (so : list (V3 F)) : F :=
  match e_field E with Some H => mu * zeeman_sum H (e_g E) so | None => 0 end.

End EnergyInit.
