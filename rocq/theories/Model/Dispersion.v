(** Model of [MagnonDispersion] and [span_orthonormal_set] (src/magnopy/magnons/dispersion.py).

    Simplifications: exact real and complex arithmetic (Coquelicot's [C], pairs of real numbers); where numpy would
    go on with nan (a spin vector of length zero) the model stops with NonFinite. The cache [_C] (129, 255-262)
    holds the value of [C()], a function of attributes that nothing changes, and is not modelled.

    wulfric and scipy (trusted): [atom.spin_vector] is a vector or raises ValueError; [get_vector(atom1, atom2, R)] is
    the lattice vector of R plus the difference of the two (absolute) positions; [Rotation.from_rotvec(n)] is the
    rotation about n by the angle |n|, given by Rodrigues' formula. *)
From Coq Require Import List Bool ZArith Reals String.
From Coquelicot Require Import Complex.
From Verif.Base Require Import Scalar ScalarR Linear3 PyDict.
From Verif.Model Require Import MatrixParam Hamiltonian EnergyInit Energy.
Import ListNotations.
Local Open Scope R_scope.
Local Open Scope py_scope.

(** ** Local axes *)

(** [np.isclose(x, t)] with the default tolerances. *)
Definition isclose (x t : R) : bool := if Rle_dec (Rabs (x - t)) (/ 10 ^ 8 + / 10 ^ 5 * Rabs t) then true else false.
Definition allclose (v t : V3 R) : bool := isclose (vx v) (vx t) && isclose (vy v) (vy t) && isclose (vz v) (vz t).

(** [Rotation.from_rotvec(n).as_matrix()]: cos I + sin [a]x + (1 - cos) a a^T with a = n/|n|, angle |n|. *)
Definition outer (a : V3 R) : M3 R :=
  mkM (vx a * vx a) (vx a * vy a) (vx a * vz a)
      (vy a * vx a) (vy a * vy a) (vy a * vz a)
      (vz a * vx a) (vz a * vy a) (vz a * vz a).
Definition axis_rotation (a : V3 R) (t : R) : M3 R :=
  madd (madd (mscale (cos t) mid) (mscale (sin t) (cone_K a))) (mscale (1 - cos t) (outer a)).
Definition from_rotvec (n : V3 R) : M3 R :=
  if Req_EM_T (norm n) 0 then mid else axis_rotation (Energy.unit n) (norm n).

Definition z_dir : V3 R := mkV 0 0 1.

(** dispersion.py:32-72 *)
Definition span_orthonormal_set (vec : V3 R) : out (V3 R * V3 R * V3 R) :=
  if Req_EM_T (norm vec) 0 then Raise NonFinite
  else
    let vec := Energy.unit vec in
    if allclose vec (mkV 0 0 1) then Ret (mkV 1 0 0, mkV 0 1 0, mkV 0 0 1)
    else if allclose vec (mkV 0 0 (-1)) then Ret (mkV 1 0 0, mkV 0 (-1) 0, mkV 0 0 (-1))
    else
      let n := vscale (acos (dot vec z_dir / norm vec)) (Energy.unit (cross vec z_dir)) in
      let m := from_rotvec n in
      Ret (mrow1 m, mrow2 m, mrow3 m).

(** ** Construction, dispersion.py:103-146 *)

(** [d_bonds] is the four lists [indices_i], [indices_j], [dis_vectors], [J_matrices] (objects) zipped. *)
Record dispersion := mkDisp {
  d_N : nat;
  d_bonds : list (nat * nat * V3 R * loc);
  d_S : list (V3 R);
  d_u : list (V3 C);
  d_v : list (V3 C) }.

(** [get_vector], absolute. *)
Definition displacement (cell : M3 R) (pos : atom -> V3 R) (k : bkey) : V3 R :=
  vadd (lattice_vector cell (b_cell k)) (vsub (pos (b_to k)) (pos (b_from k))).

(** The loop 122-129. *)
Fixpoint index_pairs (atoms : list atom) (vec : bkey -> V3 R) (items : list (bkey * loc)) : @M R (list (nat * nat * V3 R * loc)) :=
  match items with
  | [] => ret []
  | (k, l) :: t =>
      i <- atom_index atoms (b_from k) ;;
      j <- atom_index atoms (b_to k) ;;
      r <- index_pairs atoms vec t ;;
      ret ((i, j, vec k, l) :: r)
  end.

Definition complex_vec (re im : V3 R) : V3 C := mkV (vx re, vx im) (vy re, vy im) (vz re, vz im).

(** The loop 137-146: S, u = e1 + i e2 and v = e3 of every magnetic atom. *)
Fixpoint local_axes (spin_vector : atom -> option (V3 R)) (atoms : list atom) : out (list (V3 R * V3 C * V3 C)) :=
  match atoms with
  | [] => Ret []
  | a :: t =>
      match spin_vector a with
      | None => Raise ValueError
      | Some s =>
          obind (span_orthonormal_set s) (fun e =>
          let '(e1, e2, e3) := e in
          obind (local_axes spin_vector t) (fun r =>
          Ret ((s, complex_vec e1 e2, complex_vec e3 vzero) :: r)))
      end
  end.
Definition lift {A} (o : out A) : @M R A := fun w => (w, o).

(** [__init__] on the deep copy; [order] is the iteration order of the set in [magnetic_atoms]. *)
Definition init_copy (order : list atom -> list atom) (cell : M3 R) (pos : atom -> V3 R)
    (spin_vector : atom -> option (V3 R)) : @M R dispersion :=
  set_notation (NStr "SpinW"%string) ;;;
   atoms <- magnetic_atoms order ;;
   items <- exchange_like ;;
   bs <- index_pairs atoms (displacement cell pos) items ;;
   ax <- lift (local_axes spin_vector atoms) ;;
   ret (mkDisp (List.length atoms) bs (map (fun x => fst (fst x)) ax) (map (fun x => snd (fst x)) ax) (map snd ax)).

(** [MagnonDispersion(model)]: the store afterwards (objects of the given model and of the private copy), the copy,
    and the outcome. The given model is the record [w_ham w], which is not touched. *)
Definition dispersion_init order cell pos spin_vector (w : @world R) : @world R * out dispersion :=
  let '(st, h) := copy_ham (w_store w) (w_ham w) in init_copy order cell pos spin_vector (mkW st h).

(** ** Matrices *)

(** [np.exp(-1j * x)] *)
Definition cexp_neg (x : R) : C := (cos x, - sin x).

(** Complex 3x3 matrices: [m * c], [a + b], the bilinear form [a @ m @ b]. *)
Definition cm_scale (m : M3 R) (c : C) : M3 C :=
  let f (x : R) : C := Cmult (RtoC x) c in
  mkM (f (mxx m)) (f (mxy m)) (f (mxz m)) (f (myx m)) (f (myy m)) (f (myz m)) (f (mzx m)) (f (mzy m)) (f (mzz m)).
Definition cm_add (a b : M3 C) : M3 C :=
  mkM (Cplus (mxx a) (mxx b)) (Cplus (mxy a) (mxy b)) (Cplus (mxz a) (mxz b))
      (Cplus (myx a) (myx b)) (Cplus (myy a) (myy b)) (Cplus (myz a) (myz b))
      (Cplus (mzx a) (mzx b)) (Cplus (mzy a) (mzy b)) (Cplus (mzz a) (mzz b)).
Definition cm_zero : M3 C := mkM (RtoC 0) (RtoC 0) (RtoC 0) (RtoC 0) (RtoC 0) (RtoC 0) (RtoC 0) (RtoC 0) (RtoC 0).
Definition cv_dot (a b : V3 C) : C := Cplus (Cplus (Cmult (vx a) (vx b)) (Cmult (vy a) (vy b))) (Cmult (vz a) (vz b)).
Definition cv_mat (a : V3 C) (m : M3 C) : V3 C :=
  mkV (cv_dot a (mkV (mxx m) (myx m) (mzx m))) (cv_dot a (mkV (mxy m) (myy m) (mzy m))) (cv_dot a (mkV (mxz m) (myz m) (mzz m))).
Definition cv_conj (a : V3 C) : V3 C := mkV (Cconj (vx a)) (Cconj (vy a)) (Cconj (vz a)).
Definition cv_scale (c : R) (a : V3 C) : V3 C := mkV (Cmult (RtoC c) (vx a)) (Cmult (RtoC c) (vy a)) (Cmult (RtoC c) (vz a)).
Definition cbil (a : V3 C) (m : M3 C) (b : V3 C) : C := cv_dot (cv_mat a m) b.
Definition cv_zero : V3 C := mkV (RtoC 0) (RtoC 0) (RtoC 0).

Section Matrices.
(** [st] holds the MatrixParameter objects. *)
Variable st : list (M3 R).
Variable D : dispersion.

(** [J(k)], dispersion.py:148-175: the entry [i][j] of [result] after the loop. *)
Definition term_J (k : V3 R) (b : nat * nat * V3 R * loc) : M3 C :=
  let '(_, _, d, l) := b in cm_scale (nth l st mzero) (cexp_neg (dot k d)).
Definition at_ij (i j : nat) (b : nat * nat * V3 R * loc) : bool :=
  let '(i', j', _, _) := b in Nat.eqb i i' && Nat.eqb j j'.
Definition d_J (k : V3 R) (i j : nat) : M3 C :=
  fold_left (fun acc b => if at_ij i j b then cm_add acc (term_J k b) else acc) (d_bonds D) cm_zero.

Definition S_ (i : nat) : V3 R := nth i (d_S D) vzero.
Definition u_ (i : nat) : V3 C := nth i (d_u D) cv_zero.
Definition v_ (i : nat) : V3 C := nth i (d_v D) cv_zero.

(** [A(k)], dispersion.py:177-206; [B(k)], 208-237 *)
Definition d_A (k : V3 R) (i j : nat) : C :=
  Cmult (RtoC (sqrt (norm (S_ i) * norm (S_ j)) / 2)) (cbil (u_ i) (d_J (vopp k) i j) (cv_conj (u_ j))).
Definition d_B (k : V3 R) (i j : nat) : C :=
  Cmult (RtoC (sqrt (norm (S_ i) * norm (S_ j)) / 2)) (cbil (u_ i) (d_J (vopp k) i j) (u_ j)).

(** [C()], dispersion.py:239-260 *)
Definition d_C (i j : nat) : C :=
  if Nat.eqb i j then
    fold_left (fun acc l => Cplus acc (cbil (cv_scale (norm (S_ l)) (v_ i)) (d_J vzero i l) (v_ l))) (seq 0 (d_N D)) (RtoC 0)
  else RtoC 0.

(** [h(k)], dispersion.py:262-272, entry (p, q) of the 2N x 2N matrix. *)
Definition c2 (z : C) : C := Cmult (RtoC 2) z.
Definition d_h (k : V3 R) (p q : nat) : C :=
  let N := d_N D in
  if Nat.ltb p N then
    if Nat.ltb q N then Cminus (c2 (d_A k p q)) (c2 (d_C p q))
    else c2 (d_B k p (q - N))
  else
    if Nat.ltb q N then c2 (Cconj (d_B k q (p - N)))
    else Cminus (c2 (Cconj (d_A (vopp k) (p - N) (q - N)))) (c2 (d_C (p - N) (q - N))).
End Matrices.

(** ** omega, dispersion.py:274-345 *)

(** A number of an array of dtype float or complex: nan or a value. *)
Inductive num := NaN | Num (z : C).
Definition num_opp (x : num) : num := match x with Num z => Num (Copp z) | NaN => NaN end.
(** [omegas[np.abs(omegas) <= 1e-8] = 0] *)
Definition chop (x : num) : num :=
  match x with NaN => NaN | Num z => if Rle_dec (Cmod z) (/ 10 ^ 8) then Num (RtoC 0) else Num z end.
(** [omegas.real] *)
Definition real_part (x : num) : num := match x with NaN => NaN | Num z => Num (RtoC (fst z)) end.

Definition mat := nat -> nat -> C.
(** The matrix returned next to the energies: uninitialised ([np.empty]) or with entries. *)
Inductive gmat := Unset | Entries (m : mat).
Definition mat_opp (m : mat) : mat := fun p q => Copp (m p q).
(** [h + np.diag(c * np.ones(2N))] *)
Definition shift (c : R) (m : mat) : mat := fun p q => if Nat.eqb p q then Cplus (m p q) (RtoC c) else m p q.

Section Omega.
(** [solve_via_colpa]; [None] is ColpaFailed. *)
Variable solve : mat -> option (list C * mat).
Definition neg_result (r : list C * mat) : list num * gmat := (map (fun z => num_opp (Num z)) (fst r), Entries (mat_opp (snd r))).
Definition pos_result (r : list C * mat) : list num * gmat := (map Num (fst r), Entries (snd r)).

Definition attempts (N : nat) (h : mat) (zeros_to_none : bool) : list num * gmat :=
  match solve h with Some r => pos_result r | None =>
  match solve (shift (/ 10 ^ 8) h) with Some r => pos_result r | None =>
  match solve (mat_opp h) with Some r => neg_result r | None =>
  match solve (shift (- / 10 ^ 8) (mat_opp h)) with Some r => neg_result r | None =>
    if zeros_to_none then (repeat NaN (2 * N), Unset) else (repeat (Num (RtoC 0)) N, Entries (fun _ _ => RtoC 0))
  end end end end.

(** The energies returned and, with [return_G], the matrix. *)
Definition omega (N : nat) (h : mat) (zeros_to_none return_G return_imaginary : bool) : list num * option gmat :=
  let '(om, G) := attempts N h zeros_to_none in
  let om := map chop om in
  let om := if return_imaginary then om else map real_part om in
  if return_G then (om, Some G) else (firstn N om, None).
End Omega.
