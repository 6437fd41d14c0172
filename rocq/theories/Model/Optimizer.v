(** Model of the energy minimization (src/magnopy/spinham/energy.py:36-522, 798-1021, 1335-1770) over the real numbers.

    Simplifications: exact real arithmetic. Where numpy would go on with inf or nan (1/0, a zero vector normalized) the
    model stops with NonFinite. Vectors have the sizes set in [optimize]. numpy arrays are values here: the functions
    that modify arrays of the caller do it only temporarily (the gradients restore each component they perturb, which in
    exact arithmetic restores the array). The history is modelled as the list of entries written, not as text; the
    header (1524-1526), the logging and the plot made before the line search fails (1756-1765) are not modelled. *)
From Coq Require Import List Bool Reals ZArith.
From Verif.Base Require Import Scalar ScalarR Linear3.
From Verif.Model Require Import MatrixParam Hamiltonian EnergyInit Energy.
Import ListNotations.
Local Open Scope R_scope.

Declare Scope out_scope.
Delimit Scope out_scope with out.
Notation "x <- m ;; k" := (obind m (fun x => k)) (at level 61, m at next level, right associativity) : out_scope.
Notation "' p <- m ;; k" := (obind m (fun x => let 'p := x in k))
  (at level 61, p pattern, m at next level, right associativity) : out_scope.
Local Open Scope out_scope.

(** ** One-dimensional arrays *)
Definition lscale (c : R) (v : list R) : list R := map (Rmult c) v.
Fixpoint lmap2 (f : R -> R -> R) (u v : list R) : list R :=
  match u, v with a :: u', b :: v' => f a b :: lmap2 f u' v' | _, _ => [] end.
Definition ladd := lmap2 Rplus.
Definition lsub := lmap2 Rminus.
(** [u @ v] *)
Definition ldot (u v : list R) : R := fold_right Rplus 0 (lmap2 Rmult u v).
Definition lnorm (v : list R) : R := sqrt (ldot v v).
Definition lzeros (n : nat) : list R := repeat 0 n.
(** [l[n] = x] *)
Fixpoint set_nth {A} (l : list A) (n : nat) (x : A) : list A :=
  match l, n with [], _ => [] | _ :: t, O => x :: t | a :: t, S n' => a :: set_nth t n' x end.
(** [l[-n] = x] *)
Definition set_last {A} (l : list A) (n : nat) (x : A) : list A := set_nth l (List.length l - n) x.
(** [l[:-n]] *)
Definition drop_last {A} (n : nat) (l : list A) : list A := firstn (List.length l - n) l.
(** [l[-n:]] *)
Definition take_last {A} (n : nat) (l : list A) : list A := skipn (List.length l - n) l.
(** [l[::3]]; [l[1::3]] is [every3 (tl l)]. *)
Fixpoint every3 {A} (l : list A) : list A :=
  match l with
  | a :: _ :: _ :: t => a :: every3 t
  | [a; _] => [a]
  | [a] => [a]
  | [] => []
  end.

(** ** Starting points *)

(** An initial guess for the spins: [None], something that is no array of numbers, an array. *)
Inductive guess := GNone | GNoArray | GArray (a : spins_arg).

(** [_starting_ferro], energy.py:50-80; [rnd] is the result of [np.random.random((n_spins, 3))]. Line 60 reads the unbound
    variable [spin_orientation]: UnboundLocalError (a NameError). *)
Definition starting_ferro (rnd : list (V3 R)) (n_spins : nat) (g : guess) : out (list (V3 R)) :=
  match g with
  | GNone => normalize_all rnd
  | GNoArray => Raise NameError
  | GArray (SRows []) => Raise ValueError
  | GArray (SRows rows) => if Nat.eqb n_spins (List.length rows) then normalize_all rows else Raise ValueError
  | GArray (SVec v) => if Nat.eqb n_spins 1 then normalize_all [v] else Raise ValueError
  | GArray SBad => Raise ValueError
  end.

(** A guess for a vector: [None], an array of shape (3,), anything else. *)
Inductive vguess := VNone | VVec (v : V3 R) | VBad.

(** energy.py:97-115 and 144-162: the spins and the normalized cone axis. *)
Definition starting_axis (rnd : V3 R) (g : vguess) : out (V3 R) :=
  match g with VNone => normalize rnd | VVec v => normalize v | VBad => Raise ValueError end.

(** [_starting_antiferro], energy.py:83-127; the initial guess is [None] (all parts [None]) or a pair, a tuple of another
    length is ValueError (84-89, not modelled). *)
Definition starting_antiferro (rnd : list (V3 R)) (rnd_axis : V3 R) (n_spins : nat) (q : vguess) (g : guess) (ga : vguess)
    : out (list (V3 R) * V3 R) :=
  spins <- starting_ferro rnd n_spins g ;;
  axis <- starting_axis rnd_axis ga ;;
  match q with VVec v => Ret (spins ++ [axis], v) | _ => Raise ValueError end.

(** [_starting_spiral], energy.py:130-181. *)
Definition starting_spiral (rnd : list (V3 R)) (rnd_axis rnd_q : V3 R) (n_spins : nat) (g : guess) (ga gq : vguess)
    : out (list (V3 R) * V3 R) :=
  spins <- starting_ferro rnd n_spins g ;;
  axis <- starting_axis rnd_axis ga ;;
  match gq with
  | VNone => Ret (spins ++ [axis], rnd_q)
  | VVec v => Ret (spins ++ [axis], v)
  | VBad => Raise ValueError
  end.

(** ** Update of the coordinates *)

(** [np.finfo(float).eps] *)
Definition eps : R := / 2 ^ 52.

(** One turn of the loop energy.py:207-221 (244-258, 287-301): a spin turned by the angles a12, a13, a23. *)
Definition turn_row (a12 a13 a23 : R) (x : V3 R) : V3 R :=
  let theta := sqrt (a12 ^ 2 + a13 ^ 2 + a23 ^ 2) in
  if Rlt_dec theta eps then x else
  let r := mkV (- a23 / theta) (a13 / theta) (- a12 / theta) in
  vadd (vadd (vscale (cos theta) x) (vscale (sin theta) (cross r x))) (vscale (dot r x) (vscale (1 - cos theta) r)).

(** The loop over [thetas]. The three slices have one length when the size of the search direction is a multiple of three
    (numpy raises ValueError otherwise); x[i] beyond the rows is IndexError. *)
Fixpoint turn_rows (a12 a13 a23 : list R) (rows : list (V3 R)) : out (list (V3 R)) :=
  match a12, a13, a23 with
  | [], [], [] => Ret rows
  | a :: t12, b :: t13, c :: t23 =>
      match rows with
      | [] => Raise IndexError
      | x :: t => r <- turn_rows t12 t13 t23 t ;; Ret (turn_row a b c x :: r)
      end
  | _, _, _ => Raise ValueError
  end.
(** [search_direction[::3] * step], [search_direction[1::3] * step], [search_direction[2::3] * step]. *)
Definition turn_by (sd : list R) (step : R) (rows : list (V3 R)) : out (list (V3 R)) :=
  turn_rows (map (fun a => a * step) (every3 sd)) (map (fun a => a * step) (every3 (tl sd)))
            (map (fun a => a * step) (every3 (tl (tl sd)))) rows.

(** [_update_x_ferro], energy.py:189-224. *)
Definition update_ferro (x : list (V3 R)) (sd : list R) (step : R) : out (list (V3 R)) := turn_by sd step x.

(** [_update_x_antiferro], energy.py:227-266: the slices stop three entries before the end. *)
Definition update_antiferro (x : list (V3 R) * V3 R) (sd : list R) (step : R) : out (list (V3 R) * V3 R) :=
  rows <- turn_by (drop_last 3 sd) step (fst x) ;; Ret (rows, snd x).

(** [_update_x_spiral], energy.py:269-310. *)
Definition update_spiral (x : list (V3 R) * V3 R) (sd : list R) (step : R) : out (list (V3 R) * V3 R) :=
  rows <- turn_by (drop_last 3 sd) step (fst x) ;;
  match take_last 3 sd with
  | [a; b; c] => Ret (rows, vadd (snd x) (mkV (a * step) (b * step) (c * step)))
  | _ => Raise ValueError
  end.

(** [_unpack_antiferro], [_unpack_spiral], energy.py:344-386: x[0][:-1] and x[0][-1]. *)
Definition unpack (x : list (V3 R) * V3 R) : list (V3 R) * V3 R * V3 R :=
  (removelast (fst x), last (fst x) vzero, snd x).

(** ** Torque targets, energy.py:398-407 *)
Fixpoint max_list (l : list R) : out R :=
  match l with
  | [] => Raise ValueError
  | [a] => Ret a
  | a :: t => m <- max_list t ;; Ret (Rmax a m)
  end.
Definition target_ferro (torques : list (V3 R)) : out (list R) :=
  m <- max_list (map norm torques) ;; Ret [m].
Definition target_cone (torques : list (V3 R)) : out (list R) :=
  m <- max_list (map norm (removelast torques)) ;; Ret [m; norm (last torques vzero)].

(** ** Gradients *)

(** h of energy.py:823, 880, 898, 957, 975 *)
Definition hstep : R := 1 / 10000.

(** Central differences with respect to the three components of one vector, energy.py:825-831; [f] is the energy as a
    function of that vector. *)
Definition central (f : V3 R -> out R) (v : V3 R) : out (V3 R) :=
  xm <- f (mkV (vx v - hstep) (vy v) (vz v)) ;; xp <- f (mkV (vx v + hstep) (vy v) (vz v)) ;;
  ym <- f (mkV (vx v) (vy v - hstep) (vz v)) ;; yp <- f (mkV (vx v) (vy v + hstep) (vz v)) ;;
  zm <- f (mkV (vx v) (vy v) (vz v - hstep)) ;; zp <- f (mkV (vx v) (vy v) (vz v + hstep)) ;;
  Ret (mkV ((xp - xm) / 2 / hstep) ((yp - ym) / 2 / hstep) ((zp - zm) / 2 / hstep)).

(** [np.cross(spin_orientation[i], gradient)], energy.py:833. *)
Definition torque_of (f : V3 R -> out R) (v : V3 R) : out (V3 R) := g <- central f v ;; Ret (cross v g).

(** Torques of all spins; [before] are the spins already done. *)
Fixpoint torques_of (E : list (V3 R) -> out R) (before after : list (V3 R)) : out (list (V3 R)) :=
  match after with
  | [] => Ret []
  | v :: t => tq <- torque_of (fun u => E (before ++ u :: t)) v ;; r <- torques_of E (before ++ [v]) t ;; Ret (tq :: r)
  end.

(** gradient_vector[3*i], [3*i+1], [3*i+2] = t[2], -t[1], t[0], energy.py:836-838. *)
Definition entries (t : V3 R) : list R := [vz t; - vy t; vx t].
Definition layout (ts : list (V3 R)) : list R := flat_map entries ts.

(** [_ferro_grad], energy.py:798-841. *)
Definition grad_ferro (E : list (V3 R) -> out R) (x : list (V3 R)) : out (list R * list (V3 R)) :=
  ts <- torques_of E [] x ;; Ret (layout ts, ts).

(** The writes of energy.py:893-895, 911-913: the entries of the spins in front of zeros (the vector of size [size] starts
    with zeros, 872, 1542), then gradient_vector[-6], [-5], [-4] for the cone axis. *)
Definition cone_layout (size : nat) (ts : list (V3 R)) (t : V3 R) : list R :=
  let v := layout ts ++ lzeros (size - 3 * List.length ts) in
  set_last (set_last (set_last v 6 (vz t)) 5 (- vy t)) 4 (vx t).

(** [_antiferro_grad], energy.py:843-916; the vector has 3I+3 entries (1479). *)
Definition grad_antiferro (E : list (V3 R) -> V3 R -> V3 R -> out R) (x : list (V3 R) * V3 R)
    : out (list R * list (V3 R)) :=
  let '(spins, axis, q) := unpack x in
  ts <- torques_of (fun s => E s axis q) [] spins ;;
  t <- torque_of (fun n => E spins n q) axis ;;
  Ret (cone_layout (3 * List.length spins + 3) ts t, ts ++ [t]).

(** The derivative with respect to the spiral vector, energy.py:992-1015; the cone axis and the spins are taken as they are. *)
Definition q_term (st : list (M3 R)) (E : energy_obj) (spins : list (V3 R)) (axis q : V3 R)
    (b : nat * nat * V3 R * loc) : option (V3 R) :=
  let '(i, j, d, l) := b in
  match bond_energy st E (fun d J => spiral_dC (cone_K axis) J (cos (dot q d)) (sin (dot q d))) spins b with
  | Some y => Some (vscale y d)
  | None => None
  end.
Definition q_gradient (st : list (M3 R)) (E : energy_obj) (spins : list (V3 R)) (axis q : V3 R) : out (V3 R) :=
  of_option (fold_left (fun acc b => match acc, q_term st E spins axis q b with
                                     | Some x, Some y => Some (vadd x y) | _, _ => None end)
                       (e_bonds E) (Some vzero)).

(** [_spiral_grad], energy.py:918-1021; the vector has 3I+6 entries (1500), the last three are the q gradient. *)
Definition grad_spiral (E : list (V3 R) -> V3 R -> V3 R -> out R)
    (qg : list (V3 R) -> V3 R -> V3 R -> out (V3 R)) (x : list (V3 R) * V3 R) : out (list R * list (V3 R)) :=
  let '(spins, axis, q) := unpack x in
  ts <- torques_of (fun s => E s axis q) [] spins ;;
  t <- torque_of (fun n => E spins n q) axis ;;
  g <- qg spins axis q ;;
  Ret (drop_last 3 (cone_layout (3 * List.length spins + 6) ts t) ++ [vx g; vy g; vz g], ts ++ [t]).

(** ** Search direction *)

(** [_d_vec], [_y_vec], [_rho], [_gamma] *)
Record lbfgs := mkL { l_d : list (list R); l_y : list (list R); l_rho : list R; l_gamma : list R }.
Definition lbfgs_zero (m size : nat) : lbfgs :=
  mkL (repeat (lzeros size) m) (repeat (lzeros size) m) (repeat 0 m) (repeat 0 m).

(** [range(a, b)] *)
Definition py_range (a b : Z) : list nat :=
  if Z.ltb a b then map Z.to_nat (map (fun i => (a + Z.of_nat i)%Z) (seq 0 (Z.to_nat (b - a)))) else [].

(** Body of the loop energy.py:1708-1711: gamma and q. *)
Definition first_loop_body (m n : nat) (L : lbfgs) (st : list R * list R) (l : nat) : list R * list R :=
  let '(gamma, q) := st in
  let j := Nat.modulo (l + n + 1) m in
  let gj := nth j (l_rho L) 0 * ldot (nth j (l_d L) []) q in
  (set_nth gamma j gj, lsub q (lscale gj (nth j (l_y L) []))).
(** Body of the loop energy.py:1713-1720. *)
Definition second_loop_body (k m n : nat) (L : lbfgs) (sd : list R) (l : nat) : list R :=
  let j := if Nat.ltb k m then l else Nat.modulo (l + n + 1) m in
  ladd sd (lscale (nth j (l_gamma L) 0 - nth j (l_rho L) 0 * ldot (nth j (l_y L) []) sd) (nth j (l_d L) [])).

(** [_compute_search_direction], energy.py:1638-1722. [m] is the number of steps kept ([_m], a natural number here); [prev]
    is (previous_lambda, previous_gradient_vector, previous_search_direction); the three are set together in [optimize]. *)
Definition search_direction (m size : nat) (L : lbfgs) (k : nat) (g : list R) (prev : option (R * list R * list R))
    : out (lbfgs * nat * list R) :=
  match k, m with
  | _, O => Raise ZeroDivisionError
  | O, _ => Ret (lbfgs_zero m size, O, g)
  | _, _ =>
      match prev with
      | None => Raise ValueError
      | Some (lam, pg, psd) =>
          let n := Nat.modulo k m in
          let d := set_nth (l_d L) n (lscale lam psd) in
          let y := set_nth (l_y L) n (lsub g pg) in
          let dy := ldot (nth n d []) (nth n y []) in
          if Req_EM_T dy 0 then Raise NonFinite else
          let rho := set_nth (l_rho L) n (1 / dy) in
          if Rlt_dec (nth n rho 0) 0 then Ret (lbfgs_zero m size, O, g) else
          let L1 := mkL d y rho (l_gamma L) in
          let '(gamma, q) := fold_left (first_loop_body m n L1) (py_range (Z.of_nat m - 1) (-1)) (l_gamma L, g) in
          let L2 := mkL d y rho gamma in
          let sd0 := map (fun a => a / nth n rho 0 / lnorm (nth n y [])) q in
          Ret (L2, k, fold_left (second_loop_body k m n L2) (py_range 0 (Z.of_nat m)) sd0)
      end
  end.

(** ** The generic loop *)
Section Optimize.
Variable X : Type.

(** The functions chosen by [case], energy.py:1454-1521; [p_size] is [_gradient_size]. *)
Record problem := mkP {
  p_energy : X -> out R;
  p_grad : X -> out (list R * list (V3 R));
  p_update : X -> list R -> R -> out X;
  p_target : list (V3 R) -> out (list R);
  p_size : nat }.

Variable P : problem.
(** [_m], [_wolfe_c1], [_wolfe_c2], [_wolfe_iter_max], energy.py:576-581 *)
Variable m : nat.
Variables c1 c2 : R.
Variable iter_max : nat.

(** The two tests of energy.py:1739-1743; true: the step is not accepted. *)
Definition rejected (fx : R) (nabla sd : list R) (step energy_new : R) (nabla_new : list R) : bool :=
  if Rlt_dec (fx + c1 * step * ldot nabla sd) energy_new then true
  else if Rlt_dec (Rabs (c2 * ldot nabla sd)) (Rabs (ldot nabla_new sd)) then true else false.

(** The loop energy.py:1739-1769. [left] is iter_max + 1 - i, so [i > iter_max] is [left = 0]. *)
Fixpoint shrink (left : nat) (x : X) (sd : list R) (fx : R) (nabla : list R) (step : R) (x_new : X) (nabla_new : list R)
    : out R :=
  e <- p_energy P x_new ;;
  if rejected fx nabla sd step e nabla_new then
    let step' := step * (99 / 100) in
    x' <- p_update P x sd step' ;;
    '(nabla', _) <- p_grad P x' ;;
    _ <- p_energy P x' ;;
    match left with
    | O => Raise ValueError
    | S left' => shrink left' x sd fx nabla step' x' nabla'
    end
  else Ret step.

(** [_lambda], energy.py:1727-1770. *)
Definition line_search (x : X) (sd : list R) : out R :=
  fx <- p_energy P x ;;
  x_new <- p_update P x sd 1 ;;
  '(nabla_new, _) <- p_grad P x_new ;;
  '(nabla, _) <- p_grad P x ;;
  shrink (iter_max + 1) x sd fx nabla 1 x_new nabla_new.

(** An entry of the history: energy, torque targets, coordinates. *)
Definition entry := (R * list R * X)%type.

(** The local variables of [optimize] and what has been written to the history. *)
Record ost := mkO {
  o_k : nat;
  o_iter : nat;
  o_prev : option (R * list R * list R);
  o_energy : R;
  o_x : X;
  o_L : lbfgs;
  o_diff : R;
  o_targets : list R;
  o_hist : list entry;
  o_out : list entry }.

Variable save : bool.
Variable history_step : nat.
Variables tol_energy : R.
Variable tol_torques : list R.
Variable max_iterations : option Z.

(** [condition], energy.py:1550-1553, 1600-1603 *)
Definition continues (diff : R) (targets : list R) : bool :=
  (if Rlt_dec tol_energy diff then true else false)
  || existsb (fun p : R * R => if Rlt_dec (snd p) (fst p) then true else false) (combine targets tol_torques).

(** Initial values, energy.py:1531-1558. *)
Definition opt_start (x0 : X) : out ost :=
  e <- p_energy P x0 ;;
  let targets := map (fun a => 2 * a) tol_torques in
  Ret (mkO O O None e x0 (lbfgs_zero m (p_size P)) (tol_energy * 2) targets (if save then [(e, targets, x0)] else []) []).

(** Body of the loop, energy.py:1570-1626. *)
Definition opt_step (s : ost) : out ost :=
  '(g, torques) <- p_grad P (o_x s) ;;
  '(L, k, sd) <- search_direction m (p_size P) (o_L s) (o_k s) g (o_prev s) ;;
  step <- line_search (o_x s) sd ;;
  x <- p_update P (o_x s) sd step ;;
  e <- p_energy P x ;;
  targets <- p_target P torques ;;
  let s' := mkO (S k) (S (o_iter s)) (Some (step, g, sd)) e x L (Rabs (o_energy s - e)) targets in
  if save then
    let hist := o_hist s ++ [(e, targets, x)] in
    match history_step with
    | O => Raise ZeroDivisionError
    | _ => if Nat.eqb (Nat.modulo (S (o_iter s)) history_step) 0 then Ret (s' [] (o_out s ++ hist))
           else Ret (s' hist (o_out s))
    end
  else Ret (s' [] []).

(** The loop, energy.py:1560-1633; the result is the final coordinates and the history written. [None]: still running after
    [fuel] turns. *)
Fixpoint opt_loop (fuel : nat) (s : ost) : option (out (X * list entry)) :=
  if continues (o_diff s) (o_targets s) then
    if match max_iterations with Some mx => Z.leb mx (Z.of_nat (o_iter s)) | None => false end
    then Some (Ret (o_x s, o_out s))
    else match fuel with
         | O => None
         | S fuel' => match opt_step s with
                      | Raise e => Some (Raise e)
                      | Ret s' => opt_loop fuel' s'
                      end
         end
  else Some (Ret (o_x s, o_out s ++ o_hist s)).

(** [optimize] from the starting point on, energy.py:1524-1633. *)
Definition optimize_from (fuel : nat) (x0 : X) : option (out (X * list entry)) :=
  match opt_start x0 with
  | Raise e => Some (Raise e)
  | Ret s => opt_loop fuel s
  end.

End Optimize.
Arguments mkP {X}. Arguments p_energy {X}. Arguments p_grad {X}. Arguments p_update {X}. Arguments p_target {X}.
Arguments p_size {X}.

(** ** The three cases, energy.py:1454-1521 *)
Definition ferro_problem (mu : R) (st : list (M3 R)) (E : energy_obj) : problem (list (V3 R)) :=
  let energy := fun s => e_ferro mu st E (SRows s) in
  mkP energy (grad_ferro energy) update_ferro target_ferro (3 * List.length (e_spins E)).

Definition cone_arg (energy : spins_arg -> option (V3 R) -> option (V3 R) -> out R) (s : list (V3 R)) (n q : V3 R) : out R :=
  energy (SRows s) (Some n) (Some q).
Definition on_unpacked {A} (f : list (V3 R) -> V3 R -> V3 R -> A) (x : list (V3 R) * V3 R) : A :=
  let '(s, n, q) := unpack x in f s n q.

Definition antiferro_problem (mu : R) (st : list (M3 R)) (E : energy_obj) : problem (list (V3 R) * V3 R) :=
  let energy := cone_arg (e_antiferro mu st E) in
  mkP (on_unpacked energy) (grad_antiferro energy) update_antiferro target_cone (3 * List.length (e_spins E) + 3).

Definition spiral_problem (mu : R) (st : list (M3 R)) (E : energy_obj) : problem (list (V3 R) * V3 R) :=
  let energy := cone_arg (e_spiral mu st E) in
  mkP (on_unpacked energy) (grad_spiral energy (q_gradient st E)) update_spiral target_cone
      (3 * List.length (e_spins E) + 6).

(** [tolerance], energy.py:1470-1475, 1491-1496, 1512-1517: [None] or a tuple; the first entry is for the energy. *)
Definition tolerances (n : nat) (t : option (list R)) : out (R * list R) :=
  match t with
  | None => Ret (1 / 100000, repeat (1 / 100000) (n - 1))
  | Some l => if Nat.eqb (List.length l) n then match l with a :: r => Ret (a, r) | [] => Raise ValueError end
              else Raise ValueError
  end.

(** Arguments of [optimize] and the settings of the instance. *)
Record opt_args := mkArgs {
  a_m : nat; a_c1 : R; a_c2 : R; a_iter_max : nat;
  a_save : bool; a_history_step : nat; a_tolerance : option (list R); a_max : option Z }.

Definition optimize {X} (P : problem X) (ntol : nat) (a : opt_args) (start : out X) (fuel : nat)
    : option (out (X * list (entry X))) :=
  match (x <- start ;; '(te, ts) <- tolerances ntol (a_tolerance a) ;; Ret (x, te, ts)) with
  | Raise e => Some (Raise e)
  | Ret (x, te, ts) => optimize_from X P (a_m a) (a_c1 a) (a_c2 a) (a_iter_max a) (a_save a) (a_history_step a) te ts (a_max a)
                                     fuel x
  end.

(** [optimize(case, ...)] with [case] one of 0/"ferro", 1/"antiferro", 2/"spiral" (another case is ValueError, 1518-1521). *)
Definition optimize_ferro mu st E a rnd g fuel :=
  optimize (ferro_problem mu st E) 2 a (starting_ferro rnd (List.length (e_spins E)) g) fuel.
Definition optimize_antiferro mu st E a rnd rnd_axis q g ga fuel :=
  optimize (antiferro_problem mu st E) 3 a (starting_antiferro rnd rnd_axis (List.length (e_spins E)) q g ga) fuel.
Definition optimize_spiral mu st E a rnd rnd_axis rnd_q g ga gq fuel :=
  optimize (spiral_problem mu st E) 3 a (starting_spiral rnd rnd_axis rnd_q (List.length (e_spins E)) g ga gq) fuel.
