(** Vocabulary for the properties of the minimizer (C27-C34). *)
From Coq Require Import List Bool ZArith Reals.
From Verif.Base Require Import Scalar ScalarR Linear3.
From Verif.Model Require Import MatrixParam Hamiltonian EnergyInit Energy Optimizer.
From Verif.Spec Require Import EnergySpec.
Import ListNotations.
Local Open Scope R_scope.

Definition unit_rows (rows : list (V3 R)) : Prop := Forall (fun v => dot v v = 1) rows.

(** ** Energies of a configuration, as a function on all vectors *)

Definition pair_part (st : list (M3 R)) (E : @energy_obj R) (rows : list (V3 R)) (b : nat * nat * V3 R * loc) : R :=
  let '(i, j, d, l) := b in
  e_factor E * nth i (e_spins E) 0 * nth j (e_spins E) 0 * dot (nth i rows vzero) (mvec (nth l st mzero) (nth j rows vzero)).
Definition total_energy (mu : R) (st : list (M3 R)) (E : @energy_obj R) (rows : list (V3 R)) : R :=
  fold_right Rplus 0 (map (pair_part st E rows) (e_bonds E))
  + match e_field E with Some H => plain_zeeman mu H (e_g E) rows | None => 0 end.

(** Derivative of that energy with respect to the k-th vector. *)
Definition pair_field (st : list (M3 R)) (E : @energy_obj R) (rows : list (V3 R)) (k : nat) (b : nat * nat * V3 R * loc) : V3 R :=
  let '(i, j, d, l) := b in
  vscale (e_factor E * nth i (e_spins E) 0 * nth j (e_spins E) 0)
    (vadd (if Nat.eqb i k then mvec (nth l st mzero) (nth j rows vzero) else vzero)
          (if Nat.eqb j k then mvec (mtrans (nth l st mzero)) (nth i rows vzero) else vzero)).
Definition energy_field (mu : R) (st : list (M3 R)) (E : @energy_obj R) (rows : list (V3 R)) (k : nat) : V3 R :=
  vadd (fold_right vadd vzero (map (pair_field st E rows k) (e_bonds E)))
       (match e_field E, nth_error (e_g E) k with Some H, Some g => vscale (mu * g) H | _, _ => vzero end).
Definition energy_torque mu st E rows k : V3 R := cross (nth k rows vzero) (energy_field mu st E rows k).

(** The documented order of a gradient vector (energy.py:800-806, 852-858): for every torque t_z, -t_y, t_x. *)
Fixpoint gradient_order (ts : list (V3 R)) : list R :=
  match ts with [] => [] | t :: r => vz t :: - vy t :: vx t :: gradient_order r end.

(** Each vector turned about its own axis: vector k by the angle -s|t_k| about t_k. *)
Definition turn_about (t : V3 R) (s : R) (v : V3 R) : V3 R := rotate (unit t) (- (s * norm t)) v.
Fixpoint turn_all (ts : list (V3 R)) (s : R) (rows : list (V3 R)) : list (V3 R) :=
  match ts, rows with t :: ts', v :: rows' => turn_about t s v :: turn_all ts' s rows' | _, _ => rows end.
Fixpoint sum_dot (ts us : list (V3 R)) : R :=
  match ts, us with t :: ts', u :: us' => dot t u + sum_dot ts' us' | _, _ => 0 end.

(** ** Runs of the minimizer *)
Section Runs.
Context {X : Type} (P : problem X).

(** The entries of a run that starts at [x0], oldest first: energies, torque targets and coordinates. The coordinates of
    each entry are obtained from the previous ones by the update with a step in (0, 1]; its torque targets are those of the
    previous coordinates. *)
Inductive visits (x0 : X) : list (entry X) -> Prop :=
| V_start e t : p_energy P x0 = Ret e -> visits x0 [(e, t, x0)]
| V_step es e t x e' t' x' g ts sd step :
    visits x0 (es ++ [(e, t, x)]) ->
    p_grad P x = Ret (g, ts) -> p_target P ts = Ret t' ->
    0 < step <= 1 -> p_update P x sd step = Ret x' -> p_energy P x' = Ret e' ->
    visits x0 (es ++ [(e, t, x); (e', t', x')]).

(** The torque targets are within the tolerances. *)
Definition within (targets tols : list R) : Prop := Forall (fun p : R * R => fst p <= snd p) (combine targets tols).

(** The last two entries differ in energy by at most [tol] and the torque targets of the last one are within [tols]. *)
Definition converged (tol : R) (tols : list R) (es : list (entry X)) : Prop :=
  exists es' e t x e' t' x', es = es' ++ [(e, t, x); (e', t', x')] /\ Rabs (e - e') <= tol /\ within t' tols.

(** Both tests of the line search hold for the step [t] along [sd]; [fx] and [g] are the energy and the gradient at [x]. *)
Definition acceptable (c1 c2 : R) (x : X) (sd : list R) (fx : R) (g : list R) (t : R) : Prop :=
  exists x' e' g' ts', p_update P x sd t = Ret x' /\ p_energy P x' = Ret e' /\ p_grad P x' = Ret (g', ts') /\
    e' <= fx + c1 * t * ldot g sd /\ Rabs (ldot g' sd) <= Rabs (c2 * ldot g sd).

(** The functions of the problem are defined along the search direction. *)
Definition defined_along (x : X) (sd : list R) : Prop :=
  (exists fx, p_energy P x = Ret fx) /\ (exists r, p_grad P x = Ret r) /\
  forall t, exists x', p_update P x sd t = Ret x' /\ (exists e', p_energy P x' = Ret e') /\ (exists r, p_grad P x' = Ret r).

End Runs.

(** Number of entries of a run of [n] steps that have been written when every [h]-th step writes everything so far. *)
Definition written (n h : nat) : nat := if Nat.ltb n h then O else S (n / h * h).
