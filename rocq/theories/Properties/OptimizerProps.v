(** Properties C27-C34 and C54: the energy minimizer. *)
From Coq Require Import List Bool ZArith Permutation Reals.
From Coquelicot Require Import Coquelicot.
From Coq Require Import List.
From Verif.Base Require Import Scalar ScalarR Linear3 PyDict.
From Verif.Model Require Import MatrixParam Hamiltonian History EnergyInit Energy Optimizer.
From Verif.Spec Require Import HamSpec HistorySpec EnergySpec OptimizerSpec.
From Verif.Proofs Require Import EnergyWitness OptimizerProofs DescentProofs OptimizerCases OptimizerWitness.
Import ListNotations.
Local Open Scope R_scope.

(** ** C27 *)
Theorem C27_ferro_step : forall x sd step y, update_ferro x sd step = Ret y -> unit_rows x -> unit_rows y /\ length y = length x.
Proof. exact update_ferro_keeps. Qed.
Print Assumptions C27_ferro_step.
Theorem C27_ferro_step_defined : forall sd step x n, length sd = (3 * n)%nat -> (n <= length x)%nat -> exists y, update_ferro x sd step = Ret y.
Proof. exact turn_by_total. Qed.
Print Assumptions C27_ferro_step_defined.
Theorem C27_antiferro_step : forall x sd step y, update_antiferro x sd step = Ret y -> unit_rows (fst x) ->
  unit_rows (fst y) /\ length (fst y) = length (fst x) /\ snd y = snd x.
Proof. exact update_antiferro_keeps. Qed.
Print Assumptions C27_antiferro_step.
Theorem C27_antiferro_step_defined : forall x sd step n, length sd = (3 * n + 3)%nat -> (n <= length (fst x))%nat -> exists y, update_antiferro x sd step = Ret y.
Proof. exact update_antiferro_total. Qed.
Print Assumptions C27_antiferro_step_defined.
Theorem C27_spiral_step : forall x sd step y, update_spiral x sd step = Ret y -> unit_rows (fst x) ->
  unit_rows (fst y) /\ length (fst y) = length (fst x).
Proof. exact update_spiral_keeps. Qed.
Print Assumptions C27_spiral_step.
Theorem C27_spiral_step_defined : forall x sd step n, length sd = (3 * n + 3)%nat -> (n <= length (fst x))%nat -> exists y, update_spiral x sd step = Ret y.
Proof. exact update_spiral_total. Qed.
Print Assumptions C27_spiral_step_defined.

Example C27_case : unit_rows [ex] /\ update_ferro [ex] [- (PI / 2); 0; 0] 1 = Ret [ey].
Proof. exact (conj unit_ex update_ex). Qed.

(** All runs, whatever the initial guess: the result and every entry of the history. *)
Theorem C27_ferro_run : forall mu st E a rnd g fuel x h, optimize_ferro mu st E a rnd g fuel = Some (Ret (x, h)) ->
  unit_rows x /\ (a_save a = true -> Forall (fun en : entry _ => unit_rows (snd en)) h).
Proof. exact ferro_run_unit. Qed.
Print Assumptions C27_ferro_run.
Theorem C27_antiferro_run : forall mu st E a rnd ra q g ga fuel x h, optimize_antiferro mu st E a rnd ra q g ga fuel = Some (Ret (x, h)) ->
  (unit_rows (fst x) /\ q = VVec (snd x)) /\ (a_save a = true -> Forall (fun en : entry _ => unit_rows (fst (snd en)) /\ q = VVec (snd (snd en))) h).
Proof. exact antiferro_run_unit. Qed.
Print Assumptions C27_antiferro_run.
Theorem C27_spiral_run : forall mu st E a rnd ra rq g ga gq fuel x h, optimize_spiral mu st E a rnd ra rq g ga gq fuel = Some (Ret (x, h)) ->
  unit_rows (fst x) /\ (a_save a = true -> Forall (fun en : entry _ => unit_rows (fst (snd en))) h).
Proof. exact spiral_run_unit. Qed.
Print Assumptions C27_spiral_run.

Example C27_run_case : exists st, optimize_ferro 1 st (E1 b0) (a_one true None) [] (GArray (SRows [ex])) 1 = Some (Ret ([ey], [])).
Proof. exact run_case. Qed.

(** ** C28 *)
(** Full claim: with the gradients of the code, which are central differences of the energy of normalized vectors. Here
    the differences are taken of the energy of the plain vectors, for which they are exact. The update ignores
    turns by angles below [eps]. *)
Theorem C28_spins_partial : forall mu st E rows m size L prev,
  let ts := map (energy_torque mu st E rows) (seq 0 (length rows)) in let g := gradient_order ts in
  grad_ferro (fun s => Ret (total_energy mu st E s)) rows = Ret (g, ts) /\
  search_direction (S m) size L 0 g prev = Ret (lbfgs_zero (S m) size, O, g) /\
  (forall s, 0 < s -> (forall t, In t ts -> t = vzero \/ eps <= s * norm t) -> update_ferro rows g s = Ret (turn_all ts s rows)) /\
  is_derive (fun s => total_energy mu st E (turn_all ts s rows)) 0 (- sum_dot ts ts).
Proof. exact first_step_descends. Qed.
Print Assumptions C28_spins_partial.
(** On unit vectors the plain energy is the energy of the code. *)
Theorem C28_energy : forall mu st E rows e, unit_rows rows -> e_ferro mu st E (SRows rows) = Ret e -> e = total_energy mu st E rows.
Proof. exact ferro_total. Qed.
Print Assumptions C28_energy.
(** Any turn, not only the one along the gradient. *)
Theorem C28_derivative : forall mu st E rows ts, length ts = length rows ->
  is_derive (fun s => total_energy mu st E (turn_all ts s rows)) 0 (- sum_dot ts (map (energy_torque mu st E rows) (seq 0 (length rows)))).
Proof. exact energy_derive. Qed.
Print Assumptions C28_derivative.

(** The spiral vector: the update adds the step times the last three entries, and along the q gradient the energy grows. *)
Theorem C28_q_moves : forall x a b c sd step y, update_spiral x (sd ++ [a; b; c]) step = Ret y -> snd y = vadd (snd x) (vscale step (mkV a b c)).
Proof. exact spiral_moves_q. Qed.
Print Assumptions C28_q_moves.
Theorem C28_q_ascends : forall mu st E rows n q e, unit_rows rows -> dot n n = 1 -> e_spiral mu st E (SRows rows) (Some n) (Some q) = Ret e ->
  exists g f, q_gradient st E rows n q = Ret g /\ (forall s, e_spiral mu st E (SRows rows) (Some n) (Some (vadd q (vscale s g))) = Ret (f s)) /\ is_derive f 0 (dot g g).
Proof. exact q_ascent. Qed.
Print Assumptions C28_q_ascends.
Theorem C28_q_refuted : exists mu st E rows n q, unit_rows rows /\ dot n n = 1 /\ exists g f d, q_gradient st E rows n q = Ret g /\
  (forall s, e_spiral mu st E (SRows rows) (Some n) (Some (vadd q (vscale s g))) = Ret (f s)) /\ is_derive f 0 d /\ 0 < d.
Proof. exact q_uphill_refuted. Qed.
Print Assumptions C28_q_refuted.

(** ** C29 *)
Theorem C29_derivative : forall mu st E rows n q w e, unit_rows rows -> dot n n = 1 -> e_spiral mu st E (SRows rows) (Some n) (Some q) = Ret e ->
  exists g f, q_gradient st E rows n q = Ret g /\ (forall s, e_spiral mu st E (SRows rows) (Some n) (Some (vadd q (vscale s w))) = Ret (f s)) /\ is_derive f 0 (dot g w).
Proof. exact q_gradient_derive. Qed.
Print Assumptions C29_derivative.
(** The gradient vector of the spiral case: all torques in order, then the derivative with respect to q. *)
Theorem C29_layout : forall E qg x v tq, grad_spiral E qg x = Ret (v, tq) ->
  exists ts t g, tq = ts ++ [t] /\ length ts = length (removelast (fst x)) /\ qg (removelast (fst x)) (last (fst x) vzero) (snd x) = Ret g /\
    v = gradient_order (ts ++ [t]) ++ [vx g; vy g; vz g].
Proof. exact spiral_layout. Qed.
Print Assumptions C29_layout.

Example C29_case : unit_rows [ex; ex] /\ dot ez ez = 1 /\ (exists e, e_spiral 1 st_c (E_c None) (SRows [ex; ex]) (Some ez) (Some (mkV (PI / 2) 0 0)) = Ret e) /\
  q_gradient st_c (E_c None) [ex; ex] ez (mkV (PI / 2) 0 0) = Ret (mkV (-2) 0 0).
Proof. exact q_case. Qed.

(** ** C30 *)
(** The vector really computed: the torque of the cone axis [t] stands in place of the torque [tl] of the last spin. *)
Theorem C30_layout : forall (E : list (V3 R) -> V3 R -> V3 R -> out R) x v tq, grad_antiferro E x = Ret (v, tq) -> (2 <= length (fst x))%nat ->
  exists ts tl t, tq = ts ++ [tl; t] /\ length tq = length (fst x) /\ v = gradient_order (ts ++ [t]) ++ [0; 0; 0].
Proof. exact antiferro_layout. Qed.
Print Assumptions C30_layout.
Theorem C30_layout_refuted : exists (w w' : @world R) order g cell E H mu x v tq, reachable w /\ (forall l, Permutation (order l) l) /\
  energy_init order g cell w = (w', Ret E) /\ unit_rows (fst x) /\ List.length (fst x) = S (List.length (e_spins E)) /\
  grad_antiferro (cone_arg (e_antiferro mu (w_store w') (set_field E (Some H)))) x = Ret (v, tq) /\ v <> gradient_order tq.
Proof. exact cone_gradient_refuted. Qed.
Print Assumptions C30_layout_refuted.
(** The cone axis returned is the initial one, in every run. *)
Theorem C30_axis_never_moves : forall mu st E a rnd ra q g ga fuel x h, optimize_antiferro mu st E a rnd ra q g ga fuel = Some (Ret (x, h)) ->
  exists s n v, starting_antiferro rnd ra (length (e_spins E)) q g ga = Ret (s ++ [n], v) /\ length s = length (e_spins E) /\
    exists s', x = (s' ++ [n], v) /\ length s' = length s.
Proof. exact antiferro_axis_stays. Qed.
Print Assumptions C30_axis_never_moves.

(** ** C31 *)
Theorem C31_stops : forall X (P : problem X) m c1 c2 im save hs tol tols mx fuel x0 x h,
  optimize_from X P m c1 c2 im save hs tol tols mx fuel x0 = Some (Ret (x, h)) ->
  exists es e t, visits P x0 (es ++ [(e, t, x)]) /\ (forall z, mx = Some z -> (length es <= Z.to_nat z)%nat) /\
    (converged tol tols (es ++ [(e, t, x)]) \/ (es = [] /\ tol <= 0 /\ Forall (fun a => a <= 0) tols) \/ exists z, mx = Some z /\ length es = Z.to_nat z).
Proof. exact @run_stops. Qed.
Print Assumptions C31_stops.
(** With max_iterations the loop ends after at most that many turns. *)
Theorem C31_ends : forall X (P : problem X) m c1 c2 im save hs tol tols mx z fuel x0, mx = Some z -> (Z.to_nat z <= fuel)%nat ->
  exists r, optimize_from X P m c1 c2 im save hs tol tols mx fuel x0 = Some r.
Proof. exact @run_ends. Qed.
Print Assumptions C31_ends.
(** Negative tolerances: the initial guess comes back although its torques do not vanish. *)
Example C31_untouched : exists (w w' : @world R) order g cell E H mu a rnd x0 h, reachable w /\ (forall l, Permutation (order l) l) /\
  energy_init order g cell w = (w', Ret E) /\ a_max a = None /\ optimize_ferro mu (w_store w') (set_field E (Some H)) a rnd (GArray (SRows x0)) 0 = Some (Ret (x0, h)) /\
  exists v t, grad_ferro (fun s => e_ferro mu (w_store w') (set_field E (Some H)) (SRows s)) x0 = Ret (v, t) /\ t <> [vzero].
Proof. exact untouched_case. Qed.

(** ** C32 *)
Theorem C32_found : forall X (P : problem X) c1 c2 iter_max x sd r, line_search X P c1 c2 iter_max x sd = Ret r ->
  exists fx g ts i, p_energy P x = Ret fx /\ p_grad P x = Ret (g, ts) /\ (i <= iter_max + 1)%nat /\ r = (99 / 100) ^ i /\
    acceptable P c1 c2 x sd fx g r /\ forall j, (j < i)%nat -> ~ acceptable P c1 c2 x sd fx g ((99 / 100) ^ j).
Proof. exact @line_search_ok. Qed.
Print Assumptions C32_found.
Theorem C32_not_found : forall X (P : problem X) c1 c2 iter_max x sd e, defined_along P x sd -> line_search X P c1 c2 iter_max x sd = Raise e ->
  e = ValueError /\ forall fx g ts, p_energy P x = Ret fx -> p_grad P x = Ret (g, ts) ->
    forall j, (j <= iter_max + 1)%nat -> ~ acceptable P c1 c2 x sd fx g ((99 / 100) ^ j).
Proof. exact @line_search_fail. Qed.
Print Assumptions C32_not_found.

Example C32_case : exists st, line_search _ (ferro_problem 1 st (E1 b0)) c1d c2d 10000 [ex] [- (PI / 2); 0; 0] = Ret 1.
Proof. exact search_case. Qed.
Example C32_case_fail : defined_along P_up 0 [1] /\ line_search _ P_up c1d c2d 3 0 [1] = Raise ValueError.
Proof. exact fail_case. Qed.

(** ** C33 *)
(** What an accepted step guarantees. Full claim: e' <= e. *)
Theorem C33_bound_partial : forall X (P : problem X) c1 c2 im x sd step x', line_search X P c1 c2 im x sd = Ret step -> p_update P x sd step = Ret x' ->
  exists e e' g ts, p_energy P x = Ret e /\ p_energy P x' = Ret e' /\ p_grad P x = Ret (g, ts) /\ e' <= e + c1 * step * ldot g sd /\ 0 < step <= 1.
Proof. exact @accepted_bound. Qed.
Print Assumptions C33_bound_partial.
(** With all settings at their defaults, one step returns a state of higher energy. *)
Theorem C33_refuted : exists (w w' : @world R) order g cell E H mu a rnd x0 x h e0 e, reachable w /\ (forall l, Permutation (order l) l) /\
  energy_init order g cell w = (w', Ret E) /\ a_c1 a = 1 / 10000 /\ a_c2 a = 9 / 10 /\ a_m a = 10%nat /\ a_iter_max a = 10000%nat /\ a_max a = Some 1%Z /\ a_tolerance a = None /\
  optimize_ferro mu (w_store w') (set_field E (Some H)) a rnd (GArray (SRows x0)) 1 = Some (Ret (x, h)) /\
  e_ferro mu (w_store w') (set_field E (Some H)) (SRows x0) = Ret e0 /\ e_ferro mu (w_store w') (set_field E (Some H)) (SRows x) = Ret e /\ e0 < e.
Proof. exact increase_refuted. Qed.
Print Assumptions C33_refuted.

(** ** C34 *)
(** Full claim: also with max_iterations. *)
Theorem C34_unlimited_partial : forall X (P : problem X) m c1 c2 im hs tol tols fuel x0 x h,
  optimize_from X P m c1 c2 im true hs tol tols None fuel x0 = Some (Ret (x, h)) ->
  exists es e t, visits P x0 (es ++ [(e, t, x)]) /\ h = es ++ [(e, t, x)].
Proof. exact @run_history_unlimited. Qed.
Print Assumptions C34_unlimited_partial.
(** What is written in all cases: everything, or the entries up to the last multiple of [hs]. *)
Theorem C34_written : forall X (P : problem X) m c1 c2 im hs tol tols mx fuel x0 x h,
  optimize_from X P m c1 c2 im true hs tol tols mx fuel x0 = Some (Ret (x, h)) ->
  exists es e t, visits P x0 (es ++ [(e, t, x)]) /\
    (h = es ++ [(e, t, x)] \/
     (exists z, mx = Some z /\ length es = Z.to_nat z) /\ (hs = O /\ h = [] \/ h = firstn (written (length es) hs) (es ++ [(e, t, x)]))).
Proof. exact @run_history. Qed.
Print Assumptions C34_written.
Theorem C34_refuted : exists (w w' : @world R) order g cell E H mu a rnd x0 x h, reachable w /\ (forall l, Permutation (order l) l) /\
  energy_init order g cell w = (w', Ret E) /\ a_save a = true /\ a_history_step a = 2%nat /\
  optimize_ferro mu (w_store w') (set_field E (Some H)) a rnd (GArray (SRows x0)) 1 = Some (Ret (x, h)) /\ x <> x0 /\ h = [].
Proof. exact history_refuted. Qed.
Print Assumptions C34_refuted.

(** ** C54 *)
(** Whenever the second search direction is not a restart, it has a non-positive product with the gradient; the product
    is zero only if the two gradients are parallel. (The first direction is the gradient itself, C28.) *)
Theorem C54_second_direction : forall m size lam g0 g1 L' k' sd, (2 <= m)%nat -> 0 < lam -> length g0 = size -> length g1 = size ->
  search_direction m size (lbfgs_zero m size) 1 g1 (Some (lam, g0, g0)) = Ret (L', k', sd) -> k' = 1%nat ->
  0 < ldot g0 (lsub g1 g0) /\ ldot g1 sd <= 0 /\ (ldot g1 sd = 0 -> ldot g0 g1 * ldot g0 g1 = ldot g0 g0 * ldot g1 g1).
Proof. exact second_direction. Qed.
Print Assumptions C54_second_direction.
Theorem C54_refuted : exists m size lam g0 g1 L' sd, 0 < lam /\ length g0 = size /\ length g1 = size /\
  search_direction m size (lbfgs_zero m size) 1 g1 (Some (lam, g0, g0)) = Ret (L', 1%nat, sd) /\ ldot g1 sd < 0.
Proof. exact second_refuted. Qed.
Print Assumptions C54_refuted.
