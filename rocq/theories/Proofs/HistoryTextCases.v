(** A run whose history is written, for C63. *)
From Coq Require Import List Bool ZArith String Lia Permutation Reals Lra.
From Verif.Base Require Import Scalar ScalarR Linear3 PyDict.
From Verif.Model Require Import MatrixParam Hamiltonian History EnergyInit Energy Optimizer.
From Verif.Spec Require Import HistoryTextSpec.
From Verif.Proofs Require Import EnergyWitness OptimizerProofs DescentProofs OptimizerCases OptimizerWitness.
Import ListNotations.
Local Open Scope R_scope.

(** A run of one step with everything written. *)
Lemma run_saved st : nth_error st 1 = Some (mkM 0 0 0 0 a0 0 0 0 0) -> optimize_ferro 1 st (E1 b0) (mkArgs 10 c1d c2d 10000 true 1 None (Some 1%Z)) [ex] (GArray (SRows [ex])) 1 = Some (Ret ([ey], [(0, [2 * (1 / 100000)], [ex]); (a0 + b0, [PI / 2], [ey])])).
Proof.
  intros Hst.
  assert (Pp := quarter). assert (Nx : norm ex = 1) by (apply norm_of; lra).
  unfold optimize_ferro, optimize, starting_ferro. cbn [E1 set_field E_one e_spins List.length Nat.eqb normalize_all].
  rewrite Nx. destruct (Req_EM_T 1 0) as [X|_]; [lra|]. assert (Ux : unit ex = ex) by (unfold unit; rewrite Nx; apply V3_ext; cbn; field). rewrite Ux. cbn [obind].
  cbn [a_tolerance tolerances obind repeat Nat.sub a_m a_c1 a_c2 a_iter_max a_save a_history_step a_max]. fold (E1 b0).
  unfold optimize_from, opt_start. cbn [ferro_problem p_energy]. rewrite (energy_ex st a0 b0 Hst). cbn [obind map]. 
  match goal with |- opt_loop _ _ _ _ _ _ _ _ _ _ _ _ ?s = _ => set (s0 := s) end.
  cbn [opt_loop]. 
  assert (C0 : continues (1 / 100000) [1 / 100000] (o_diff _ s0) (o_targets _ s0) = true).
  { unfold continues, s0. cbn [o_diff]. destruct (Rlt_dec _ _); [reflexivity|exfalso; lra]. }
  rewrite C0. cbn [s0 o_iter Z.of_nat Z.leb Z.compare].
  unfold opt_step. cbn [s0 o_x o_L o_k o_prev o_hist o_out o_energy o_iter ferro_problem p_grad]. rewrite (grad_ex st a0 b0 Hst), b0_k1. cbn [obind].
  rewrite first_direction. cbn [obind]. rewrite (run_search st Hst). cbn [obind ferro_problem p_update p_energy p_target]. rewrite update_ex. cbn [obind]. rewrite (energy_ey st a0 b0 Hst). cbn [obind].
  unfold target_ferro. cbn [map max_list obind]. 
  assert (N : norm (mkV 0 0 (- (PI / 2))) = PI / 2) by (apply norm_of; lra). rewrite N.
  assert (C1 : forall d, continues (1 / 100000) [1 / 100000] d [PI / 2] = true).
  { intros d. unfold continues. cbn [combine existsb fst snd]. destruct (Rlt_dec (1 / 100000) (PI / 2)); [|exfalso; lra]. rewrite orb_true_r. reflexivity. }
  cbn [Nat.modulo Nat.divmod fst Nat.sub snd Nat.eqb]; rewrite C1; reflexivity.
Qed.
Lemma saved_case : exists mu st E a rnd g fuel x h, a_save a = true /\ List.length rnd = List.length (e_spins E) /\
  optimize_ferro mu st E a rnd g fuel = Some (Ret (x, h)) /\ List.length h = 2%nat /\ pieces_of [h; []] /\ List.concat [h; []] = h.
Proof.
  destruct (one_init a0) as (w' & Hi & Hst). eexists 1, (w_store w'), (E1 b0), _, [ex], _, 1%nat, _, _.
  split; [|split; [|split; [apply (run_saved _ Hst)|]]]; try reflexivity. split; [reflexivity|]. split; [split; [discriminate|exact I]|reflexivity].
Qed.
