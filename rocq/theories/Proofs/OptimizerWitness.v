(** Concrete runs of the minimizer: counterexamples and non-vacuity cases for C27-C34 and C54. *)
From Coq Require Import List Bool ZArith String Lia Permutation Reals Lra.
From Coquelicot Require Import Coquelicot.
From Verif.Base Require Import Scalar ScalarR Linear3 PyDict.
From Verif.Model Require Import MatrixParam Hamiltonian History EnergyInit Energy Optimizer.
From Verif.Spec Require Import HamSpec HistorySpec NotationSpec EnergySpec OptimizerSpec.
From Verif.Proofs Require Import DictProofs HamBasics HamWitness EnergyProofs ConeProofs EnergyWitness OptimizerProofs DescentProofs OptimizerCases.
Import ListNotations.
Local Open Scope R_scope.

(** ** One spin with an on-site matrix diag(0, a, 0) in a field (0, b, 0) *)
Definition w_one (a : R) : @world R :=
  run [OSetDC true; OSetSN false; OSetEF 1; OSetOF 1; OAddOnSiteNew (AObj atA) (Some (mkM 0 0 0 0 a 0 0 0 0))] (fresh [] [atA] [(atA, 1)]).
Lemma r_one a : reachable (w_one a). Proof. do 4 eexists; reflexivity. Qed.
Definition one_g : atom -> R := fun _ => 1.
Definition E_one : @energy_obj R := mkEnergy 1 [1] [1] [(0%nat, 0%nat, lattice_vector one3 (0, 0, 0)%Z, 1%nat)] None.
Lemma one_init a : exists w', energy_init keep one_g one3 (w_one a) = (w', Ret E_one) /\
  nth_error (w_store w') 1 = Some (mkM 0 0 0 0 a 0 0 0 0).
Proof.
  eexists. split.
  - rcbv. destruct (Req_EM_T 1 0) as [X|X]; [lra|]. reflexivity.
  - cbn [w_store nth_error]. f_equal. apply M3_ext; cbn; field.
Qed.

Definition fld (b : R) : V3 R := mkV 0 b 0.
Section One.
Variables (st : list (M3 R)) (a b : R).
Hypothesis Hst : nth_error st 1 = Some (mkM 0 0 0 0 a 0 0 0 0).
Definition E1 : @energy_obj R := set_field E_one (Some (fld b)).

Lemma one_energy v : norm v <> 0 -> e_ferro 1 st E1 (SRows [v]) = Ret (a * (vy v / norm v) * (vy v / norm v) + b * (vy v / norm v)).
Proof using Hst.
  intros N. unfold e_ferro. cbn [check_spins E1 set_field E_one e_spins List.length Nat.eqb obind normalize_all].
  destruct (Req_EM_T (norm v) 0) as [Z|_]; [contradiction|]. cbn [obind].
  unfold bonds_energy, bond_energy. cbn [e_bonds e_spins e_factor set_field E_one E1 fold_left nth_error].
  destruct st as [|J0 [|J1 st']]; [discriminate|discriminate|]. injection Hst as ->. cbn [of_option obind].
  f_equal. unfold zeeman. cbn [e_field e_g set_field E_one E1 zeeman_sum unit]. unfold fld. destruct v as [x y z]. unfold bilin, unit. generalize (norm (mkV x y z)). intros n. rlin. ring.
Qed.
End One.

Definition ey : V3 R := mkV 0 1 0.
Definition k1 : R := sqrt (1 + hstep * hstep).
Lemma k1_pos : 0 < k1. Proof. apply sqrt_lt_R0. assert (P := hstep_pos). nra. Qed.
Lemma k1_sq : k1 * k1 = 1 + hstep * hstep. Proof. apply sqrt_sqrt. assert (P := hstep_pos). nra. Qed.
Lemma norm_of x y z n : 0 <= n -> x * x + y * y + z * z = n * n -> norm (mkV x y z) = n.
Proof. intros Hn H. unfold norm, dot. cbn [vx vy vz fadd fmul R_Scalar]. rewrite H. apply sqrt_square, Hn. Qed.

Section Grad.
Variables (st : list (M3 R)) (a b : R).
Hypothesis Hst : nth_error st 1 = Some (mkM 0 0 0 0 a 0 0 0 0).
Lemma one_e x y z n : 0 < n -> x * x + y * y + z * z = n * n -> e_ferro 1 st (E1 b) (SRows [mkV x y z]) = Ret (a * (y / n) * (y / n) + b * (y / n)).
Proof using Hst. intros Hn H. rewrite (one_energy st a b Hst); rewrite (norm_of x y z n); cbn [vy]; trivial; lra. Qed.

Lemma grad_ex : grad_ferro (fun s => e_ferro 1 st (E1 b) (SRows s)) [ex] = Ret ([b / k1; 0; 0], [mkV 0 0 (b / k1)]).
Proof using Hst.
  assert (P := hstep_pos). assert (K := k1_pos). assert (Q := k1_sq). assert (H1 : hstep < 1) by (unfold hstep; lra).
  unfold grad_ferro. cbn [torques_of app]. unfold torque_of, central, ex. cbn [vx vy vz].
  rewrite (one_e (1 - hstep) 0 0 (1 - hstep)) by lra. cbn [obind]. rewrite (one_e (1 + hstep) 0 0 (1 + hstep)) by lra. cbn [obind].
  rewrite (one_e 1 (0 - hstep) 0 k1), (one_e 1 (0 + hstep) 0 k1) by lra. cbn [obind].
  rewrite (one_e 1 0 (0 - hstep) k1), (one_e 1 0 (0 + hstep) k1) by lra. cbn [obind]. unfold layout, entries. cbn [flat_map app].
  assert (X : forall u : V3 R, u = mkV 0 0 (b / k1) -> Ret (([vz u; - vy u; vx u], [u]) : list R * list (V3 R)) = Ret ([b / k1; 0; 0], [mkV 0 0 (b / k1)])).
  { intros u ->. cbn [vx vy vz]. rewrite Ropp_0. reflexivity. }
  apply X. apply V3_ext; rlin; field; lra.
Qed.
Lemma grad_ey : grad_ferro (fun s => e_ferro 1 st (E1 b) (SRows s)) [ey] = Ret ([0; 0; 0], [vzero]).
Proof using Hst.
  assert (P := hstep_pos). assert (K := k1_pos). assert (Q := k1_sq). assert (H1 : hstep < 1) by (unfold hstep; lra).
  unfold grad_ferro. cbn [torques_of app]. unfold torque_of, central, ey. cbn [vx vy vz].
  rewrite (one_e (0 - hstep) 1 0 k1), (one_e (0 + hstep) 1 0 k1) by lra. cbn [obind].
  rewrite (one_e 0 (1 - hstep) 0 (1 - hstep)) by lra. cbn [obind]. rewrite (one_e 0 (1 + hstep) 0 (1 + hstep)) by lra. cbn [obind].
  rewrite (one_e 0 1 (0 - hstep) k1), (one_e 0 1 (0 + hstep) k1) by lra. cbn [obind]. unfold layout, entries. cbn [flat_map app].
  assert (X : forall u : V3 R, u = vzero -> Ret (([vz u; - vy u; vx u], [u]) : list R * list (V3 R)) = Ret ([0; 0; 0], [vzero])).
  { intros u ->. unfold vzero. cbn [vx vy vz f0 R_Scalar]. rewrite Ropp_0. reflexivity. }
  apply X. apply V3_ext; rlin; field; lra.
Qed.
Lemma energy_ex : e_ferro 1 st (E1 b) (SRows [ex]) = Ret 0.
Proof using Hst. unfold ex. rewrite (one_e 1 0 0 1) by lra. f_equal. field. Qed.
Lemma energy_ey : e_ferro 1 st (E1 b) (SRows [ey]) = Ret (a + b).
Proof using Hst. unfold ey. rewrite (one_e 0 1 0 1) by lra. f_equal. field. Qed.
End Grad.

(** A quarter turn. *)
Lemma update_ex : update_ferro [ex] [- (PI / 2); 0; 0] 1 = Ret [ey].
Proof.
  unfold update_ferro, turn_by. cbn [every3 map tl turn_rows obind]. f_equal. f_equal. unfold turn_row.
  assert (Pp := PI_RGT_0).
  assert (T : sqrt ((- (PI / 2) * 1) ^ 2 + (0 * 1) ^ 2 + (0 * 1) ^ 2) = PI / 2).
  { replace ((- (PI / 2) * 1) ^ 2 + (0 * 1) ^ 2 + (0 * 1) ^ 2) with (Rsqr (PI / 2)) by (unfold Rsqr; ring). apply sqrt_Rsqr. lra. }
  rewrite T. destruct (Rlt_dec (PI / 2) eps) as [L|_].
  - exfalso. assert (PI > 2) by (assert (X := PI2_3_2); lra). unfold eps in L. assert (/ 2 ^ 52 < 1) by (rewrite <- Rinv_1; apply Rinv_lt_contravar; [|]; lra). lra.
  - rewrite cos_PI2, sin_PI2. unfold ex, ey. apply V3_ext; rlin; field; lra.
Qed.

(** The default settings. *)
Definition c1d : R := 1 / 10000.
Definition c2d : R := 9 / 10.
Definition b0 : R := - (PI / 2) * k1.
Definition a0 : R := c1d * (PI / 2 * (PI / 2)) - b0.
Lemma b0_k1 : b0 / k1 = - (PI / 2).
Proof. assert (K := k1_pos). unfold b0. field. lra. Qed.
Lemma quarter : 3 / 2 < PI / 2. Proof. assert (X := PI2_3_2). lra. Qed.

Lemma first_direction m size L g prev : search_direction (S m) size L 0 g prev = Ret (lbfgs_zero (S m) size, O, g).
Proof. reflexivity. Qed.

Section Run.
Variable st : list (M3 R).
Hypothesis Hst : nth_error st 1 = Some (mkM 0 0 0 0 a0 0 0 0 0).
Let P := ferro_problem 1 st (E1 b0).
Lemma run_search : line_search _ P c1d c2d 10000 [ex] [- (PI / 2); 0; 0] = Ret 1.
Proof using Hst.
  assert (Pp := quarter).
  unfold line_search, P, ferro_problem. cbn [p_energy p_grad p_update].
  rewrite (energy_ex st a0 b0 Hst). cbn [obind]. rewrite update_ex. cbn [obind]. rewrite (grad_ey st a0 b0 Hst). cbn [obind].
  rewrite (grad_ex st a0 b0 Hst), b0_k1. cbn [obind]. change (10000 + 1)%nat with (S 10000). cbn [shrink p_energy]. rewrite (energy_ey st a0 b0 Hst). cbn [obind].
  unfold rejected, ldot. cbn [lmap2 fold_right].
  destruct (Rlt_dec _ (a0 + b0)) as [L|_]; [exfalso; unfold a0, c1d in L; lra|].
  destruct (Rlt_dec _ _) as [L|_]; [exfalso|reflexivity].
  rewrite !Rmult_0_l, !Rplus_0_l, Rabs_R0 in L. assert (X := Rabs_pos (c2d * (- (PI / 2) * - (PI / 2) + (0 + (0 + 0))))). 
  match type of L with Rabs ?u < 0 => assert (Y := Rabs_pos u); lra end.
Qed.

Definition a_one (save : bool) (tol : option (list R)) : opt_args := mkArgs 10 c1d c2d 10000 save 2 tol (Some 1%Z).
Lemma run_one save : optimize_ferro 1 st (E1 b0) (a_one save None) [] (GArray (SRows [ex])) 1 = Some (Ret ([ey], [])).
Proof using Hst.
  assert (Pp := quarter). assert (Nx : norm ex = 1) by (apply norm_of; lra).
  unfold optimize_ferro, optimize, starting_ferro. cbn [E1 set_field E_one e_spins List.length Nat.eqb normalize_all].
  rewrite Nx. destruct (Req_EM_T 1 0) as [X|_]; [lra|]. assert (Ux : unit ex = ex) by (unfold unit; rewrite Nx; apply V3_ext; cbn; field). rewrite Ux. cbn [obind].
  cbn [a_one a_tolerance tolerances obind repeat Nat.sub a_m a_c1 a_c2 a_iter_max a_save a_history_step a_max]. fold (E1 b0).
  unfold optimize_from, opt_start. cbn [ferro_problem p_energy]. rewrite (energy_ex st a0 b0 Hst). cbn [obind map]. 
  match goal with |- opt_loop _ _ _ _ _ _ _ _ _ _ _ _ ?s = _ => set (s0 := s) end.
  cbn [opt_loop]. 
  assert (C0 : continues (1 / 100000) [1 / 100000] (o_diff _ s0) (o_targets _ s0) = true).
  { unfold continues, s0. cbn [o_diff]. destruct (Rlt_dec _ _); [reflexivity|exfalso; lra]. }
  rewrite C0. cbn [s0 o_iter Z.of_nat Z.leb Z.compare].
  unfold opt_step. cbn [s0 o_x o_L o_k o_prev o_hist o_out o_energy o_iter ferro_problem p_grad]. rewrite (grad_ex st a0 b0 Hst), b0_k1. cbn [obind].
  rewrite first_direction. cbn [obind]. fold P. rewrite run_search. cbn [obind P ferro_problem p_update p_energy p_target]. rewrite update_ex. cbn [obind]. rewrite (energy_ey st a0 b0 Hst). cbn [obind].
  unfold target_ferro. cbn [map max_list obind]. 
  assert (N : norm (mkV 0 0 (- (PI / 2))) = PI / 2) by (apply norm_of; lra). rewrite N.
  assert (C1 : forall d, continues (1 / 100000) [1 / 100000] d [PI / 2] = true).
  { intros d. unfold continues. cbn [combine existsb fst snd]. destruct (Rlt_dec (1 / 100000) (PI / 2)); [|exfalso; lra]. rewrite orb_true_r. reflexivity. }
  destruct save; cbn [Nat.modulo Nat.divmod fst Nat.sub snd Nat.eqb]; rewrite C1; reflexivity.
Qed.
(** Negative tolerances: the initial guess is returned. *)
Lemma run_negative : optimize_ferro 1 st (E1 b0) (mkArgs 10 c1d c2d 10000 false 2 (Some [-1; -1]) None) [] (GArray (SRows [ex])) 0 = Some (Ret ([ex], [])).
Proof using Hst.
  assert (Nx : norm ex = 1) by (apply norm_of; lra).
  unfold optimize_ferro, optimize, starting_ferro. cbn [E1 set_field E_one e_spins List.length Nat.eqb normalize_all].
  rewrite Nx. destruct (Req_EM_T 1 0) as [X|_]; [lra|]. assert (Ux : unit ex = ex) by (unfold unit; rewrite Nx; apply V3_ext; cbn; field). rewrite Ux. cbn [obind].
  cbn [a_tolerance tolerances obind repeat Nat.sub a_m a_c1 a_c2 a_iter_max a_save a_history_step a_max List.length Nat.eqb]. fold (E1 b0).
  unfold optimize_from, opt_start. cbn [ferro_problem p_energy]. rewrite (energy_ex st a0 b0 Hst). cbn [obind map opt_loop o_diff o_targets].
  unfold continues. cbn [combine existsb fst snd]. destruct (Rlt_dec (-1) (-1 * 2)); [exfalso; lra|]. destruct (Rlt_dec (-1) (2 * -1)); [exfalso; lra|]. reflexivity.
Qed.
End Run.

Lemma increase_refuted : exists (w w' : @world R) order g cell E H mu a rnd x0 x h e0 e, reachable w /\ (forall l, Permutation (order l) l) /\
  energy_init order g cell w = (w', Ret E) /\ a_c1 a = 1 / 10000 /\ a_c2 a = 9 / 10 /\ a_m a = 10%nat /\ a_iter_max a = 10000%nat /\ a_max a = Some 1%Z /\ a_tolerance a = None /\
  optimize_ferro mu (w_store w') (set_field E (Some H)) a rnd (GArray (SRows x0)) 1 = Some (Ret (x, h)) /\
  e_ferro mu (w_store w') (set_field E (Some H)) (SRows x0) = Ret e0 /\ e_ferro mu (w_store w') (set_field E (Some H)) (SRows x) = Ret e /\ e0 < e.
Proof.
  destruct (one_init a0) as (w' & Hi & Hst).
  exists (w_one a0), w', keep, one_g, one3, E_one, (fld b0), 1, (a_one false None), [], [ex], [ey], [], 0, (a0 + b0).
  split; [apply r_one|]. split; [apply keep_perm|]. split; [exact Hi|]. do 6 (split; [reflexivity|]).
  split; [apply (run_one _ Hst)|]. split; [apply (energy_ex _ a0 b0 Hst)|]. split; [apply (energy_ey _ a0 b0 Hst)|].
  unfold a0, c1d. assert (X := quarter). nra.
Qed.
Lemma history_refuted : exists (w w' : @world R) order g cell E H mu a rnd x0 x h, reachable w /\ (forall l, Permutation (order l) l) /\
  energy_init order g cell w = (w', Ret E) /\ a_save a = true /\ a_history_step a = 2%nat /\
  optimize_ferro mu (w_store w') (set_field E (Some H)) a rnd (GArray (SRows x0)) 1 = Some (Ret (x, h)) /\ x <> x0 /\ h = [].
Proof.
  destruct (one_init a0) as (w' & Hi & Hst).
  exists (w_one a0), w', keep, one_g, one3, E_one, (fld b0), 1, (a_one true None), [], [ex], [ey], [].
  split; [apply r_one|]. split; [apply keep_perm|]. split; [exact Hi|]. do 2 (split; [reflexivity|]). split; [apply (run_one _ Hst)|]. split; [|reflexivity].
  intros X. injection X as X _. lra.
Qed.
Lemma untouched_case : exists (w w' : @world R) order g cell E H mu a rnd x0 h, reachable w /\ (forall l, Permutation (order l) l) /\
  energy_init order g cell w = (w', Ret E) /\ a_max a = None /\ optimize_ferro mu (w_store w') (set_field E (Some H)) a rnd (GArray (SRows x0)) 0 = Some (Ret (x0, h)) /\
  exists v t, grad_ferro (fun s => e_ferro mu (w_store w') (set_field E (Some H)) (SRows s)) x0 = Ret (v, t) /\ t <> [vzero].
Proof.
  destruct (one_init a0) as (w' & Hi & Hst).
  exists (w_one a0), w', keep, one_g, one3, E_one, (fld b0), 1, (mkArgs 10 c1d c2d 10000 false 2 (Some [-1; -1]) None), [], [ex], [].
  split; [apply r_one|]. split; [apply keep_perm|]. split; [exact Hi|]. split; [reflexivity|]. split; [apply (run_negative _ Hst)|].
  eexists _, _. split; [apply (grad_ex _ a0 b0 Hst)|]. rewrite b0_k1. intros X. injection X as X. assert (Q := quarter). cbn in X. lra.
Qed.

(** ** C30: one spin and the cone axis along z, field along x *)
Definition E3 : @energy_obj R := set_field E_one (Some ex).
Section Cone.
Variable st : list (M3 R).
Hypothesis Hst : nth_error st 1 = Some (mkM 0 0 0 0 0 0 0 0 0).
Lemma cone_e x y z k x' y' z' k' q : 0 < k -> 0 < k' -> x * x + y * y + z * z = k * k -> x' * x' + y' * y' + z' * z' = k' * k' ->
  cone_arg (e_antiferro 1 st E3) [mkV x y z] (mkV x' y' z') q = Ret (x / k + x' / k' * (x / k * (x' / k') + y / k * (y' / k') + z / k * (z' / k'))).
Proof using Hst.
  intros Hk Hk' H H'. unfold cone_arg, e_antiferro, cone_energy. cbn [check_vector obind check_spins E3 set_field E_one e_spins List.length Nat.eqb normalize_all].
  rewrite (norm_of x y z k) by lra. destruct (Req_EM_T k 0) as [Z|_]; [lra|]. cbn [obind]. unfold normalize. rewrite (norm_of x' y' z' k') by lra.
  destruct (Req_EM_T k' 0) as [Z|_]; [lra|]. cbn [obind]. 
  assert (U : unit (mkV x y z) = mkV (x / k) (y / k) (z / k)) by (unfold unit; rewrite (norm_of x y z k) by lra; reflexivity).
  assert (U' : unit (mkV x' y' z') = mkV (x' / k') (y' / k') (z' / k')) by (unfold unit; rewrite (norm_of x' y' z' k') by lra; reflexivity).
  rewrite U, U'. assert (D : dot (mkV (x' / k') (y' / k') (z' / k')) (mkV (x' / k') (y' / k') (z' / k')) = 1).
  { rewrite <- U'. apply unit_is_direction. rewrite (norm_of x' y' z' k'); lra. }
  unfold bonds_energy, bond_energy. cbn [e_bonds e_spins e_factor set_field E_one E3 fold_left nth_error].
  destruct st as [|J0 [|J1 st']]; [discriminate|discriminate|]. injection Hst as ->. cbn [of_option obind].
  f_equal. unfold zeeman. cbn [e_field e_g set_field E_one E3]. change (@fmul R R_Scalar) with Rmult. rewrite so_prime_sum by exact D.
  cbn [plain_zeeman along_zeeman]. generalize (x / k) (y / k) (z / k) D. clear. generalize (x' / k') (y' / k') (z' / k'). intros a b c u v w _.
  generalize (cos (dot q (lattice_vector one3 (0, 0, 0)%Z))) (sin (dot q (lattice_vector one3 (0, 0, 0)%Z))). intros co si. unfold ex, along, bilin, antiferro_C, cone_K. rlin. ring.
Qed.
Lemma cone_gradient q : grad_antiferro (cone_arg (e_antiferro 1 st E3)) ([ez; ez], q) =
  Ret ([0; - / (k1 * k1); 0; 0; 0; 0], [mkV 0 (/ k1) 0; mkV 0 (/ (k1 * k1)) 0]).
Proof using Hst.
  assert (P := hstep_pos). assert (K := k1_pos). assert (Q := k1_sq). assert (H1 : hstep < 1) by (unfold hstep; lra).
  assert (S : torque_of (fun v => cone_arg (e_antiferro 1 st E3) [v] ez q) ez = Ret (mkV 0 (/ k1) 0)).
  { unfold torque_of, central, ez. cbn [vx vy vz].
    rewrite (cone_e (0 - hstep) 0 1 k1 0 0 1 1), (cone_e (0 + hstep) 0 1 k1 0 0 1 1), (cone_e 0 (0 - hstep) 1 k1 0 0 1 1), (cone_e 0 (0 + hstep) 1 k1 0 0 1 1),
      (cone_e 0 0 (1 - hstep) (1 - hstep) 0 0 1 1), (cone_e 0 0 (1 + hstep) (1 + hstep) 0 0 1 1) by lra. cbn [obind]. f_equal. apply V3_ext; rlin; field; lra. }
  assert (T : torque_of (fun n => cone_arg (e_antiferro 1 st E3) [ez] n q) ez = Ret (mkV 0 (/ (k1 * k1)) 0)).
  { unfold torque_of, central, ez. cbn [vx vy vz].
    rewrite (cone_e 0 0 1 1 (0 - hstep) 0 1 k1), (cone_e 0 0 1 1 (0 + hstep) 0 1 k1), (cone_e 0 0 1 1 0 (0 - hstep) 1 k1), (cone_e 0 0 1 1 0 (0 + hstep) 1 k1),
      (cone_e 0 0 1 1 0 0 (1 - hstep) (1 - hstep)), (cone_e 0 0 1 1 0 0 (1 + hstep) (1 + hstep)) by lra. cbn [obind]. f_equal. apply V3_ext; rlin; field; lra. }
  unfold grad_antiferro, unpack. cbn [fst snd removelast last torques_of app]. rewrite S. cbn [obind]. rewrite T. cbn [obind List.length app]. reflexivity.
Qed.
End Cone.
Lemma cone_gradient_refuted : exists (w w' : @world R) order g cell E H mu x v tq, reachable w /\ (forall l, Permutation (order l) l) /\
  energy_init order g cell w = (w', Ret E) /\ unit_rows (fst x) /\ List.length (fst x) = S (List.length (e_spins E)) /\
  grad_antiferro (cone_arg (e_antiferro mu (w_store w') (set_field E (Some H)))) x = Ret (v, tq) /\ v <> gradient_order tq.
Proof.
  destruct (one_init 0) as (w' & Hi & Hst).
  exists (w_one 0), w', keep, one_g, one3, E_one, ex, 1, ([ez; ez], vzero). eexists _, _.
  split; [apply r_one|]. split; [apply keep_perm|]. split; [exact Hi|]. split; [repeat constructor; unfold ez; rlin; ring|]. split; [reflexivity|].
  split; [apply (cone_gradient _ Hst)|]. cbn [gradient_order vx vy vz]. intros X. apply (f_equal (fun l => nth 4 l 0)) in X. cbn [nth] in X. assert (K := k1_pos). assert (0 < / (k1 * k1)) by (apply Rinv_0_lt_compat; nra). lra.
Qed.

(** ** C28: the spiral vector *)
Lemma q_case : unit_rows [ex; ex] /\ dot ez ez = 1 /\ (exists e, e_spiral 1 st_c (E_c None) (SRows [ex; ex]) (Some ez) (Some (mkV (PI / 2) 0 0)) = Ret e) /\
  q_gradient st_c (E_c None) [ex; ex] ez (mkV (PI / 2) 0 0) = Ret (mkV (-2) 0 0).
Proof.
  splits.
  - repeat constructor; unfold ex; rlin; ring.
  - unfold ez; rlin; ring.
  - apply (cone_total spiral_C 1 st_c (E_c None) _ [ex; ex] ez ez); try discriminate; try reflexivity.
    + apply Forall2_cons; [apply dir_ex|apply Forall2_cons; [apply dir_ex|apply Forall2_nil]].
    + apply dir_ez.
    + intros i j d l [X|[X|[]]]; injection X as <- <- <- <-; cbn; lia.
  - unfold q_gradient, E_c. cbn [e_bonds fold_left q_term]. unfold bond_energy. cbn [e_factor e_spins nth_error st_c of_option].
    replace (dot (mkV (PI / 2) 0 0) (mkV 1 0 0)) with (PI / 2) by (rlin; field). rewrite cos_PI2, sin_PI2.
    replace (dot (mkV (PI / 2) 0 0) (mkV 0 0 0)) with 0 by (rlin; field). rewrite cos_0, sin_0.
    f_equal. unfold ex, ez, one3, bilin, spiral_dC, cone_K. unfold f2. apply V3_ext; rlin; field.
Qed.
Lemma q_uphill_refuted : exists mu st E rows n q, unit_rows rows /\ dot n n = 1 /\ exists g f d, q_gradient st E rows n q = Ret g /\
  (forall s, e_spiral mu st E (SRows rows) (Some n) (Some (vadd q (vscale s g))) = Ret (f s)) /\ is_derive f 0 d /\ 0 < d.
Proof.
  destruct q_case as (U & Hn & [e He] & G). exists 1, st_c, (E_c None), [ex; ex], ez, (mkV (PI / 2) 0 0). split; [exact U|]. split; [exact Hn|].
  destruct (q_ascent _ _ _ _ _ _ _ U Hn He) as (g & f & Hg & Hf & Hd). rewrite G in Hg. injection Hg as <-. exists (mkV (-2) 0 0), f, (dot (mkV (-2) 0 0) (mkV (-2) 0 0)). splits; auto. rlin. lra.
Qed.

(** ** C54 *)
Lemma second_case : exists L' sd, search_direction 2 2 (lbfgs_zero 2 2) 1 [2; 1] (Some (1, [1; 0], [1; 0])) = Ret (L', 1%nat, sd) /\ ldot [2; 1] sd < 0.
Proof.
  destruct (search_direction 2 2 (lbfgs_zero 2 2) 1 [2; 1] (Some (1, [1; 0], [1; 0]))) as [[[L' k'] sd]|x] eqn:H.
  - assert (k' = 1%nat).
    { unfold search_direction in H. cbn -[Rdiv Rmult Rplus Rminus Rlt_dec Req_EM_T] in H. destruct (Req_EM_T _ 0) as [Z|_]; [discriminate|].
      destruct (Rlt_dec _ 0) as [Z|_]; [exfalso|injection H; auto]. revert Z. 
      replace (1 * 1 * (2 - 1) + (1 * 0 * (1 - 0) + 0)) with 1 by ring. lra. }
    subst k'. exists L', sd. split; [reflexivity|].
    destruct (second_direction 2 2 1 [1; 0] [2; 1] L' 1 sd) as (_ & Le & Eq); auto; [lra|].
    destruct Le as [Lt|E0]; [exact Lt|]. apply Eq in E0. unfold ldot in E0. cbn in E0. lra.
  - exfalso. unfold search_direction in H. cbn -[Rdiv Rmult Rplus Rminus Rlt_dec Req_EM_T] in H. destruct (Req_EM_T _ 0) as [Z|_].
    + lra.
    + destruct (Rlt_dec _ 0); discriminate.
Qed.
Lemma second_refuted : exists m size lam g0 g1 L' sd, 0 < lam /\ List.length g0 = size /\ List.length g1 = size /\
  search_direction m size (lbfgs_zero m size) 1 g1 (Some (lam, g0, g0)) = Ret (L', 1%nat, sd) /\ ldot g1 sd < 0.
Proof. destruct second_case as (L' & sd & H & N). exists 2%nat, 2%nat, 1, [1; 0], [2; 1], L', sd. splits; auto. lra. Qed.

Lemma unit_ex : unit_rows [ex].
Proof. repeat constructor; unfold ex; rlin; ring. Qed.
Lemma run_case : exists st, optimize_ferro 1 st (E1 b0) (a_one true None) [] (GArray (SRows [ex])) 1 = Some (Ret ([ey], [])).
Proof. destruct (one_init a0) as (w' & _ & Hst). exists (w_store w'). apply run_one, Hst. Qed.
Lemma search_case : exists st, line_search _ (ferro_problem 1 st (E1 b0)) c1d c2d 10000 [ex] [- (PI / 2); 0; 0] = Ret 1.
Proof. destruct (one_init a0) as (w' & _ & Hst). exists (w_store w'). apply run_search, Hst. Qed.

(** A line search that fails: the energy is the coordinate, every step increases it, the gradient points the other way. *)
Definition P_up : problem R := mkP (fun x => Ret x) (fun x => Ret ([-1], [])) (fun x sd s => Ret (x + s)) (fun _ => Ret []) 1.
Lemma fail_case : defined_along P_up 0 [1] /\ line_search _ P_up c1d c2d 3 0 [1] = Raise ValueError.
Proof.
  split.
  - unfold defined_along, P_up. cbn. splits; eauto 10.
  - unfold line_search, P_up. cbn [p_energy p_update p_grad obind Nat.add].
    assert (Rj : forall s, 0 < s -> rejected c1d c2d 0 [-1] [1] s (0 + s) [-1] = true).
    { intros s Hs. unfold rejected, ldot, c1d. cbn [lmap2 fold_right]. destruct (Rlt_dec _ _); [reflexivity|exfalso; lra]. }
    do 5 (cbn [shrink p_energy p_update p_grad obind]; rewrite Rj by lra; cbn [obind]). reflexivity.
Qed.
