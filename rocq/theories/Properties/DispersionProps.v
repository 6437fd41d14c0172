(** Properties C35, C36, C38 and C55-C59: the magnon dispersion. *)
From Coq Require Import List Bool ZArith Permutation Reals.
From Coquelicot Require Import Complex.
From Coq Require Import List.
From Verif.Base Require Import Scalar ScalarR Linear3 PyDict.
From Verif.Model Require Import MatrixParam Hamiltonian History EnergyInit Energy Dispersion.
From Verif.Spec Require Import HamSpec HistorySpec NotationSpec DispersionSpec.
From Verif.Proofs Require Import EnergyWitness DispersionGlue DispersionWitness.
Import ListNotations.
Local Open Scope R_scope.

(** ** C35 *)
Theorem C35_hermitian : forall order cell pos sv (w w1 : @world R) D, wf w -> unshared w -> reciprocal w -> symmetric_onsite w ->
  dispersion_init order cell pos sv w = (w1, Ret D) -> forall k, hermitian (2 * d_N D) (d_h (w_store w1) D k).
Proof. exact made_hermitian. Qed.
Print Assumptions C35_hermitian.

(** Needed: the on-site matrices are symmetric. *)
Theorem C35_refuted : exists (w w1 : @world R) order cell pos sv D k, reachable w /\ unshared w /\ reciprocal w /\ (forall l, Permutation (order l) l) /\
  dispersion_init order cell pos sv w = (w1, Ret D) /\ ~ hermitian (2 * d_N D) (d_h (w_store w1) D k).
Proof. exact hermitian_refuted. Qed.
Print Assumptions C35_refuted.

Example C35_case : reachable w_iso /\ (wf w_iso /\ unshared w_iso /\ reciprocal w_iso /\ symmetric_onsite w_iso) /\ bonds w_iso <> [] /\
  exists w1 D, dispersion_init keep one3 origin up w_iso = (w1, Ret D).
Proof. exact iso_case. Qed.

(** ** C36 *)
Theorem C36_particle_hole : forall order cell pos sv (w w1 : @world R) D, wf w -> unshared w -> reciprocal w -> symmetric_onsite w ->
  dispersion_init order cell pos sv w = (w1, Ret D) -> forall k p q, (p < 2 * d_N D)%nat -> (q < 2 * d_N D)%nat ->
  d_h (w_store w1) D (vopp k) p q = Cconj (d_h (w_store w1) D k (other_half (d_N D) p) (other_half (d_N D) q)).
Proof. exact made_particle_hole. Qed.
Print Assumptions C36_particle_hole.

(** ** C38 *)
Theorem C38_count : forall solve N h zeros_to_none return_imaginary, one_energy_per_row (2 * N) solve ->
  length (fst (omega solve N h zeros_to_none false return_imaginary)) = N.
Proof. exact omega_count. Qed.
Print Assumptions C38_count.
Theorem C38_values : forall solve N h zeros_to_none return_G, real_energies solve ->
  Forall (fun x => (x = NaN /\ zeros_to_none = true /\ solve h = None) \/ exists r : R, x = Num (RtoC r) /\ (r = 0 \/ Rabs r > / 10 ^ 8))
    (fst (omega solve N h zeros_to_none return_G false)).
Proof. exact omega_values_ok. Qed.
Print Assumptions C38_values.
Theorem C38_count_return_G : forall solve N h zeros_to_none return_imaginary, one_energy_per_row (2 * N) solve ->
  zeros_to_none = true \/ (exists r, solve h = Some r \/ solve (shift (/ 10 ^ 8) h) = Some r \/ solve (mat_opp h) = Some r) ->
  length (fst (omega solve N h zeros_to_none true return_imaginary)) = (2 * N)%nat.
Proof. exact omega_count_G. Qed.
Print Assumptions C38_count_return_G.
Theorem C38_return_G_refuted : exists N h solve, one_energy_per_row (2 * N) solve /\
  length (fst (omega solve N h false true false)) <> (2 * N)%nat.
Proof. exact return_G_refuted. Qed.
Print Assumptions C38_return_G_refuted.
(** Without the assumption that the energies are real, tiny values are not all replaced: the test looks at the modulus. *)
Theorem C38_tiny_refuted : exists N h solve r, one_energy_per_row (2 * N) solve /\
  In (Num (RtoC r)) (fst (omega solve N h false false false)) /\ r <> 0 /\ Rabs r <= / 10 ^ 8.
Proof. exact tiny_refuted. Qed.
Print Assumptions C38_tiny_refuted.
Example C38_case : forall n, exists solve : mat -> option (list C * mat), succeeds_on_positive_definite n solve /\ one_energy_per_row n solve /\ real_energies solve.
Proof. exact contract_case. Qed.

(** ** C55 *)
Theorem C55_axes : forall v, norm v <> 0 -> exists e1 e2 e3, span_orthonormal_set v = Ret (e1, e2, e3) /\ right_handed e1 e2 e3 /\
  (~ near_pole (direction_of v) -> e3 = direction_of v) /\
  Rabs (vx e3 - vx (direction_of v)) <= / 10 ^ 8 + / 10 ^ 5 /\ Rabs (vy e3 - vy (direction_of v)) <= / 10 ^ 8 + / 10 ^ 5 /\
  Rabs (vz e3 - vz (direction_of v)) <= / 10 ^ 8 + / 10 ^ 5.
Proof. exact axes_ok. Qed.
Print Assumptions C55_axes.
Theorem C55_scale : forall c v, 0 < c -> span_orthonormal_set (vscale c v) = span_orthonormal_set v.
Proof. exact axes_scale. Qed.
Print Assumptions C55_scale.
(** Near the poles the third axis is the pole. *)
Theorem C55_pole_refuted : exists v e1 e2 e3, norm v <> 0 /\ span_orthonormal_set v = Ret (e1, e2, e3) /\ e3 <> direction_of v.
Proof. exact pole_refuted. Qed.
Print Assumptions C55_pole_refuted.
Example C55_case : norm ez <> 0 /\ span_orthonormal_set ez = Ret (mkV 1 0 0, mkV 0 1 0, mkV 0 0 1).
Proof. exact axes_case. Qed.

(** ** C56 *)
Theorem C56_periodic : forall order cell pos sv (w w1 : @world R) D G, dispersion_init order cell pos sv w = (w1, Ret D) -> reciprocal_vector cell G ->
  exists theta : nat -> R, (forall i, (i < d_N D)%nat -> theta (i + d_N D)%nat = theta i) /\
    forall k p q, (p < 2 * d_N D)%nat -> (q < 2 * d_N D)%nat ->
      d_h (w_store w1) D (vadd k G) p q = Cmult (Cmult (Cconj (phase (theta p))) (d_h (w_store w1) D k p q)) (phase (theta q)).
Proof. exact periodic_ok. Qed.
Print Assumptions C56_periodic.
Example C56_case : reciprocal_vector one3 (mkV (2 * PI) (- (2 * PI)) 0) /\ exists w1 D, dispersion_init keep one3 origin up w_iso = (w1, Ret D).
Proof. exact periodic_case. Qed.

(** ** C57 *)
Theorem C57_zero_mode : forall order cell pos sv (w w1 : @world R) D n, wf w -> unshared w -> reciprocal w ->
  (forall k J, bond_value w k = Some J -> exists x : R, J = mscale x mid) -> (forall a, onsite_value w a = None) ->
  (forall a s, sv a = Some s -> exists c : R, 0 < c /\ s = vscale c n) ->
  dispersion_init order cell pos sv w = (w1, Ret D) ->
  forall p, (p < 2 * d_N D)%nat ->
    mat_vec (2 * d_N D) (d_h (w_store w1) D vzero)
      (fun q => if Nat.ltb q (d_N D) then RtoC (sqrt (norm (nth q (d_S D) vzero))) else RtoC 0) p = RtoC 0.
Proof. exact zero_mode. Qed.
Print Assumptions C57_zero_mode.
Example C57_case : (forall k J, bond_value w_iso k = Some J -> exists x : R, J = mscale x mid) /\ (forall a, onsite_value w_iso a = None) /\
  (forall a s, up a = Some s -> exists c : R, 0 < c /\ s = vscale c ez).
Proof. exact zero_mode_case. Qed.

(** ** C58 *)
(** [solve] stands for the diagonalization. A positive semidefinite matrix is handled by the first or the second attempt. *)
Theorem C58_semidefinite : forall solve N h zeros_to_none return_imaginary, succeeds_on_positive_definite (2 * N) solve ->
  hermitian (2 * N) h -> (forall x, 0 <= fst (quad (2 * N) h x)) ->
  exists r, (solve h = Some r \/ solve (shift (/ 10 ^ 8) h) = Some r) /\
    omega solve N h zeros_to_none true return_imaginary =
      (map (fun z => if return_imaginary then chop (Num z) else real_part (chop (Num z))) (fst r), Some (Entries (snd r))).
Proof. exact semidefinite_handled. Qed.
Print Assumptions C58_semidefinite.
(** Full claim: likewise for negative semidefinite matrices. The fourth attempt moves the matrix the wrong way and never
    succeeds where the third failed. *)
Theorem C58_fourth_attempt_useless : forall (solve : mat -> option (list C * mat)) N h, succeeds_on_positive_definite (2 * N) solve ->
  hermitian (2 * N) h -> solve (mat_opp h) = None -> solve (shift (- / 10 ^ 8) (mat_opp h)) = None.
Proof. exact fourth_useless. Qed.
Print Assumptions C58_fourth_attempt_useless.
Theorem C58_negative_semidefinite_refuted : exists N h, hermitian (2 * N) h /\ (forall x, fst (quad (2 * N) h x) <= 0) /\ h <> (fun _ _ => RtoC 0) /\
  forall solve, succeeds_on_positive_definite (2 * N) solve -> forall zeros return_G return_imaginary,
    fst (omega solve N h zeros return_G return_imaginary) = repeat (if zeros then NaN else Num (RtoC 0)) (if return_G && zeros then 2 * N else N).
Proof. exact negative_semidefinite_refuted. Qed.
Print Assumptions C58_negative_semidefinite_refuted.

(** ** C59 *)
Theorem C59_independent : forall order cell pos sv (w : @world R), reachable w ->
  let '(w1, o) := dispersion_init order cell pos sv w in
  wf (mkW (w_store w1) (w_ham w)) /\ same_parameters w (mkW (w_store w1) (w_ham w)) /\
  forall D, o = Ret D -> forall ops, (forall c l, In c ops -> In l (mentions c) -> ~ In l (map snd (d_bonds D))) ->
    forall k p q, d_h (w_store (run ops (mkW (w_store w1) (w_ham w)))) D k p q = d_h (w_store w1) D k p q.
Proof. exact independent_ok. Qed.
Print Assumptions C59_independent.
Theorem C59_succeeds : forall order cell pos sv (w : @world R), (forall l, Permutation (order l) l) -> wf w -> unshared w -> spins_defined w ->
  (forall a, In a (sites w) \/ (exists k, In k (bonds w) /\ (b_from k = a \/ b_to k = a)) -> exists s, sv a = Some s /\ s <> vzero) ->
  exists w1 D, dispersion_init order cell pos sv w = (w1, Ret D).
Proof. exact succeeds_ok. Qed.
Print Assumptions C59_succeeds.
Example C59_case : wf w_iso /\ unshared w_iso /\ spins_defined w_iso /\ (forall a, exists s, up a = Some s /\ s <> vzero).
Proof. exact succeeds_case. Qed.
