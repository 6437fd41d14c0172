(** The lemmas in the form used by Properties/DispersionProps.v. *)
From Coq Require Import List Bool ZArith Reals Lra Lia Permutation.
From Coquelicot Require Import Complex.
From Verif.Base Require Import Scalar ScalarR Linear3 PyDict.
From Verif.Model Require Import MatrixParam Hamiltonian History EnergyInit Energy Dispersion.
From Verif.Spec Require Import HamSpec NotationSpec HistorySpec EnergySpec DispersionSpec.
From Verif.Proofs Require Import HamBasics HistoryProofs EnergyProofs EnergyWitness DispersionMatrix DispersionInit DispersionAxes DispersionModes DispersionOmega DispersionFrame DispersionWitness.
From Coq Require Import List.
Import ListNotations.
Local Open Scope R_scope.

Lemma made_hermitian order cell pos sv (w w1 : world) D : wf w -> unshared w -> reciprocal w -> symmetric_onsite w ->
  dispersion_init order cell pos sv w = (w1, Ret D) -> forall k, hermitian (2 * d_N D) (d_h (w_store w1) D k).
Proof.
  intros A B C E H k. destruct (dispersion_made order cell pos sv w w1 D ltac:(unfold Sym; auto) H) as (w4 & atoms & X).
  apply h_hermitian; [eapply made_both_ends|eapply made_real]; eauto.
Qed.
Lemma made_particle_hole order cell pos sv (w w1 : world) D : wf w -> unshared w -> reciprocal w -> symmetric_onsite w ->
  dispersion_init order cell pos sv w = (w1, Ret D) -> forall k p q, (p < 2 * d_N D)%nat -> (q < 2 * d_N D)%nat ->
  d_h (w_store w1) D (vopp k) p q = Cconj (d_h (w_store w1) D k (other_half (d_N D) p) (other_half (d_N D) q)).
Proof.
  intros A B C E H k p q. destruct (dispersion_made order cell pos sv w w1 D ltac:(unfold Sym; auto) H) as (w4 & atoms & X).
  apply h_particle_hole; [eapply made_both_ends|eapply made_real]; eauto.
Qed.
Lemma iso_case : reachable w_iso /\ (wf w_iso /\ unshared w_iso /\ reciprocal w_iso /\ symmetric_onsite w_iso) /\ bonds w_iso <> [] /\
  exists w1 D, dispersion_init keep one3 origin up w_iso = (w1, Ret D).
Proof. split; [exact r_iso|]. split; [exact iso_sym|]. split; [discriminate|apply iso_made]. Qed.
Definition omega_count := fun solve N h z rI => omega_length solve N h z rI.
Definition omega_values_ok := omega_no_tiny.
Definition omega_count_G := omega_length_G.
Definition axes_ok := span_spec.
Lemma axes_scale c v : 0 < c -> span_orthonormal_set (vscale c v) = span_orthonormal_set v.
Proof.
  intros Hc. destruct (Req_dec (norm v) 0) as [Z|N]; [|apply span_scale; assumption].
  rewrite !span_zero; [reflexivity|exact Z|]. assert (X := norm_sq v). rewrite Z in X. unfold norm. replace (dot (vscale c v) (vscale c v)) with (c * c * dot v v) by (destruct v; r3; ring).
  rewrite <- X. replace (c * c * (0 * 0)) with 0 by ring. apply sqrt_0.
Qed.
Lemma axes_case : norm ez <> 0 /\ span_orthonormal_set ez = Ret (mkV 1 0 0, mkV 0 1 0, mkV 0 0 1).
Proof. split; [rewrite norm_ez; lra|exact span_ez]. Qed.
Definition periodic_ok := h_periodic.
Lemma periodic_case : reciprocal_vector one3 (mkV (2 * PI) (- (2 * PI)) 0) /\ exists w1 D, dispersion_init keep one3 origin up w_iso = (w1, Ret D).
Proof.
  split; [|apply iso_made]. intros i j k. exists (i - j)%Z. rewrite minus_IZR. unfold one3, vmat, mvec, mtrans, mrow1, mrow2, mrow3. r3. ring.
Qed.
Lemma zero_mode order cell pos sv (w w1 : world) D n : wf w -> unshared w -> reciprocal w ->
  (forall k J, bond_value w k = Some J -> exists x : R, J = mscale x mid) -> (forall a, onsite_value w a = None) ->
  (forall a s, sv a = Some s -> exists c : R, 0 < c /\ s = vscale c n) ->
  dispersion_init order cell pos sv w = (w1, Ret D) ->
  forall p, (p < 2 * d_N D)%nat ->
    mat_vec (2 * d_N D) (d_h (w_store w1) D vzero)
      (fun q => if Nat.ltb q (d_N D) then RtoC (sqrt (norm (nth q (d_S D) vzero))) else RtoC 0) p = RtoC 0.
Proof.
  intros A B C J O Hn H. eapply goldstone; eauto. unfold Sym. splits; auto. intros a M E. rewrite O in E. discriminate.
Qed.
Lemma zero_mode_case : (forall k J, bond_value w_iso k = Some J -> exists x : R, J = mscale x mid) /\ (forall a, onsite_value w_iso a = None) /\
  (forall a s, up a = Some s -> exists c : R, 0 < c /\ s = vscale c ez).
Proof.
  splits.
  - intros k J E. apply iso_values in E as [-> _]. exists 1. unfold one3. apply M3_ext; rlin; ring.
  - intros a. reflexivity.
  - intros a s E. apply (f_equal (fun o => match o with Some v => v | None => s end)) in E. cbn in E. subst s. exists 1. split; [lra|]. unfold ez. apply V3_ext; rlin; ring.
Qed.
Lemma semidefinite_handled solve N h zeros_to_none return_imaginary : succeeds_on_positive_definite (2 * N) solve ->
  hermitian (2 * N) h -> (forall x, 0 <= fst (quad (2 * N) h x)) ->
  exists r, (solve h = Some r \/ solve (shift (/ 10 ^ 8) h) = Some r) /\
    omega solve N h zeros_to_none true return_imaginary =
      (map (fun z => if return_imaginary then chop (Num z) else real_part (chop (Num z))) (fst r), Some (Entries (snd r))).
Proof.
  intros ok H P. destruct (second_attempt _ solve ok h H P) as [r2 E2]. unfold omega, attempts.
  destruct (solve h) as [r|] eqn:E1; [exists r|exists r2; rewrite E2]; (split; [auto|]); unfold pos_result; destruct return_imaginary; rewrite ?map_map; reflexivity.
Qed.
Lemma fourth_useless (solve : mat -> option (list C * mat)) N h : succeeds_on_positive_definite (2 * N) solve ->
  hermitian (2 * N) h -> solve (mat_opp h) = None -> solve (shift (- / 10 ^ 8) (mat_opp h)) = None.
Proof. intros ok. apply (fourth_attempt _ solve ok). Qed.
Lemma independent_ok order cell pos sv (w : world) : reachable w ->
  let '(w1, o) := dispersion_init order cell pos sv w in
  wf (mkW (w_store w1) (w_ham w)) /\ same_parameters w (mkW (w_store w1) (w_ham w)) /\
  forall D, o = Ret D -> forall ops, (forall c l, In c ops -> In l (mentions c) -> ~ In l (map snd (d_bonds D))) ->
    forall k p q, d_h (w_store (run ops (mkW (w_store w1) (w_ham w)))) D k p q = d_h (w_store w1) D k p q.
Proof. intros r. apply dispersion_independent, reachable_Inv, r. Qed.
Definition succeeds_ok := dispersion_total.
Lemma succeeds_case : wf w_iso /\ unshared w_iso /\ spins_defined w_iso /\ (forall a, exists s, up a = Some s /\ s <> vzero).
Proof. splits; [exact iso_wf|exact iso_unshared|exact iso_spins|]. intros a. exists ez. split; [reflexivity|exact ez_nonzero]. Qed.
