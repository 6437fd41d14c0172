(** The energies of two objects that describe the same magnons. *)
From Coq Require Import List Bool ZArith Reals Lra Lia Permutation.
From Coquelicot Require Import Complex.
From Verif.Base Require Import Scalar ScalarR Linear3 PyDict.
From Verif.Model Require Import MatrixParam Hamiltonian History EnergyInit Energy Dispersion Solver.
From Verif.Spec Require Import HamSpec HistorySpec NotationSpec EnergySpec DispersionSpec InvarianceSpec RotationSpec OmegaSpec.
From Verif.Proofs Require Import HistoryProofs DispersionInit DispersionModes DispersionGlue InvarianceProofs RotationProofs OmegaProofs OmegaSolver GoldstoneProofs.
From Coq Require Import List.
Import ListNotations.
Local Open Scope R_scope.

Lemma axes_omega np np' O P order order' cell pos sv sv' (w w' w1 w1' : world) D D' dc sn ef of_ dc' sn' ef' of' : numpy_works np -> numpy_works np' -> rotation O -> isometry P ->
  (forall l, Permutation (order l) l) -> (forall l, Permutation (order' l) l) ->
  wf w -> unshared w -> spins_defined w -> reciprocal_storage w dc -> notation_is w dc sn ef of_ -> ef <> 0 -> of_ <> 0 ->
  wf w' -> unshared w' -> spins_defined w' -> reciprocal_storage w' dc' -> notation_is w' dc' sn' ef' of' -> ef' <> 0 -> of' <> 0 ->
  distinctly_indexed w -> rotated_model O sn ef of_ w sn' ef' of' w' ->
  (forall a, carries w a -> exists s, sv a = Some s /\ sv' a = Some (mvec O s) /\ sharp s /\ sharp (mvec O s)) ->
  dispersion_init order cell pos sv w = (w1, Ret D) -> dispersion_init order' (turned_cell P cell) (fun a => mvec P (pos a)) sv' w' = (w1', Ret D') ->
  forall k zeros_to_none return_G return_imaginary,
    fst (omega (colpa_solver np' (d_N D')) (d_N D') (d_h (w_store w1') D' (mvec P k)) zeros_to_none return_G return_imaginary) =
    fst (omega (colpa_solver np (d_N D)) (d_N D) (d_h (w_store w1) D k) zeros_to_none return_G return_imaginary).
Proof.
  intros W W' HO HP Po Po' H1 H2 H3 H4 H5 H6 H7 H8 H9 H10 H11 H12 H13 H14 H15 H16 H17 H18 H19 k z rG rI.
  destruct (h_rotated O P order order' cell pos sv sv' w w' w1 w1' D D' dc sn ef of_ dc' sn' ef' of' HO HP Po Po' H1 H2 H3 H4 H5 H6 H7 H8 H9 H10 H11 H12 H13 H14 H15 H16 H17 H18 H19) as (EN & phi & Hphi & Hh).
  rewrite EN. apply (@phases_omega (d_N D) phi Hphi np np'); [exact W|exact W'|]. intros p q Hp Hq. apply Hh; assumption.
Qed.

Lemma model_omega np np' order order' cell pos sv (w w' w1 w1' : world) D D' dc sn ef of_ dc' sn' ef' of' : numpy_works np -> numpy_works np' ->
  (forall l, Permutation (order l) l) -> (forall l, Permutation (order' l) l) ->
  wf w -> unshared w -> spins_defined w -> reciprocal_storage w dc -> notation_is w dc sn ef of_ -> ef <> 0 -> of_ <> 0 ->
  wf w' -> unshared w' -> spins_defined w' -> reciprocal_storage w' dc' -> notation_is w' dc' sn' ef' of' -> ef' <> 0 -> of' <> 0 ->
  distinctly_indexed w -> same_model sn ef of_ w sn' ef' of' w' ->
  dispersion_init order cell pos sv w = (w1, Ret D) -> dispersion_init order' cell pos sv w' = (w1', Ret D') ->
  forall k zeros_to_none return_G return_imaginary,
    fst (omega (colpa_solver np' (d_N D')) (d_N D') (d_h (w_store w1') D' k) zeros_to_none return_G return_imaginary) =
    fst (omega (colpa_solver np (d_N D)) (d_N D) (d_h (w_store w1) D k) zeros_to_none return_G return_imaginary).
Proof.
  intros W W' Po Po' H1 H2 H3 H4 H5 H6 H7 H8 H9 H10 H11 H12 H13 H14 H15 H16 H17 H18 k z rG rI.
  destruct (h_model order order' cell pos sv w w' w1 w1' D D' dc sn ef of_ dc' sn' ef' of' Po Po' H1 H2 H3 H4 H5 H6 H7 H8 H9 H10 H11 H12 H13 H14 H15 H16 H17 H18) as (EN & Hh).
  rewrite EN. apply (@equal_omega np np'); [exact W|exact W'|]. intros p q _ _. apply Hh.
Qed.

Lemma opposite_omega np np' order cell pos sv (w w1 : world) D : numpy_works np -> numpy_works np' -> wf w -> unshared w -> reciprocal w -> symmetric_onsite w ->
  dispersion_init order cell pos sv w = (w1, Ret D) -> forall k zeros_to_none return_imaginary,
    fst (omega (colpa_solver np' (d_N D)) (d_N D) (d_h (w_store w1) D (vopp k)) zeros_to_none true return_imaginary) =
    rev (fst (omega (colpa_solver np (d_N D)) (d_N D) (d_h (w_store w1) D k) zeros_to_none true return_imaginary)).
Proof.
  intros W W' H1 H2 H3 H4 H5 k z rI. apply (@hole_omega np np'); [exact W|exact W'|].
  intros p q Hp Hq. apply (made_particle_hole order cell pos sv w w1 D H1 H2 H3 H4 H5); assumption.
Qed.

Lemma phase_mod x : Cmod (phase x) = 1.
Proof. unfold Cmod, phase. cbn [fst snd]. rewrite <- (sqrt_1). f_equal. rewrite <- (sin2_cos2 x). unfold Rsqr. ring. Qed.
Lemma periodic_omega np np' order cell pos sv (w w1 : world) D G : numpy_works np -> numpy_works np' -> dispersion_init order cell pos sv w = (w1, Ret D) -> reciprocal_vector cell G ->
  forall k zeros_to_none return_G return_imaginary,
    fst (omega (colpa_solver np' (d_N D)) (d_N D) (d_h (w_store w1) D (vadd k G)) zeros_to_none return_G return_imaginary) =
    fst (omega (colpa_solver np (d_N D)) (d_N D) (d_h (w_store w1) D k) zeros_to_none return_G return_imaginary).
Proof.
  intros W W' H HG k z rG rI. destruct (periodic_ok order cell pos sv w w1 D G H HG) as (th & _ & Hh).
  apply (@units_omega (d_N D) (fun p => Cconj (phase (th p)))) with (np := np) (np' := np'); [|exact W|exact W'|].
  - intros i _. rewrite mod_conj. apply phase_mod.
  - intros p q Hp Hq. rewrite Hh by assumption. f_equal. destruct (phase (th q)) as [a b]. unfold Cconj; cbn [fst snd]. rewrite Ropp_involutive. reflexivity.
Qed.

Lemma goldstone_omega np order cell pos sv (w w1 : world) D n : numpy_works np -> wf w -> unshared w -> reciprocal w ->
  (forall k J, bond_value w k = Some J -> exists x : R, J = mscale x mid) -> (forall a, onsite_value w a = None) ->
  (forall a s, sv a = Some s -> exists c : R, 0 < c /\ s = vscale c n) ->
  dispersion_init order cell pos sv w = (w1, Ret D) -> (0 < d_N D)%nat ->
  forall zeros_to_none return_G return_imaginary, let energies := fst (omega (colpa_solver np (d_N D)) (d_N D) (d_h (w_store w1) D vzero) zeros_to_none return_G return_imaginary) in
    In (Num (RtoC 0)) energies \/ (zeros_to_none = true /\ forall x, In x energies -> x = NaN).
Proof.
  intros W A B C0 J O Hn H HN z rG rI. cbv zeta.
  assert (S0 : Sym w). { unfold Sym. splits; auto. intros a M E. rewrite O in E. discriminate. }
  apply (@mode_omega np (d_N D) _ (fun q => if Nat.ltb q (d_N D) then RtoC (sqrt (norm (nth q (d_S D) vzero))) else RtoC 0)); [exact W| | |].
  - exists 0%nat. split; [exact HN|]. destruct (Nat.ltb_spec 0 (d_N D)); [|lia].
    destruct (dispersion_made _ _ _ _ _ _ _ S0 H) as (w4 & atoms & [_ _ EN _ Ax _ (L1 & L2 & L3)]).
    destruct (nth_axes D atoms n sv 0) as (_ & P & _); auto; [lia|]. unfold S_ in P.
    intros Z. apply RtoC_inj in Z. apply sqrt_eq_0 in Z; lra.
  - intros p Hp. destruct (Nat.ltb_spec p (d_N D)); [lia|reflexivity].
  - apply (zero_mode order cell pos sv w w1 D n); assumption.
Qed.
