(** Proofs for C91: the magnon matrix of a Hamiltonian with all couplings multiplied by a number. *)
From Coq Require Import List Bool ZArith Reals Lra Lia Permutation Sorted Arith String.
From Coquelicot Require Import Complex.
From Verif.Base Require Import Scalar ScalarR Linear3 PyDict PyString.
From Verif.Model Require Import MatrixParam Hamiltonian EnergyInit Energy Dispersion.
From Verif.Spec Require Import HamSpec NotationSpec HistorySpec DispersionSpec InvarianceSpec ScaleSpec.
From Verif.Proofs Require Import DictProofs HamBasics HamSetters HamDouble HamDcEnergy NotationProofs HistoryProofs CallProofs FilterProofs FrameProofs
  HamGlue EnergyInitProofs OptimizerProofs DispersionMatrix DispersionInit InvarianceProofs RotationProofs.
From Coq Require Import List.
Import ListNotations.
Local Open Scope R_scope.

(** ** The matrix *)
Lemma form_scaled c a J b : form a (mscale c J) b = Cmult (RtoC c) (form a J b).
Proof. unfold form. destruct a as [[? ?] [? ?] [? ?]], b as [[? ?] [? ?] [? ?]], J. unfold cbil, cv_mat, cv_dot, cm_scale, mscale, mmap. cbn [Linear3.mxx Linear3.mxy Linear3.mxz Linear3.myx Linear3.myy Linear3.myz Linear3.mzx Linear3.mzy Linear3.mzz Linear3.vx Linear3.vy Linear3.vz]. change (@fmul R R_Scalar) with Rmult. cplx; ring. Qed.
Definition scale_entry (c : R) (e : entry) : entry := let '(i, j, d, J) := e in (i, j, d, mscale c J).
Lemma lsum_scaled c l : lsum (map (Cmult c) l) = Cmult c (lsum l).
Proof. induction l as [|x l IH]; cbn [map lsum fold_right]; [ring|]. unfold lsum in *. rewrite IH. ring. Qed.
Section Matrix.
Variables (c : R) (st st' : list (M3 R)) (D D' : dispersion).
Hypothesis EN : d_N D' = d_N D.
Hypothesis ES : d_S D' = d_S D.
Hypothesis Eu : d_u D' = d_u D.
Hypothesis Ev : d_v D' = d_v D.
Hypothesis HE : Permutation (map (scale_entry c) (entries st D)) (entries st' D').

Lemma J_scaled a k i j b : cbil a (d_J st' D' k i j) b = Cmult (RtoC c) (cbil a (d_J st D k i j) b).
Proof.
  rewrite !J_sum, <- lsum_scaled. rewrite <- (lsum_perm _ _ (Permutation_map (weight a b k i j) HE)). rewrite !map_map. f_equal. apply map_ext.
  intros [[[i' j'] d] J]. cbn [scale_entry weight]. destruct (_ && _); [rewrite form_scaled; ring|ring].
Qed.
Lemma A_scaled k i j : d_A st' D' k i j = Cmult (RtoC c) (d_A st D k i j).
Proof. unfold d_A, S_, u_. rewrite ES, Eu, J_scaled. ring. Qed.
Lemma B_scaled k i j : d_B st' D' k i j = Cmult (RtoC c) (d_B st D k i j).
Proof. unfold d_B, S_, u_. rewrite ES, Eu, J_scaled. ring. Qed.
Lemma C_scaled i j : d_C st' D' i j = Cmult (RtoC c) (d_C st D i j).
Proof.
  unfold d_C. destruct (Nat.eqb i j); [|ring]. rewrite EN. generalize (seq 0 (d_N D)). intros l.
  replace (RtoC 0) with (Cmult (RtoC c) (RtoC 0)) at 1 by ring. generalize (RtoC 0). induction l as [|x l IH]; intros z; cbn [fold_left]; [reflexivity|].
  rewrite <- IH. f_equal. unfold S_, v_. rewrite ES, Ev, J_scaled. ring.
Qed.
Lemma conj_scaled z : Cconj (Cmult (RtoC c) z) = Cmult (RtoC c) (Cconj z).
Proof. destruct z. cplx; ring. Qed.
Lemma h_scaled k p q : d_h st' D' k p q = Cmult (RtoC c) (d_h st D k p q).
Proof. unfold d_h, c2. rewrite EN, !A_scaled, !B_scaled, !C_scaled, !conj_scaled. destruct (p <? d_N D)%nat, (q <? d_N D)%nat; ring. Qed.
End Matrix.

(** ** Hamiltonians *)
Lemma mscale_comm2 c d (J : M3 R) : mscale c (mscale d J) = mscale d (mscale c J). Proof. destruct J. r3. f_equal; ring. Qed.
Lemma mscale_add c (J J' : M3 R) : mscale c (madd J J') = madd (mscale c J) (mscale c J'). Proof. destruct J, J'. r3. f_equal; ring. Qed.
Lemma mscale_zero c : mscale c (@mzero R _) = mzero. Proof. r3. f_equal; ring. Qed.
Lemma mscale_trans c (J : M3 R) : mscale c (mtrans J) = mtrans (mscale c J). Proof. reflexivity. Qed.

Definition rescale (c : R) (w : world) : world := mkW (map (mscale c) (w_store w)) (w_ham w).
Lemma rescale_bond c w k : bond_value (rescale c w) k = option_map (mscale c) (bond_value w k).
Proof. unfold bond_value, rescale; cbn [w_store w_ham]. destruct (dget _ _); [apply nth_error_map|reflexivity]. Qed.
Lemma rescale_onsite c w k : onsite_value (rescale c w) k = option_map (mscale c) (onsite_value w k).
Proof. unfold onsite_value, rescale; cbn [w_store w_ham]. destruct (dget _ _); [apply nth_error_map|reflexivity]. Qed.
Lemma rescale_wf c w : wf w -> wf (rescale c w).
Proof. intros (A & B & C & D & E & G). unfold wf, rescale; cbn [w_store w_ham]. rewrite map_length. splits; auto. Qed.
Lemma rescale_full c w dc sn ef of_ : full w dc sn ef of_ -> full (rescale c w) dc sn ef of_.
Proof.
  intros [W U Sp (A & B & C) No Ne Nf]. constructor; auto using rescale_wf.
  unfold reciprocal_storage. splits; auto. destruct dc; [|exact C]. destruct C as [C1 C2]. split; [exact C1|].
  intros k J J'. rewrite !rescale_bond. destruct (bond_value w k) as [X|] eqn:E; [|discriminate]. destruct (bond_value w (mirror k)) as [X'|] eqn:E'; [|discriminate].
  cbn [option_map]. intros Y Y'. injection Y as <-. injection Y' as <-. rewrite (C2 k X X' E E'). apply mscale_trans.
Qed.
Lemma rescale_coupled c w dc sn ef of_ w' dc' sn' ef' of' : same_coupled w dc sn ef of_ w' dc' sn' ef' of' -> same_coupled (rescale c w) dc sn ef of_ (rescale c w') dc' sn' ef' of'.
Proof.
  intros (A & B & C). unfold same_coupled. splits.
  - exact A.
  - intros k Hc. specialize (B k Hc). rewrite !rescale_bond. change (cb dc' sn' ef' (rescale c w') k) with (cb dc' sn' ef' w' k). change (cb dc sn ef (rescale c w) k) with (cb dc sn ef w k).
    apply (f_equal (option_map (mscale c))) in B. destruct (bond_value w k), (bond_value w' k); cbn [option_map] in *; try discriminate; [|reflexivity].
    rewrite !(mscale_comm2 _ c). exact B.
  - intros a. specialize (C a). rewrite !rescale_onsite. change (co sn' of' (rescale c w') a) with (co sn' of' w' a). change (co sn of_ (rescale c w) a) with (co sn of_ w a).
    apply (f_equal (option_map (mscale c))) in C. destruct (onsite_value w a), (onsite_value w' a); cbn [option_map] in *; try discriminate; [|reflexivity].
    rewrite !(mscale_comm2 _ c). exact C.
Qed.
Lemma rescale_model c sn ef of_ w sn' ef' of' w' : scaled_model c sn ef of_ w sn' ef' of' w' -> same_model sn ef of_ (rescale c w) sn' ef' of' w'.
Proof.
  intros (A & B & C & D & E). unfold same_model. splits; auto.
  - intros k H. rewrite (D k H). unfold pair_coupling. change (spin_length sn (rescale c w)) with (spin_length sn w).
    destruct (spin_length sn w (b_from k)) as [x|]; [|reflexivity]. destruct (spin_length sn w (b_to k)) as [y|]; [|reflexivity]. cbn [option_map]. f_equal.
    rewrite (mscale_comm2 c), mscale_add. do 2 f_equal; unfold stored; rewrite rescale_bond.
    + destruct (bond_value w k); [reflexivity|apply mscale_zero].
    + rewrite mscale_trans. destruct (bond_value w (mirror k)); [reflexivity|]. cbn [option_map]. rewrite mscale_zero. reflexivity.
  - intros a H. rewrite (E a H). unfold site_coupling. change (spin_length sn (rescale c w)) with (spin_length sn w). rewrite rescale_onsite.
    destruct (spin_length sn w a) as [x|]; [|reflexivity]. destruct (onsite_value w a); [|reflexivity]. cbn [option_map]. rewrite (mscale_comm2 c). reflexivity.
Qed.
Lemma rescale_listed c cell pos w atoms : wf w -> listed cell pos (rescale c w) atoms = map (scale_entry c) (listed cell pos w atoms).
Proof.
  intros W. unfold listed. rewrite !map_map, !map_app, !map_map. change (sites (rescale c w)) with (sites w). change (bonds (rescale c w)) with (bonds w).
  f_equal; apply map_ext_in; intros x I; cbn [fst snd scale_entry].
  - rewrite rescale_onsite. apply (onsite_value_stored w x W) in I as [J ->]. reflexivity.
  - rewrite rescale_bond. apply (bond_value_stored w x W) in I as [J ->]. reflexivity.
Qed.

Lemma h_rescaled c order order' cell pos sv (w w' w1 w1' : world) D D' dc sn ef of_ dc' sn' ef' of' :
  (forall l, Permutation (order l) l) -> (forall l, Permutation (order' l) l) ->
  wf w -> unshared w -> spins_defined w -> reciprocal_storage w dc -> notation_is w dc sn ef of_ -> ef <> 0 -> of_ <> 0 ->
  wf w' -> unshared w' -> spins_defined w' -> reciprocal_storage w' dc' -> notation_is w' dc' sn' ef' of' -> ef' <> 0 -> of' <> 0 ->
  distinctly_indexed w -> scaled_model c sn ef of_ w sn' ef' of' w' ->
  dispersion_init order cell pos sv w = (w1, Ret D) -> dispersion_init order' cell pos sv w' = (w1', Ret D') ->
  d_N D' = d_N D /\ forall k p q, d_h (w_store w1') D' k p q = Cmult (RtoC c) (d_h (w_store w1) D k p q).
Proof.
  intros Po Po' W U Sp St No Ne Nf W' U' Sp' St' No' Ne' Nf' Hi Pm H H'. assert (Fw := full_intro w dc sn ef of_ W U Sp St No Ne Nf).
  assert (Fw' := full_intro w' dc' sn' ef' of' W' U' Sp' St' No' Ne' Nf').
  destruct (dispersion_parts _ _ _ _ _ _ _ _ _ _ _ Fw H) as (w4 & atoms & ax & F4 & P4 & M4 & E4 & A4 & D4).
  destruct (dispersion_parts _ _ _ _ _ _ _ _ _ _ _ Fw' H') as (v4 & atoms' & ax' & F4' & P4' & M4' & E4' & A4' & D4').
  assert (Ft := rescale_full c w _ _ _ _ Fw). assert (F4t := rescale_full c w4 _ _ _ _ F4).
  assert (Q : same_coupled (rescale c w4) true false 1 1 v4 true false 1 1).
  { eapply same_coupled_trans; [apply same_coupled_sym, rescale_coupled, P4|].
    eapply same_coupled_trans; [apply (model_coupled (rescale c w) w' _ _ _ _ _ _ _ _ Ft Fw' (rescale_model _ _ _ _ _ _ _ _ _ Pm))|exact P4']. }
  assert (SP := coupled_determined _ _ _ _ _ _ F4t F4' Q).
  assert (Hw4 : forall a, with_parameter w4 a -> with_parameter w a) by exact (coupled_with _ _ _ _ _ _ _ _ _ _ Fw F4 P4).
  assert (Hi4 : distinctly_indexed (rescale c w4)). { intros a b Ia Ib. apply Hi; [exact (Hw4 a Ia)|exact (Hw4 b Ib)]. }
  assert (EA : atoms' = atoms).
  { refine (same_atoms order order' (rescale c w4) v4 atoms atoms' Po Po' _ Hi4 _ M4').
    - intros a. split; [exact (coupled_with _ _ _ _ _ _ _ _ _ _ F4t F4' Q a)|exact (coupled_with _ _ _ _ _ _ _ _ _ _ F4' F4t (same_coupled_sym _ _ _ _ _ _ _ _ _ _ Q) a)].
    - unfold magnetic_atoms in M4 |- *. rewrite bind_gets in M4 |- *. injection M4 as M4. unfold ret. change (w_ham (rescale c w4)) with (w_ham w4). rewrite M4. reflexivity. }
  subst atoms'. assert (ax' = ax) as -> by congruence. split; [rewrite D4, D4'; reflexivity|].
  intros k p q. apply h_scaled; try (rewrite D4, D4'; reflexivity). rewrite E4, E4', <- rescale_listed by apply F4. apply listed_perm; [apply F4t|apply F4'|exact SP].
Qed.
