(** Final forms of the statements about [SpinHamiltonian] used in the property files. *)
From Coq Require Import List Bool ZArith String Lia Permutation.
From Coq Require Import Ring Field Field_theory Ring_theory.
From Verif.Base Require Import Scalar Linear3 PyDict.
From Verif.Model Require Import MatrixParam Hamiltonian History.
From Verif.Spec Require Import HamSpec HistorySpec NotationSpec.
From Verif.Proofs Require Import DictProofs HamBasics HamSetters HamDouble HamDcEnergy NotationProofs HistoryProofs CallProofs FilterProofs FrameProofs.
Import ListNotations.
Local Open Scope fld_scope.
Local Open Scope py_scope.

Section Glue.
Context {F : Type} {SF : Scalar F}.
Add Field F_field : (@f_field F SF).
Notation ham := (@ham F).
Notation world := (@world F).
Notation M := (@M F).

(** ** Energy of equal contents *)
Lemma osum_perm (l l' : list (option F)) : Permutation l l' -> osum l = osum l'.
Proof.
  induction 1; cbn [osum]; auto.
  - rewrite IHPermutation. reflexivity.
  - destruct x, y, (osum l); try reflexivity. f_equal. ring.
  - congruence.
Qed.
Lemma energy_equal (w w' : world) L s : wf w -> wf w' -> same_parameters w w' ->
  h_sn (w_ham w') = h_sn (w_ham w) -> h_ef (w_ham w') = h_ef (w_ham w) -> h_of (w_ham w') = h_of (w_ham w) ->
  h_spins (w_ham w') = h_spins (w_ham w) -> energy w' L s = energy w L s.
Proof.
  intros W W' [Vb Vo] E1 E2 E3 E4. unfold energy. rewrite E1, E2, E3.
  destruct (h_sn (w_ham w)) as [sn|]; [|reflexivity].
  assert (Pb : Permutation (bonds w') (bonds w)).
  { apply NoDup_Permutation; [apply W'|apply W|]. intros k. rewrite (bond_value_stored w' k W'), (bond_value_stored w k W), Vb. reflexivity. }
  assert (Ps : Permutation (sites w') (sites w)).
  { apply NoDup_Permutation; [apply W'|apply W|]. intros k. rewrite (onsite_value_stored w' k W'), (onsite_value_stored w k W), Vo. reflexivity. }
  assert (Hl : forall a, spin_length sn w' a = spin_length sn w a) by (intros a; unfold spin_length, spin_of; rewrite E4; reflexivity).
  assert (Tb : forall k, bond_term sn w' L s k = bond_term sn w L s k) by (intros k; unfold bond_term; rewrite !Hl, Vb; reflexivity).
  assert (Ts : forall k, site_term sn w' L s k = site_term sn w L s k) by (intros k; unfold site_term; rewrite !Hl, Vo; reflexivity).
  rewrite (osum_perm _ _ (Permutation_map (bond_term sn w' L s) Pb)), (osum_perm _ _ (Permutation_map (site_term sn w' L s) Ps)).
  rewrite (map_ext _ _ Tb), (map_ext _ _ Ts). reflexivity.
Qed.

(** ** Factors and normalization *)
Lemma ef_energy (w : world) old new : wf w -> unshared w -> h_ef (w_ham w) = Some old -> new <> 0 ->
  exists w', set_exchange_factor new w = (w', Ret tt) /\ forall L s E, energy w L s = Some E -> energy w' L s = Some E.
Proof.
  intros W U E0 N. destruct (set_ef_total w new W N) as [w' E]. exists w'. split; [exact E|]. intros L s X H.
  exact (set_exchange_factor_energy w w' new old L s X (proj1 W) U E0 E H).
Qed.
Lemma of_energy (w : world) old new : wf w -> unshared w -> h_of (w_ham w) = Some old -> new <> 0 ->
  exists w', set_on_site_factor new w = (w', Ret tt) /\ forall L s E, energy w L s = Some E -> energy w' L s = Some E.
Proof.
  intros W U E0 N. destruct (set_of_total w new W N) as [w' E]. exists w'. split; [exact E|]. intros L s X H.
  exact (set_on_site_factor_energy w w' new old L s X (proj1 (proj2 W)) U E0 E H).
Qed.
Lemma sn_energy (w : world) old new : wf w -> unshared w -> h_sn (w_ham w) = Some old -> spins_defined w ->
  exists w', set_spin_normalized new w = (w', Ret tt) /\ forall L s E, energy w L s = Some E -> energy w' L s = Some E.
Proof.
  intros W U E0 N. destruct (set_sn_total w new W N) as [w' E]. exists w'. split; [exact E|]. intros L s X H.
  exact (set_spin_normalized_energy w w' new old L s X (proj1 W) (proj1 (proj2 W)) U E0 E H).
Qed.

(** ** Assigning the current value *)
Lemma reassign_dc (w : world) dc sn ef of_ : full w dc sn ef of_ ->
  exists w', set_double_counting dc w = (w', Ret tt) /\ full w' dc sn ef of_ /\ same_parameters w w'.
Proof.
  intros F0. destruct (step_dc w dc sn ef of_ dc F0) as (w' & E & F1 & P). exists w'. splits; auto.
  exact (full_determined w w' dc sn ef of_ F0 F1 P).
Qed.
Lemma reassign (w : world) dc sn ef of_ : wf w -> unshared w -> spins_defined w -> reciprocal_storage w dc ->
  notation_is w dc sn ef of_ -> ef <> 0 -> of_ <> 0 ->
  exists w', set_notation (N4 dc sn ef of_) w = (w', Ret tt) /\ notation_is w' dc sn ef of_ /\ same_parameters w w'.
Proof.
  intros W U S St No Ne Nf. assert (F0 := full_intro w dc sn ef of_ W U S St No Ne Nf).
  destruct (set_notation_full w _ _ _ _ dc sn ef of_ F0 Ne Nf) as (w1 & E1 & F1 & P1). exists w1. splits; [exact E1|apply F1|].
  exact (full_determined w w1 dc sn ef of_ F0 F1 P1).
Qed.
(** The three other properties: assigning the current value never changes anything. *)
Lemma reassign_simple (w : world) :
  (forall b, h_sn (w_ham w) = Some b -> set_spin_normalized b w = (w, Ret tt)) /\
  (forall x, h_ef (w_ham w) = Some x -> set_exchange_factor x w = (w, Ret tt)) /\
  (forall x, h_of (w_ham w) = Some x -> set_on_site_factor x w = (w, Ret tt)).
Proof.
  destruct w as [st h]. destruct h as [ex on at_ sp dc sn ef of_]. cbn [w_ham h_sn h_ef h_of]. splits; intros x ->.
  - destruct x; reflexivity.
  - unfold set_exchange_factor. rewrite bind_gets. cbn [w_ham h_ef]. destruct (feq_dec x x) as [_|N]; [reflexivity|congruence].
  - unfold set_on_site_factor. rewrite bind_gets. cbn [w_ham h_of]. destruct (feq_dec x x) as [_|N]; [reflexivity|congruence].
Qed.

(** ** The whole notation at once *)
Lemma same_rest_of_dc (w w' : world) b : wf w -> (h_dc (w_ham w) = Some (negb b) -> unshared w) -> set_double_counting b w = (w', Ret tt) -> same_rest w w'.
Proof.
  intros W U E. destruct b.
  - destruct (set_dc_true_ok w W U) as (w1 & E1 & _ & _ & R & _). congruence.
  - destruct (set_dc_false_ok w W U (set_dc_false_inv w w' W E)) as (w1 & E1 & _ & _ & R & _). congruence.
Qed.
Lemma dc_energy (w : world) dc sn ef of_ new : full w dc sn ef of_ ->
  exists w', set_double_counting new w = (w', Ret tt) /\ full w' new sn ef of_ /\
    forall L s, periodic L s -> forall E, energy w L s = Some E -> energy w' L s = Some E.
Proof.
  intros F0. destruct (step_dc w dc sn ef of_ new F0) as (w' & E & F1 & P1). exists w'. splits; auto. intros L s P X H.
  destruct (fu_no _ _ _ _ _ F0) as (N1 & N2 & N3 & N4). destruct (fu_st _ _ _ _ _ F0) as (S1 & S2 & S3).
  destruct (bool_dec new dc) as [->|Nb].
  - rewrite <- H. assert (V := full_determined w w' dc sn ef of_ F0 F1 P1). destruct (fu_no _ _ _ _ _ F1) as (M1 & M2 & M3 & M4).
    apply energy_equal; auto; try congruence; [apply F0|apply F1|apply P1].
  - destruct new, dc; try congruence.
    + destruct (set_dc_on_energy w L s (fu_wf _ _ _ _ _ F0) (fu_un _ _ _ _ _ F0) N1) as (w1 & E1 & Hen); auto.
      * intros k I I'. assert (C := S3 k I). assert (C' := S3 _ I'). apply canonical_kept in C. apply canonical_kept in C'.
        exact (kept_mirror_absent w k S1 S2 I C C').
      * rewrite E in E1. injection E1 as <-. exact (Hen X H).
    + destruct S3 as [S3 S4]. destruct (set_dc_off_energy w L s (fu_wf _ _ _ _ _ F0) (fu_un _ _ _ _ _ F0) N1 S3 S4 S1 S2 P) as (w1 & E1 & Hen).
      rewrite E in E1. injection E1 as <-. exact (Hen X H).
Qed.
Lemma notation_energy (w : world) dc sn ef of_ n dc' sn' ef' of' : wf w -> unshared w -> spins_defined w -> reciprocal_storage w dc ->
  notation_is w dc sn ef of_ -> ef <> 0 -> of_ <> 0 -> parse_notation n = Some (dc', sn', ef', of') -> ef' <> 0 -> of' <> 0 ->
  exists w', set_notation n w = (w', Ret tt) /\ notation_is w' dc' sn' ef' of' /\
    forall L s, periodic L s -> forall E, energy w L s = Some E -> energy w' L s = Some E.
Proof.
  intros W U S St No Ne Nf Hp Ne' Nf'. assert (F0 := full_intro w dc sn ef of_ W U S St No Ne Nf).
  destruct (dc_energy w _ _ _ _ dc' F0) as (w1 & E1 & F1 & P1).
  destruct (step_sn w1 _ _ _ _ sn' F1) as (w2 & E2 & F2 & _).
  destruct (step_ef w2 _ _ _ _ ef' F2 Ne') as (w3 & E3 & F3 & _).
  destruct (step_of w3 _ _ _ _ of' F3 Nf') as (w4 & E4 & F4 & _).
  exists w4. splits.
  - unfold set_notation. rewrite Hp. rewrite (bind_val _ _ _ _ _ E1), (bind_val _ _ _ _ _ E2), (bind_val _ _ _ _ _ E3). exact E4.
  - apply F4.
  - intros L s P X H. apply (P1 L s P) in H.
    destruct (fu_wf _ _ _ _ _ F1) as (A1 & A2 & _). destruct (fu_wf _ _ _ _ _ F2) as (B1 & B2 & _). destruct (fu_wf _ _ _ _ _ F3) as (C1 & C2 & _).
    apply (set_spin_normalized_energy w1 w2 sn' sn L s X A1 A2 (fu_un _ _ _ _ _ F1) (proj1 (proj2 (fu_no _ _ _ _ _ F1))) E2) in H.
    apply (set_exchange_factor_energy w2 w3 ef' ef L s X B1 (fu_un _ _ _ _ _ F2) (proj1 (proj2 (proj2 (fu_no _ _ _ _ _ F2)))) E3) in H.
    apply (set_on_site_factor_energy w3 w4 of' of_ L s X C2 (fu_un _ _ _ _ _ F3) (proj2 (proj2 (proj2 (fu_no _ _ _ _ _ F3)))) E4) in H.
    exact H.
Qed.

(** ** A rejected double_counting assignment *)
Lemma dc_reject (w w' : world) b e : wf w -> (h_dc (w_ham w) = Some true -> mirror_closed w) ->
  set_double_counting b w = (w', Raise e) -> b = false /\ e = TypeError /\ same_parameters w w' /\ h_dc (w_ham w') = Some false.
Proof.
  intros W Hm E. destruct b.
  - exfalso. assert (T : exists w1, set_double_counting true w = (w1, Ret tt)).
    { rewrite (set_dc_split w true W). destruct (ensure_dc_ok (dc_scaled w true) (dc_scaled_wf w true W) eq_refl) as (w1 & E1 & _). exists w1; exact E1. }
    destruct T as [w1 T]. congruence.
  - assert (X : (forall k, In k (bonds w) -> canonical k = true \/ In (mirror k) (bonds w)) \/ exists k, In k (bonds w) /\ canonical k = false /\ ~ In (mirror k) (bonds w)).
    { destruct (all_or_witness w) as [A|A]; [left; exact A|right]. exact A. }
    destruct X as [X|(k & I & C & N)].
    + exfalso. rewrite (set_dc_split w false W) in E.
      destruct (ensure_no_dc_ok (dc_scaled w false) (dc_scaled_wf w false W) eq_refl X) as (w1 & E1 & _). congruence.
    + rewrite (set_dc_false_fail w k W I C N) in E. injection E as <- <-.
      assert (D : h_dc (w_ham w) <> Some true) by (intros D; exact (N (Hm D k I))).
      splits; auto. destruct w as [st h]. unfold dc_scaled. cbn [w_ham w_store] in *. destruct (h_dc h) as [[]|]; try congruence; split; intros; reflexivity.
Qed.

(** ** remove_atom *)
Lemma remove_first_split a l : In a l -> exists l1 l2, l = l1 ++ a :: l2 /\ ~ In a l1 /\ remove_first a l = l1 ++ l2.
Proof.
  induction l as [|x t IH]; intros I; [destruct I|]. cbn. destruct (eq_dec a x) as [<-|N].
  - exists [], t. splits; auto.
  - destruct IH as (l1 & l2 & -> & N1 & E); [destruct I as [->|I]; [congruence|exact I]|]. exists (x :: l1), l2. cbn. rewrite E. splits; auto.
    intros [->|J]; [congruence|contradiction].
Qed.
Lemma remove_atom_exact (w w' : world) a : wf w -> (h_dc (w_ham w) = Some true -> mirror_closed w) -> remove_atom (AObj a) w = (w', Ret tt) ->
  (forall k, b_from k = a \/ b_to k = a -> bond_value w' k = None) /\
  (forall k, b_from k <> a -> b_to k <> a -> bond_value w' k = bond_value w k) /\
  onsite_value w' a = None /\ (forall a', a' <> a -> onsite_value w' a' = onsite_value w a').
Proof.
  intros W Hm E. destruct (remove_atom_effect w w' a (conj W Hm) E) as (A & B & C).
  splits.
  - intros k H. rewrite A. unfold touches. destruct (eq_dec (b_from k) a), (eq_dec (b_to k) a); try reflexivity. exfalso; tauto.
  - intros k H1 H2. rewrite A. unfold touches. destruct (eq_dec (b_from k) a), (eq_dec (b_to k) a); try reflexivity; congruence.
  - rewrite B. destruct (eq_dec a a); [reflexivity|congruence].
  - intros a' N. rewrite B. destruct (eq_dec a' a); [congruence|reflexivity].
Qed.
Lemma remove_atom_succeeds (w : world) a : wf w -> (h_dc (w_ham w) = Some true -> mirror_closed w) -> In a (h_atoms (w_ham w)) ->
  (h_dc (w_ham w) = Some true -> forall k, In k (bonds w) -> (b_from k = a \/ b_to k = a) -> self_bond k) ->
  exists w' l1 l2, remove_atom (AObj a) w = (w', Ret tt) /\ h_atoms (w_ham w) = l1 ++ a :: l2 /\ h_atoms (w_ham w') = l1 ++ l2.
Proof.
  intros W Hm I H. destruct (remove_atom_ok w a (conj W Hm) I H) as [w' E].
  destruct (remove_atom_effect w w' a (conj W Hm) E) as (_ & _ & C). destruct (remove_first_split a _ I) as (l1 & l2 & E1 & _ & E2).
  exists w', l1, l2. splits; auto. congruence.
Qed.
End Glue.
