(** Functionals of the same shape as the classical energy: a value for every bond matrix and every on-site matrix, each
    linear in the matrix, weighted with spin lengths and the factors of the notation. Changing the notation keeps them. *)
From Coq Require Import List Bool ZArith Lia Permutation String.
From Coq Require Import Ring Field Field_theory Ring_theory.
From Verif.Base Require Import Scalar Linear3 PyDict.
From Verif.Model Require Import MatrixParam Hamiltonian History.
From Verif.Spec Require Import HamSpec HistorySpec NotationSpec.
From Verif.Proofs Require Import DictProofs HamBasics HamSetters HamDouble HamDcEnergy NotationProofs HistoryProofs CallProofs FilterProofs FrameProofs HamGlue.
Import ListNotations.

Section Functional.
Context {F : Type} {SF : Scalar F}.
Add Field F_field : (@f_field F SF).
Notation world := (@world F).
Notation ham := (@ham F).
Notation M := (@M F).
Local Open Scope py_scope.
Local Open Scope fld_scope.

Definition gbond (pe : bkey -> M3 F -> F) (sn : bool) (w : world) (k : bkey) : option F :=
  match spin_length sn w (b_from k), spin_length sn w (b_to k), bond_value w k with
  | Some x, Some y, Some J => Some (x * y * pe k J)
  | _, _, _ => None
  end.
Definition gsite (se : atom -> M3 F -> F) (sn : bool) (w : world) (a : atom) : option F :=
  match spin_length sn w a, onsite_value w a with
  | Some x, Some A => Some (x * x * se a A)
  | _, _ => None
  end.
Definition genergy (pe : bkey -> M3 F -> F) (se : atom -> M3 F -> F) (w : world) : option F :=
  match h_sn (w_ham w), h_ef (w_ham w), h_of (w_ham w) with
  | Some sn, Some ef, Some of_ =>
      match osum (map (gbond pe sn w) (bonds w)), osum (map (gsite se sn w) (sites w)) with
      | Some x, Some y => Some (ef * x + of_ * y)
      | _, _ => None
      end
  | _, _, _ => None
  end.

(** The total of values that are all defined. *)
Definition site_weight (sn : bool) (w : world) a : F := sdef (slen sn (w_ham w) a) * sdef (slen sn (w_ham w) a).
Definition total (pe : bkey -> M3 F -> F) (se : atom -> M3 F -> F) (w : world) sn (ef of_ : F) : F :=
  ef * fsum (map (fun k => bond_weight sn w k * pe k (vdef (bond_value w k))) (bonds w)) +
  of_ * fsum (map (fun a => site_weight sn w a * se a (vdef (onsite_value w a))) (sites w)).

Lemma genergy_total pe se (w : world) dc sn ef of_ : wf w -> spins_defined w -> notation_is w dc sn ef of_ ->
  genergy pe se w = Some (total pe se w sn ef of_).
Proof.
  intros W [S1 S2] (_ & N2 & N3 & N4). unfold genergy. rewrite N2, N3, N4.
  assert (L : forall a x, spin_of w a = Some x -> slen sn (w_ham w) a <> None).
  { intros a x E. unfold slen. destruct sn; [discriminate|]. unfold spin_of in E. rewrite E. discriminate. }
  rewrite (osum_fsum _ (fun k => bond_weight sn w k * pe k (vdef (bond_value w k)))).
  2:{ intros k I. destruct (S1 k I) as [(x & Ex & _) (y & Ey & _)]. unfold gbond, bond_weight. rewrite !spin_length_slen.
      assert (A := L _ _ Ex). assert (B := L _ _ Ey). destruct (slen sn (w_ham w) (b_from k)); [|congruence]. destruct (slen sn (w_ham w) (b_to k)); [|congruence].
      apply (bond_value_stored w k W) in I as [J ->]. reflexivity. }
  rewrite (osum_fsum _ (fun a => site_weight sn w a * se a (vdef (onsite_value w a)))).
  2:{ intros a I. destruct (S2 a I) as (x & Ex & _). unfold gsite, site_weight. rewrite !spin_length_slen.
      assert (A := L _ _ Ex). destruct (slen sn (w_ham w) a); [|congruence].
      apply (onsite_value_stored w a W) in I as [J ->]. reflexivity. }
  reflexivity.
Qed.

Section Kept.
Variable pe : bkey -> M3 F -> F.
Variable se : atom -> M3 F -> F.
Hypothesis pe_scale : forall k c J, pe k (mscale c J) = c * pe k J.
Hypothesis se_scale : forall a c A, se a (mscale c A) = c * se a A.
Hypothesis pe_mirror : forall k J, pe (mirror k) (mtrans J) = pe k J.
Notation gbond := (gbond pe).
Notation gsite := (gsite se).
Notation genergy := (genergy pe se).

(** If every bond and site term keeps its weight, the energy is the same. *)
Lemma g_energy_rescaled (w w' : world) sn sn' ef ef' of_ of' ce co E :
  h_sn (w_ham w) = Some sn -> h_ef (w_ham w) = Some ef -> h_of (w_ham w) = Some of_ ->
  rescaled w w' (mkHam (h_exch (w_ham w)) (h_ons (w_ham w)) (h_atoms (w_ham w)) (h_spins (w_ham w)) (h_dc (w_ham w))
                   (Some sn') (Some ef') (Some of')) (fun k m => mscale (ce k) m) (fun a m => mscale (co a) m) ->
  (forall k x y, In k (bonds w) -> slen sn (w_ham w) (b_from k) = Some x -> slen sn (w_ham w) (b_to k) = Some y ->
     exists x' y', slen sn' (w_ham w) (b_from k) = Some x' /\ slen sn' (w_ham w) (b_to k) = Some y' /\
                   ef * (x * y) = ef' * (x' * y' * ce k)) ->
  (forall a x, In a (sites w) -> slen sn (w_ham w) a = Some x ->
     exists x', slen sn' (w_ham w) a = Some x' /\ of_ * (x * x) = of' * (x' * x' * co a)) ->
  genergy w = Some E -> genergy w' = Some E.
Proof.
  intros E1 E2 E3 (Hh & _ & Hb & Ho) Hbt Hst. unfold genergy. rewrite E1, E2, E3, Hh. cbn [h_sn h_ef h_of].
  destruct (osum (map (gbond sn w) (bonds w))) as [X|] eqn:EX; [|discriminate].
  destruct (osum (map (gsite sn w) (sites w))) as [Y|] eqn:EY; [|discriminate].
  intros [= <-].
  apply osum_scaled with (t' := gbond sn' w') (c := ef) (c' := ef') in EX.
  2:{ intros k v I. unfold gbond, spin_length, spin_of. rewrite Hh, Hb. cbn [h_spins].
      fold (slen sn (w_ham w) (b_from k)) (slen sn (w_ham w) (b_to k)) (slen sn' (w_ham w) (b_from k)) (slen sn' (w_ham w) (b_to k)).
      destruct (slen sn (w_ham w) (b_from k)) as [x|] eqn:Ex; [|discriminate].
      destruct (slen sn (w_ham w) (b_to k)) as [y|] eqn:Ey; [|discriminate].
      destruct (bond_value w k) as [J|]; [|discriminate]. intros [= <-].
      destruct (Hbt k x y I Ex Ey) as (x' & y' & -> & -> & Heq). cbn. eexists; split; [reflexivity|].
      rewrite pe_scale. transitivity ((ef * (x * y)) * pe k J); [ring|]. rewrite Heq. ring. }
  apply osum_scaled with (t' := gsite sn' w') (c := of_) (c' := of') in EY.
  2:{ intros k v I. unfold gsite, spin_length, spin_of. rewrite Hh, Ho. cbn [h_spins].
      fold (slen sn (w_ham w) k) (slen sn' (w_ham w) k).
      destruct (slen sn (w_ham w) k) as [x|] eqn:Ex; [|discriminate].
      destruct (onsite_value w k) as [J|]; [|discriminate]. intros [= <-].
      destruct (Hst k x I Ex) as (x' & -> & Heq). cbn. eexists; split; [reflexivity|].
      rewrite se_scale. transitivity ((of_ * (x * x)) * se k J); [ring|]. rewrite Heq. ring. }
  destruct EX as (X' & EX & ->). destruct EY as (Y' & EY & ->).
  unfold bonds, sites in *. rewrite Hh. cbn [h_exch h_ons]. rewrite EX, EY. reflexivity.
Qed.

(** ** Energy conservation *)
Lemma g_set_exchange_factor_energy (w w' : world) new o E :
  NoDup (bonds w) -> unshared w -> h_ef (w_ham w) = Some o ->
  set_exchange_factor new w = (w', Ret tt) -> genergy w = Some E -> genergy w' = Some E.
Proof.
  intros Nk Nu Eo H. destruct (set_exchange_factor_ok _ _ _ Nk Nu H) as (c & Hr & Hc & _).
  intros HE. assert (HE' := HE). unfold genergy in HE'.
  destruct (h_sn (w_ham w)) as [sn|] eqn:Esn; [|discriminate]. rewrite Eo in HE'.
  destruct (h_of (w_ham w)) as [of_|] eqn:Eof; [|discriminate]. clear HE'.
  eapply g_energy_rescaled with (ce := fun _ => c) (co := fun _ => 1); eauto.
  - unfold with_ef in Hr. rewrite Esn, Eof in Hr. exact Hr.
  - intros k x y I Hx Hy. exists x, y. splits; auto. destruct (Hc o Eo) as [Hn|<-]; [|ring].
    rewrite Hn in I; destruct I.
  - intros a x I Hx. exists x. splits; auto. ring.
Qed.

Lemma g_set_on_site_factor_energy (w w' : world) new o E :
  NoDup (sites w) -> unshared w -> h_of (w_ham w) = Some o ->
  set_on_site_factor new w = (w', Ret tt) -> genergy w = Some E -> genergy w' = Some E.
Proof.
  intros Nk Nu Eo H. destruct (set_on_site_factor_ok _ _ _ Nk Nu H) as (c & Hr & Hc & _).
  intros HE. assert (HE' := HE). unfold genergy in HE'.
  destruct (h_sn (w_ham w)) as [sn|] eqn:Esn; [|discriminate].
  destruct (h_ef (w_ham w)) as [ef|] eqn:Eef; [|discriminate]. clear HE'.
  eapply g_energy_rescaled with (ce := fun _ => 1) (co := fun _ => c); eauto.
  - unfold with_of in Hr. rewrite Esn, Eef in Hr. exact Hr.
  - intros k x y I Hx Hy. exists x, y. splits; auto. ring.
  - intros a x I Hx. exists x. splits; auto. destruct (Hc o Eo) as [Hn|<-]; [|ring].
    rewrite Hn in I; destruct I.
Qed.

Lemma g_set_spin_normalized_energy (w w' : world) new o E :
  NoDup (bonds w) -> NoDup (sites w) -> unshared w -> h_sn (w_ham w) = Some o ->
  set_spin_normalized new w = (w', Ret tt) -> genergy w = Some E -> genergy w' = Some E.
Proof.
  intros Nk Ns Nu Eo H. destruct (set_spin_normalized_ok _ _ _ Nk Ns Nu H) as (ce & co & Hr & Hc & _).
  intros HE. assert (HE' := HE). unfold genergy in HE'. rewrite Eo in HE'.
  destruct (h_ef (w_ham w)) as [ef|] eqn:Eef; [|discriminate].
  destruct (h_of (w_ham w)) as [of_|] eqn:Eof; [|discriminate]. clear HE'.
  destruct (Hc o Eo) as [Hcb Hcs].
  eapply g_energy_rescaled with (ce := ce) (co := co); eauto.
  - unfold with_sn in Hr. rewrite Eef, Eof in Hr. exact Hr.
  - intros k x y I Hx Hy. destruct (Hcb k x y I Hx Hy) as (x' & y' & A & B & ->). exists x', y'. auto.
  - intros a x I Hx. destruct (Hcs a x I Hx) as (x' & A & ->). exists x'. auto.
Qed.

Lemma g_bond_term_total sn (w : world) k v : gbond sn w k = Some v ->
  v = bond_weight sn w k * pe k (vdef (bond_value w k)).
Proof.
  unfold gbond, bond_weight. rewrite !spin_length_slen.
  destruct (slen sn (w_ham w) (b_from k)); [|discriminate]. destruct (slen sn (w_ham w) (b_to k)); [|discriminate].
  destruct (bond_value w k); [|discriminate]. intros [= <-]. reflexivity.
Qed.
Lemma g_bond_term_defined sn (w : world) k : gbond sn w k <> None <->
  slen sn (w_ham w) (b_from k) <> None /\ slen sn (w_ham w) (b_to k) <> None /\ bond_value w k <> None.
Proof.
  unfold gbond. rewrite !spin_length_slen.
  destruct (slen sn (w_ham w) (b_from k)), (slen sn (w_ham w) (b_to k)), (bond_value w k); intuition congruence.
Qed.
Lemma g_bond_terms_sum sn (w : world) X : osum (map (gbond sn w) (bonds w)) = Some X ->
  X = fsum (map (fun k => bond_weight sn w k * pe k (vdef (bond_value w k))) (bonds w)).
Proof.
  intros H. assert (D := osum_defined _ _ _ H).
  rewrite (osum_fsum _ (fun k => bond_weight sn w k * pe k (vdef (bond_value w k)))) in H.
  - injection H; auto.
  - intros k I. destruct (D k I) as [v E]. rewrite E. f_equal. apply g_bond_term_total in E. exact E.
Qed.


(** Comparing the exchange sums of two states: [w2] lists [half] once with matrices twice those that
    [w1] lists for [half] and, transposed, for its mirror image. *)
Lemma g_exchange_sum_pairs sn (w1 w2 : world) half :
  h_spins (w_ham w1) = h_spins (w_ham w2) ->
  NoDup (bonds w1) -> NoDup (bonds w2) -> NoDup half ->
  (forall k, In k (bonds w2) <-> In k half) ->
  (forall k, In k (bonds w1) <-> In k half \/ In (mirror k) half) -> (forall k, In k half -> ~ In (mirror k) half) ->
  (forall k, In k half -> vdef (bond_value w2 k) = mscale f2 (vdef (bond_value w1 k))) ->
  (forall k, In k half -> vdef (bond_value w1 (mirror k)) = mtrans (vdef (bond_value w1 k))) ->
  fsum (map (fun k => bond_weight sn w1 k * pe k (vdef (bond_value w1 k))) (bonds w1)) =
  fsum (map (fun k => bond_weight sn w2 k * pe k (vdef (bond_value w2 k))) (bonds w2)).
Proof.
  intros Hs N1 N2 Nh H2 H1 Hd V2 V1.
  rewrite (fsum_perm _ _ (Permutation_map _ (split_mirror _ _ N1 Nh H1 Hd))).
  rewrite (fsum_perm _ _ (Permutation_map _ (NoDup_Permutation N2 Nh H2))).
  rewrite map_app, fsum_app, map_map.
  assert (W : forall k, bond_weight sn w2 k = bond_weight sn w1 k).
  { intros k. unfold bond_weight, slen. rewrite Hs. reflexivity. }
  rewrite (fsum_map_ext (fun x => bond_weight sn w1 (mirror x) * pe (mirror x) (vdef (bond_value w1 (mirror x))))
             (fun x => bond_weight sn w1 x * pe x (vdef (bond_value w1 x))) half).
  2:{ intros k I. rewrite (V1 k I), bond_weight_mirror, pe_mirror. reflexivity. }
  rewrite (fsum_map_ext (fun x => bond_weight sn w2 x * pe x (vdef (bond_value w2 x)))
             (fun x => f2 * (bond_weight sn w1 x * pe x (vdef (bond_value w1 x)))) half).
  2:{ intros k I. rewrite W, (V2 k I), pe_scale. ring. }
  rewrite fsum_map_scale. unfold f2. ring.
Qed.

(** From equal exchange sums to equal energies, when only the exchange dictionary differs. *)
Lemma g_energy_from_exchange (w w' : world) E : same_rest w w' ->
  (forall sn X, h_sn (w_ham w) = Some sn -> osum (map (gbond sn w) (bonds w)) = Some X ->
     osum (map (gbond sn w') (bonds w')) = Some X) ->
  genergy w = Some E -> genergy w' = Some E.
Proof.
  intros (R1 & R2 & R3 & R4 & R5 & R6 & R7) HX. unfold genergy. rewrite R4, R5, R6.
  destruct (h_sn (w_ham w)) as [sn|] eqn:Esn; [|discriminate].
  destruct (h_ef (w_ham w)) as [ef|]; [|discriminate]. destruct (h_of (w_ham w)) as [of_|]; [|discriminate].
  destruct (osum (map (gbond sn w) (bonds w))) as [X|] eqn:EX; [|discriminate].
  rewrite (HX sn X eq_refl EX).
  assert (osum (map (gsite sn w') (sites w')) = osum (map (gsite sn w) (sites w))) as ->; [|auto].
  unfold sites. rewrite R1. f_equal. apply map_ext. intros a. unfold gsite, spin_length, spin_of. rewrite R3, R7. reflexivity.
Qed.

Lemma g_osum_bonds_intro sn (w : world) :
  (forall k, In k (bonds w) -> slen sn (w_ham w) (b_from k) <> None /\ slen sn (w_ham w) (b_to k) <> None) -> wf w ->
  osum (map (gbond sn w) (bonds w)) =
  Some (fsum (map (fun k => bond_weight sn w k * pe k (vdef (bond_value w k))) (bonds w))).
Proof.
  intros H W. apply osum_fsum. intros k I.
  destruct (gbond sn w k) as [v|] eqn:E; [f_equal; eapply g_bond_term_total; eauto|].
  exfalso. apply (proj2 (g_bond_term_defined sn w k)); [|exact E].
  destruct (H k I). splits; auto. apply bond_value_stored in I as [J EJ]; [congruence|exact W].
Qed.

Lemma g_osum_bonds_spins sn (w : world) X : osum (map (gbond sn w) (bonds w)) = Some X ->
  forall k, In k (bonds w) -> slen sn (w_ham w) (b_from k) <> None /\ slen sn (w_ham w) (b_to k) <> None.
Proof.
  intros H k I. destruct (osum_defined _ _ _ H k I) as [v E].
  destruct (proj1 (g_bond_term_defined sn w k)) as (A & B & _); [congruence|auto].
Qed.


Lemma g_set_dc_off_energy (w : world) : wf w -> unshared w -> h_dc (w_ham w) = Some true ->
  mirror_closed w -> reciprocal w -> (forall k, In k (bonds w) -> ~ self_bond k) -> distinct_indices w ->
  exists w', set_double_counting false w = (w', Ret tt) /\ forall E, genergy w = Some E -> genergy w' = Some E.
Proof.
  intros W U D Hm Hr Hns Hd.
  destruct (set_dc_false_ok w W (fun _ => U)) as (w' & Hset & W' & U' & R & D' & V).
  { intros k I. right. apply Hm, I. }
  exists w'. split; [exact Hset|]. intros E. apply g_energy_from_exchange; [exact R|]. intros sn X Esn HX.
  rewrite D in V. cbn [dc_factor] in V. assert (Hb := survives_bonds w w' f2 W W' V).
  assert (Hsp := g_osum_bonds_spins _ _ _ HX). rewrite (g_bond_terms_sum _ _ _ HX).
  assert (R' := R). destruct R' as (_ & _ & Rs & _).
  rewrite g_osum_bonds_intro; auto.
  2:{ intros k I. apply Hb in I as [I _]. unfold slen. rewrite Rs. apply (Hsp k I). }
  f_equal. symmetry. apply g_exchange_sum_pairs with (half := bonds w'); auto.
  - apply W.
  - apply W'.
  - apply W'.
  - reflexivity.
  - intros k. rewrite !Hb. split.
    + intros I. assert (I' := Hm k I). rewrite (survives_canonical w k), (survives_canonical w (mirror k)); auto.
      destruct (canonical_or k); auto.
    + intros [[I _]|[I _]]; [exact I|]. rewrite <- (mirror_invol k). apply Hm, I.
  - intros k. rewrite !Hb. intros [I1 S1] [I2 S2].
    apply (survives_canonical w k) in S1; auto. apply (survives_canonical w (mirror k)) in S2; auto.
    destruct (canonical_both k S1 S2) as [A B]. apply (Hns k I1), self_bond_iff. split; auto.
  - intros k I. apply Hb in I as [I S]. rewrite V, S. apply (bond_value_stored w k W) in I as [J ->]. reflexivity.
  - intros k I. apply Hb in I as [I S]. assert (I' := Hm k I).
    apply (bond_value_stored w k W) in I as [J EJ]. apply (bond_value_stored w _ W) in I' as [J' EJ'].
    rewrite EJ, EJ'. cbn. apply (Hr k); assumption.
Qed.


Lemma g_set_dc_on_energy (w : world) : wf w -> unshared w -> h_dc (w_ham w) = Some false ->
  (forall k, In k (bonds w) -> ~ In (mirror k) (bonds w)) ->
  exists w', set_double_counting true w = (w', Ret tt) /\ forall E, genergy w = Some E -> genergy w' = Some E.
Proof.
  intros W U D Hone.
  destruct (set_dc_true_ok w W (fun _ => U)) as (w' & Hset & W' & U' & R & D' & V).
  exists w'. split; [exact Hset|]. intros E. apply g_energy_from_exchange; [exact R|]. intros sn X Esn HX.
  rewrite D in V. cbn [dc_factor] in V. assert (Hb := mirrored_bonds w w' (1 / f2) W W' V).
  assert (Hsp := g_osum_bonds_spins _ _ _ HX). rewrite (g_bond_terms_sum _ _ _ HX).
  assert (R' := R). destruct R' as (_ & _ & Rs & _).
  rewrite g_osum_bonds_intro; auto.
  2:{ intros k I. apply Hb in I as [I|I]; unfold slen; rewrite Rs; destruct (Hsp _ I); auto. }
  assert (V1 : forall k, In k (bonds w) -> bond_value w' k = option_map (mscale (1 / f2)) (bond_value w k)).
  { intros k I. rewrite V. unfold mirrored_value. rewrite (proj2 (dmem_key_false _ _) (Hone k I)). reflexivity. }
  assert (V2 : forall k, In k (bonds w) -> bond_value w' (mirror k) = option_map (mscale (1 / f2)) (option_map mtrans (bond_value w k))).
  { intros k I. rewrite V. unfold mirrored_value. rewrite mirror_invol. rewrite (proj2 (dmem_key _ _) I). reflexivity. }
  f_equal. apply g_exchange_sum_pairs with (half := bonds w); auto; try apply W; try apply W'.
  - reflexivity.
  - intros k I. rewrite (V1 k I). apply (bond_value_stored w k W) in I as [J ->]. cbn.
    rewrite mscale_mscale, f2_half, mscale_1. reflexivity.
  - intros k I. rewrite (V1 k I), (V2 k I). apply (bond_value_stored w k W) in I as [J ->]. cbn.
    symmetry. apply mtrans_mscale.
Qed.


Lemma g_energy_equal (w w' : world) : wf w -> wf w' -> same_parameters w w' ->
  h_sn (w_ham w') = h_sn (w_ham w) -> h_ef (w_ham w') = h_ef (w_ham w) -> h_of (w_ham w') = h_of (w_ham w) ->
  h_spins (w_ham w') = h_spins (w_ham w) -> genergy w' = genergy w.
Proof.
  intros W W' [Vb Vo] E1 E2 E3 E4. unfold genergy. rewrite E1, E2, E3.
  destruct (h_sn (w_ham w)) as [sn|]; [|reflexivity].
  assert (Pb : Permutation (bonds w') (bonds w)).
  { apply NoDup_Permutation; [apply W'|apply W|]. intros k. rewrite (bond_value_stored w' k W'), (bond_value_stored w k W), Vb. reflexivity. }
  assert (Ps : Permutation (sites w') (sites w)).
  { apply NoDup_Permutation; [apply W'|apply W|]. intros k. rewrite (onsite_value_stored w' k W'), (onsite_value_stored w k W), Vo. reflexivity. }
  assert (Hl : forall a, spin_length sn w' a = spin_length sn w a) by (intros a; unfold spin_length, spin_of; rewrite E4; reflexivity).
  assert (Tb : forall k, gbond sn w' k = gbond sn w k) by (intros k; unfold gbond; rewrite !Hl, Vb; reflexivity).
  assert (Ts : forall k, gsite sn w' k = gsite sn w k) by (intros k; unfold gsite; rewrite !Hl, Vo; reflexivity).
  rewrite (osum_perm _ _ (Permutation_map (gbond sn w') Pb)), (osum_perm _ _ (Permutation_map (gsite sn w') Ps)).
  rewrite (map_ext _ _ Tb), (map_ext _ _ Ts). reflexivity.
Qed.


Lemma g_dc_energy (w : world) dc sn ef of_ new : full w dc sn ef of_ ->
  exists w', set_double_counting new w = (w', Ret tt) /\ full w' new sn ef of_ /\
    forall E, genergy w = Some E -> genergy w' = Some E.
Proof.
  intros F0. destruct (step_dc w dc sn ef of_ new F0) as (w' & E & F1 & P1). exists w'. splits; auto. intros X H.
  destruct (fu_no _ _ _ _ _ F0) as (N1 & N2 & N3 & N4). destruct (fu_st _ _ _ _ _ F0) as (S1 & S2 & S3).
  destruct (bool_dec new dc) as [->|Nb].
  - rewrite <- H. assert (V := full_determined w w' dc sn ef of_ F0 F1 P1). destruct (fu_no _ _ _ _ _ F1) as (M1 & M2 & M3 & M4).
    apply g_energy_equal; auto; try congruence; [apply F0|apply F1|apply P1].
  - destruct new, dc; try congruence.
    + destruct (g_set_dc_on_energy w (fu_wf _ _ _ _ _ F0) (fu_un _ _ _ _ _ F0) N1) as (w1 & E1 & Hen); auto.
      * intros k I I'. assert (C := S3 k I). assert (C' := S3 _ I'). apply canonical_kept in C. apply canonical_kept in C'.
        exact (kept_mirror_absent w k S1 S2 I C C').
      * rewrite E in E1. injection E1 as <-. exact (Hen X H).
    + destruct S3 as [S3 S4]. destruct (g_set_dc_off_energy w (fu_wf _ _ _ _ _ F0) (fu_un _ _ _ _ _ F0) N1 S3 S4 S1 S2) as (w1 & E1 & Hen).
      rewrite E in E1. injection E1 as <-. exact (Hen X H).
Qed.
Lemma g_notation_energy (w : world) dc sn ef of_ n dc' sn' ef' of' : wf w -> unshared w -> spins_defined w -> reciprocal_storage w dc ->
  notation_is w dc sn ef of_ -> ef <> 0 -> of_ <> 0 -> parse_notation n = Some (dc', sn', ef', of') -> ef' <> 0 -> of' <> 0 ->
  exists w', set_notation n w = (w', Ret tt) /\ notation_is w' dc' sn' ef' of' /\
    forall E, genergy w = Some E -> genergy w' = Some E.
Proof.
  intros W U S St No Ne Nf Hp Ne' Nf'. assert (F0 := full_intro w dc sn ef of_ W U S St No Ne Nf).
  destruct (g_dc_energy w _ _ _ _ dc' F0) as (w1 & E1 & F1 & P1).
  destruct (step_sn w1 _ _ _ _ sn' F1) as (w2 & E2 & F2 & _).
  destruct (step_ef w2 _ _ _ _ ef' F2 Ne') as (w3 & E3 & F3 & _).
  destruct (step_of w3 _ _ _ _ of' F3 Nf') as (w4 & E4 & F4 & _).
  exists w4. splits.
  - unfold set_notation. rewrite Hp. rewrite (bind_val _ _ _ _ _ E1), (bind_val _ _ _ _ _ E2), (bind_val _ _ _ _ _ E3). exact E4.
  - apply F4.
  - intros X H. apply P1 in H.
    destruct (fu_wf _ _ _ _ _ F1) as (A1 & A2 & _). destruct (fu_wf _ _ _ _ _ F2) as (B1 & B2 & _). destruct (fu_wf _ _ _ _ _ F3) as (C1 & C2 & _).
    apply (g_set_spin_normalized_energy w1 w2 sn' sn X A1 A2 (fu_un _ _ _ _ _ F1) (proj1 (proj2 (fu_no _ _ _ _ _ F1))) E2) in H.
    apply (g_set_exchange_factor_energy w2 w3 ef' ef X B1 (fu_un _ _ _ _ _ F2) (proj1 (proj2 (proj2 (fu_no _ _ _ _ _ F2)))) E3) in H.
    apply (g_set_on_site_factor_energy w3 w4 of' of_ X C2 (fu_un _ _ _ _ _ F3) (proj2 (proj2 (proj2 (fu_no _ _ _ _ _ F3)))) E4) in H.
    exact H.
Qed.


End Kept.
End Functional.
