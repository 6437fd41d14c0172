(** Non-vacuity cases for the history properties. *)
From Coq Require Import List Bool ZArith String Lia Permutation QArith Qcanon.
From Verif.Base Require Import Scalar Linear3 PyDict QcLit.
From Verif.Model Require Import MatrixParam Hamiltonian History.
From Verif.Spec Require Import HamSpec HistorySpec NotationSpec.
From Verif.Proofs Require Import DictProofs HamBasics HamSetters HamDouble HamDcEnergy NotationProofs HistoryProofs CallProofs FilterProofs HamGlue HamWitness.
Import ListNotations.
Local Open Scope string_scope.

(** Comparing rational matrices by their numbers. *)
Definition show (m : M3 Qc) : list Q := map this [mxx m; mxy m; mxz m; myx m; myy m; myz m; mzx m; mzy m; mzz m].
Lemma show_eq (o : option (M3 Qc)) m : option_map show o = Some (show m) -> o = Some m.
Proof.
  destruct o as [[a b c d e f g h i]|]; [|discriminate]. destruct m as [a' b' c' d' e' f' g' h' i']. cbn. intros H. injection H as H1 H2 H3 H4 H5 H6 H7 H8 H9.
  f_equal. f_equal; apply Qc_is_canon; congruence || (match goal with H : this ?x = _ |- (this ?x == _)%Q => rewrite H; reflexivity end).
Qed.

Definition rich_ops : list (@op Qc) :=
  [OSetDC true; OAddExchangeNew (AObj atA) (AObj atB) c0 (Some gen); OAddExchangeNew (AObj atA) (AObj atA) c1 (Some gen);
   OAddOnSiteNew (AName "B") (Some (qm 1 0 0 0 2 0 0 0 3)); OSetSN false; OSetEF (qq 1 2); OSetOF (q 1);
   OSetNotation (NStr "TB2J"); OSetNotation (NStr "magnopy"); ORemoveExchange (AName "A") (AObj atA) c1 true].
Ltac nb := unfold new_bond, self_bond; vm_compute; splits; (let H := fresh in intro H; try (decompose [or] H); try tauto; try discriminate).
Lemma rich_tame : tame_history rich_ops (start nil) /\ h_dc (w_ham (run rich_ops (start nil))) = Some true /\
  bond_value (run rich_ops (start nil)) (mkB atA atB c0) = Some gen.
Proof.
  split; [|split].
  - unfold rich_ops. cbn [tame_history tame]. splits; try exact I; try (vm_compute; reflexivity).
    + intros a1 a2 <- <-. nb.
    + intros a1 a2 <- <-. nb.
  - vm_compute. reflexivity.
  - apply show_eq. vm_compute. reflexivity.
Qed.

Lemma rich_off : wf w_rich /\ (exists w', set_double_counting false w_rich = (w', Ret tt) /\ bonds w' = (mkB atA atB c0 :: mkB atA atA c1 :: nil)%list) /\
  (forall k, In k (bonds w_rich) -> ~ self_bond k) /\ distinct_indices w_rich.
Proof.
  split; [exact rich_wf|]. assert (S := rich_storage). unfold reciprocal_storage in S. destruct S as (S1 & S2 & _). split; [|exact (conj S1 S2)].
  exists (fst (set_double_counting false w_rich)). split; [apply outcome_pair; vm_compute; reflexivity|vm_compute; reflexivity].
Qed.

Lemma shared_calls : wf w_shared /\ nth_error (w_store w_shared) 0 = Some (Linear3.mscale (q 1) one) /\
  (exists w', add_exchange (AName "C") (AObj atA) c1 0%nat w_shared = (w', Ret tt)) /\
  (exists w', remove_exchange (AName "A") (AObj atB) c1 true w_shared = (w', Ret tt)).
Proof.
  split; [exact (proj1 (reachable_Inv _ r_shared))|]. splits.
  - apply show_eq. vm_compute. reflexivity.
  - eexists. apply outcome_pair. vm_compute. reflexivity.
  - eexists. apply outcome_pair. vm_compute. reflexivity.
Qed.

Lemma both_remove : wf w_both /\ In atA (h_atoms (w_ham w_both)) /\ h_dc (w_ham w_both) = Some false /\
  exists w', remove_atom (AObj atA) w_both = (w', Ret tt) /\ bonds w_both <> nil /\ bonds w' = nil.
Proof.
  split; [exact (proj1 (reachable_Inv _ r_both))|]. splits; [left; reflexivity|reflexivity|].
  exists (fst (remove_atom (AObj atA) w_both)). splits; [apply outcome_pair; vm_compute; reflexivity|vm_compute; discriminate|vm_compute; reflexivity].
Qed.

Definition far (k : bkey) : Qc := if eq_dec (b_cell k) c0 then q 1 else q 5.
Lemma rich_filter : exists w', h_filter far (@rev _) (Some (q 1)) None None w_rich = (w', Ret tt) /\
  bonds w' = (mkB atA atB c0 :: mkB atB atA c0 :: nil)%list /\ sites w' = (atB :: nil)%list.
Proof.
  exists (fst (h_filter far (@rev _) (Some (q 1)) None None w_rich)). splits; [apply outcome_pair; vm_compute; reflexivity|vm_compute; reflexivity|vm_compute; reflexivity].
Qed.

Definition w_minus : world := run [OAddExchangeNew (AObj atA) (AObj atB) c0 (Some one); OAddOnSiteNew (AObj atA) (Some three); OSetEF (q (-1)); OSetOF (q 1)] (start nil).
Lemma minus_case : wf w_minus /\ h_ef (w_ham w_minus) = Some (q (-1)) /\ h_of (w_ham w_minus) = Some (q 1) /\ (q 1 <> 0)%fld /\
  (q (-1) * q (-1) = q 1 * q 1)%fld /\ sites w_minus <> nil /\ bonds w_minus <> nil.
Proof.
  split; [assert (R : reachable w_minus) by known; exact (proj1 (reachable_Inv _ R))|]. splits; try reflexivity; [qne|vm_compute; discriminate|vm_compute; discriminate].
Qed.

(** One call breaks the transposition: overwriting one of two mirrored bonds, or changing a parameter in place. *)
Definition pair_ops : list (@op Qc) := [OSetDC true; OAddExchangeNew (AObj atA) (AObj atB) c0 (Some one)].
Definition w_pair : world := run pair_ops (start nil).
Lemma pair_transposed : forall k J, bond_value w_pair k = Some J -> bond_value w_pair (mirror k) = Some (mtrans J).
Proof.
  apply (history_reciprocal nil [atA; atB; atC] spins2 pair_ops); [|reflexivity].
  unfold pair_ops. cbn [tame_history tame]. splits; try exact I; try (vm_compute; reflexivity). intros a1 a2 <- <-. nb.
Qed.
Lemma one_call_refuted (o : @op Qc) : o = OAddExchangeNew (AObj atB) (AObj atA) c0 (Some three) \/ o = OAssign 0%nat three ->
  exists (w : @world Qc) k J, reachable w /\ h_dc (w_ham w) = Some true /\
    (forall k J, bond_value w k = Some J -> bond_value w (mirror k) = Some (mtrans J)) /\
    let w' := fst (exec o w) in bond_value w' k = Some J /\ bond_value w' (mirror k) <> Some (mtrans J).
Proof.
  intros [-> | ->].
  - exists w_pair, (mkB atA atB c0), one. splits; [known|reflexivity|exact pair_transposed|cbv zeta; split; [reflexivity|]].
    intros H. apply (f_equal (fun o => this (mxx (matof o)))) in H. vm_compute in H. discriminate H.
  - exists w_pair, (mkB atA atB c0), three. splits; [known|reflexivity|exact pair_transposed|cbv zeta; split; [reflexivity|]].
    intros H. apply (f_equal (fun o => this (mxx (matof o)))) in H. vm_compute in H. discriminate H.
Qed.
Lemma overwrite_refuted : exists (w : @world Qc) r1 r2 ijk m k J, reachable w /\ h_dc (w_ham w) = Some true /\
  (forall k J, bond_value w k = Some J -> bond_value w (mirror k) = Some (mtrans J)) /\
  let w' := fst (exec (OAddExchangeNew r1 r2 ijk m) w) in bond_value w' k = Some J /\ bond_value w' (mirror k) <> Some (mtrans J).
Proof. destruct (one_call_refuted _ (or_introl eq_refl)) as (w & k & J & H). do 7 eexists. exact H. Qed.
Lemma in_place_refuted : exists (w : @world Qc) l m k J, reachable w /\ h_dc (w_ham w) = Some true /\
  (forall k J, bond_value w k = Some J -> bond_value w (mirror k) = Some (mtrans J)) /\
  let w' := fst (exec (OAssign l m) w) in bond_value w' k = Some J /\ bond_value w' (mirror k) <> Some (mtrans J).
Proof. destruct (one_call_refuted _ (or_intror eq_refl)) as (w & k & J & H). do 5 eexists. exact H. Qed.
