(** Concrete Hamiltonians over the rationals: counterexamples and non-vacuity cases. Each is the result of a history of
    public calls. *)
From Coq Require Import List Bool ZArith String Lia Permutation QArith Qcanon.
From Verif.Base Require Import Scalar Linear3 PyDict QcLit.
From Verif.Model Require Import MatrixParam Hamiltonian History.
From Verif.Spec Require Import HamSpec HistorySpec NotationSpec.
From Verif.Proofs Require Import DictProofs HamBasics HamSetters HamDouble HamDcEnergy NotationProofs HistoryProofs CallProofs FilterProofs HamGlue.
Import ListNotations.
Local Open Scope string_scope.

Definition atA : atom := mkAtom "A" 1.
Definition atB : atom := mkAtom "B" 2.
Definition atC : atom := mkAtom "C" 3.
Definition c0 : cell3 := (0, 0, 0)%Z.
Definition c1 : cell3 := (1, 0, 0)%Z.
Definition one : M3 Qc := qm 1 0 0 0 1 0 0 0 1.
Definition three : M3 Qc := qm 3 0 0 0 3 0 0 0 3.
Definition gen : M3 Qc := qm 1 5 3 (-1) 2 4 7 2 6.
Definition spins2 : dict atom Qc := [(atA, qq 3 2); (atB, q 2); (atC, q 1)].
Definition start (st : list (M3 Qc)) : world := fresh st [atA; atB; atC] spins2.
Definition finish : list (@op Qc) := [OSetSN true; OSetEF (q 1); OSetOF (q 1)].

(** All spins along z. *)
Definition up : @config Qc := fun _ _ => qv 0 0 1.
Definition cell1 : size3 := (1, 1, 1)%nat.
Lemma up_periodic L : periodic L up.
Proof. destruct L as [[n1 n2] n3]. intros a r. splits; reflexivity. Qed.

(** One object used for two bonds. *)
Definition w_shared : world := run ([OAddExchange (AObj atA) (AObj atB) c0 0%nat; OAddExchange (AObj atA) (AObj atB) c1 0%nat] ++ finish) (start [one]).
(** Both directions of a bond with matrices that are not transposed to each other. *)
Definition w_unequal : world := run ([OSetDC true; OAddExchangeNew (AObj atA) (AObj atB) c0 (Some one); OAddExchangeNew (AObj atB) (AObj atA) c0 (Some three)] ++ finish) (start []).
(** A bond of an atom with itself in the same cell. *)
Definition w_self : world := run ([OSetDC true; OAddExchangeNew (AObj atA) (AObj atA) c0 (Some one)] ++ finish) (start []).
(** Both directions stored without double counting. *)
Definition w_both : world := run ([OSetDC false; OAddExchangeNew (AObj atA) (AObj atB) c0 (Some one); OAddExchangeNew (AObj atB) (AObj atA) c0 (Some one)] ++ finish) (start []).
(** The spin of B is not defined. *)
Definition w_nospin : world := run [OAddExchangeNew (AObj atA) (AObj atA) c1 (Some one); OAddExchangeNew (AObj atA) (AObj atB) c0 (Some one); OSetSN false] (fresh [] [atA; atB] [(atA, q 2)]).
(** Only the direction that double_counting = False does not keep. *)
Definition w_back : world := run [OAddExchangeNew (AObj atB) (AObj atA) c0 (Some one)] (start []).
(** A parameter of each kind; a DM and an anisotropic part in the exchange; real spins. *)
Definition w_rich : world :=
  run [OSetDC true; OAddExchangeNew (AObj atA) (AObj atB) c0 (Some gen); OAddExchangeNew (AName "A") (AObj atA) c1 (Some gen);
       OAddOnSiteNew (AName "B") (Some (qm 1 0 0 0 2 0 0 0 3)); OSetSN false; OSetEF (qq 1 2); OSetOF (q 1)] (start []).
Definition w_three : world :=
  run [OSetDC true; OAddExchangeNew (AObj atA) (AObj atB) c0 (Some one); OAddExchangeNew (AObj atA) (AObj atC) c0 (Some one)] (start []).

Ltac known := do 4 eexists; reflexivity.
Lemma r_shared : reachable w_shared. Proof. known. Qed.
Lemma r_unequal : reachable w_unequal. Proof. known. Qed.
Lemma r_self : reachable w_self. Proof. known. Qed.
Lemma r_both : reachable w_both. Proof. known. Qed.
Lemma r_nospin : reachable w_nospin. Proof. known. Qed.
Lemma r_back : reachable w_back. Proof. known. Qed.
Lemma r_rich : reachable w_rich. Proof. known. Qed.
Lemma r_three : reachable w_three. Proof. known. Qed.

Ltac qne := let H := fresh in intro H; apply (f_equal this) in H; vm_compute in H; discriminate H.
Definition valof (o : option Qc) : Qc := match o with Some x => x | None => 0%Qc end.
Definition matof (o : option (M3 Qc)) : M3 Qc := match o with Some x => x | None => mzero end.
Lemma valof_some o : (exists x, o = Some x) -> o = Some (valof o).
Proof. intros [x ->]. reflexivity. Qed.
(** [f w = (fst (f w), r)] when the outcome is [r]. *)
Lemma outcome_pair {A} (x : @world Qc * out A) r : snd x = r -> x = (fst x, r).
Proof. destruct x; cbn. intros ->. reflexivity. Qed.

Ltac energies := splits; [apply outcome_pair; vm_compute; reflexivity|apply valof_some; eexists; vm_compute; reflexivity|apply valof_some; eexists; vm_compute; reflexivity|qne].

Lemma shared_refuted : exists (w w' : @world Qc) old new L s E E', reachable w /\ h_ef (w_ham w) = Some old /\ new <> 0%fld /\
  set_exchange_factor new w = (w', Ret tt) /\ energy w L s = Some E /\ energy w' L s = Some E' /\ E <> E'.
Proof.
  exists w_shared, (fst (set_exchange_factor (q 2) w_shared)), (q 1), (q 2), cell1, up,
    (valof (energy w_shared cell1 up)), (valof (energy (fst (set_exchange_factor (q 2) w_shared)) cell1 up)).
  split; [exact r_shared|]. split; [reflexivity|]. split; [qne|]. energies.
Qed.

Lemma dc_off_refuted (w : @world Qc) : (w = w_unequal \/ w = w_self) ->
  exists w' L s E E', periodic L s /\ h_dc (w_ham w) = Some true /\
  set_double_counting false w = (w', Ret tt) /\ energy w L s = Some E /\ energy w' L s = Some E' /\ E <> E'.
Proof.
  intros H. exists (fst (set_double_counting false w)), cell1, up,
    (valof (energy w cell1 up)), (valof (energy (fst (set_double_counting false w)) cell1 up)). split; [apply up_periodic|].
  destruct H as [-> | ->]; (split; [reflexivity|energies]).
Qed.
Lemma dc_off_unequal_refuted : exists (w w' : @world Qc) L s E E', reachable w /\ unshared w /\ mirror_closed w /\ (forall k, In k (bonds w) -> ~ self_bond k) /\
  periodic L s /\ h_dc (w_ham w) = Some true /\ set_double_counting false w = (w', Ret tt) /\ energy w L s = Some E /\ energy w' L s = Some E' /\ E <> E'.
Proof.
  destruct (dc_off_refuted w_unequal (or_introl eq_refl)) as (w' & L & s & E & E' & P & D & H).
  exists w_unequal, w', L, s, E, E'. splits; try tauto; [exact r_unequal| | |].
  - unfold unshared. vm_compute. repeat constructor; cbn; intuition discriminate.
  - exact (proj2 (reachable_Inv _ r_unequal) D).
  - intros k I. change (bonds w_unequal) with [mkB atA atB c0; mkB atB atA c0] in I. destruct I as [<-|[<-|[]]]; discriminate.
Qed.
Lemma dc_off_self_refuted : exists (w w' : @world Qc) L s E E', reachable w /\ unshared w /\ mirror_closed w /\ reciprocal w /\
  periodic L s /\ h_dc (w_ham w) = Some true /\ set_double_counting false w = (w', Ret tt) /\ energy w L s = Some E /\ energy w' L s = Some E' /\ E <> E'.
Proof.
  destruct (dc_off_refuted w_self (or_intror eq_refl)) as (w' & L & s & E & E' & P & D & H).
  exists w_self, w', L, s, E, E'. splits; try tauto; [exact r_self| | |].
  - unfold unshared. vm_compute. repeat constructor; cbn; intuition discriminate.
  - exact (proj2 (reachable_Inv _ r_self) D).
  - intros k J J' H1 H2. assert (I : In k (bonds w_self)) by (apply bond_value_stored; [apply (reachable_Inv _ r_self)|eauto]).
    change (bonds w_self) with [mkB atA atA c0] in I. destruct I as [<-|[]].
    change (bond_value w_self (mkB atA atA c0)) with (Some one) in H1. change (bond_value w_self (mirror (mkB atA atA c0))) with (Some one) in H2.
    injection H1 as <-. injection H2 as <-. reflexivity.
Qed.
Lemma dc_on_refuted : exists (w w' : @world Qc) L s E E', reachable w /\ unshared w /\ periodic L s /\ h_dc (w_ham w) = Some false /\
  set_double_counting true w = (w', Ret tt) /\ energy w L s = Some E /\ energy w' L s = Some E' /\ E <> E'.
Proof.
  exists w_both, (fst (set_double_counting true w_both)), cell1, up,
    (valof (energy w_both cell1 up)), (valof (energy (fst (set_double_counting true w_both)) cell1 up)).
  split; [exact r_both|]. split; [unfold unshared; vm_compute; repeat constructor; cbn; intuition discriminate|].
  split; [apply up_periodic|]. split; [reflexivity|]. energies.
Qed.

(** ** C10 *)
Lemma spin_missing_refuted : exists (w w' : @world Qc) e k, reachable w /\ set_spin_normalized true w = (w', Raise e) /\
  bond_value w' k <> bond_value w k.
Proof.
  exists w_nospin, (fst (set_spin_normalized true w_nospin)), ValueError, (mkB atA atA c1).
  split; [exact r_nospin|]. split; [apply outcome_pair; vm_compute; reflexivity|].
  intros H. apply (f_equal (fun o => this (mxx (matof o)))) in H. vm_compute in H. discriminate H.
Qed.
Lemma dc_flag_refuted : exists (w w' : @world Qc) e, reachable w /\ set_double_counting false w = (w', Raise e) /\
  h_dc (w_ham w') <> h_dc (w_ham w).
Proof.
  exists w_back, (fst (set_double_counting false w_back)), TypeError.
  split; [exact r_back|]. split; [apply outcome_pair; vm_compute; reflexivity|]. discriminate.
Qed.
Lemma notation_half_done_refuted : exists (w w' : @world Qc) n e k, reachable w /\ set_notation n w = (w', Raise e) /\
  h_dc (w_ham w') <> h_dc (w_ham w) /\ bond_value w' k <> bond_value w k.
Proof.
  exists w_rich, (fst (set_notation (N4 false false (q 0) (q 1)) w_rich)), (N4 false false (q 0) (q 1)), ZeroDivisionError, (mkB atA atB c0).
  split; [exact r_rich|]. split; [apply outcome_pair; vm_compute; reflexivity|]. split; [vm_compute; discriminate|].
  intros H. apply (f_equal (fun o => this (mxx (matof o)))) in H. vm_compute in H. discriminate H.
Qed.

(** ** C12, C13 *)
Lemma self_lost_refuted : exists (w w' : @world Qc) k, reachable w /\ set_double_counting false w = (w', Ret tt) /\ In k (bonds w) /\
  ~ In k (bonds w') /\ ~ In (mirror k) (bonds w').
Proof.
  exists w_self, (fst (set_double_counting false w_self)), (mkB atA atA c0). split; [exact r_self|].
  split; [apply outcome_pair; vm_compute; reflexivity|]. split; [left; reflexivity|]. split; vm_compute; tauto.
Qed.

(** ** C15, C16 *)
Lemma remove_atom_refuted : exists (w w' : @world Qc) a e k, reachable w /\ In a (h_atoms (w_ham w)) /\ remove_atom (AObj a) w = (w', Raise e) /\
  In a (h_atoms (w_ham w')) /\ b_from k = a /\ In k (bonds w) /\ In k (bonds w') /\ (exists k', b_from k' = a /\ In k' (bonds w) /\ ~ In k' (bonds w')).
Proof.
  exists w_three, (fst (remove_atom (AObj atA) w_three)), atA, KeyError, (mkB atA atC c0).
  split; [exact r_three|]. split; [left; reflexivity|]. split; [apply outcome_pair; vm_compute; reflexivity|].
  splits; [left; reflexivity|reflexivity|vm_compute; auto|vm_compute; auto|]. exists (mkB atA atB c0). splits; [reflexivity|vm_compute; auto|].
  vm_compute. intros [H|[H|[]]]; discriminate H.
Qed.
Lemma remove_on_site_name_refuted : exists (w w' : @world Qc) a e, reachable w /\ In a (sites w) /\ In a (h_atoms (w_ham w)) /\
  remove_on_site (AName (a_name a)) true w = (w', Raise e) /\ In a (sites w').
Proof.
  exists w_rich, (fst (remove_on_site (AName "B") true w_rich)), atB, AttributeError. split; [exact r_rich|].
  splits; [left; reflexivity|vm_compute; auto|apply outcome_pair; vm_compute; reflexivity|left; reflexivity].
Qed.

(** ** C20 *)
Definition w_factors : world := run [OSetDC true; OAddOnSiteNew (AObj atA) (Some one); OSetSN true; OSetEF (q 1); OSetOF (q 2)] (start []).
Lemma exchange_like_refuted : exists (w w' : @world Qc) r L s E E', reachable w /\ exchange_like w = (w', Ret r) /\
  energy w L s = Some E /\ listed_energy w' L s (entry_values w' r) = Some E' /\ E <> E'.
Proof.
  pose (x := exchange_like w_factors). pose (r := match snd x with Ret r => r | _ => [] end).
  exists w_factors, (fst x), r, cell1, up, (valof (energy w_factors cell1 up)), (valof (listed_energy (fst x) cell1 up (entry_values (fst x) r))).
  split; [known|]. splits; [apply outcome_pair; vm_compute; reflexivity|apply valof_some; eexists; vm_compute; reflexivity|apply valof_some; eexists; vm_compute; reflexivity|qne].
Qed.

(** ** C53 *)
Lemma reassign_refuted : exists (w w' : @world Qc) k, reachable w /\ h_dc (w_ham w) = Some true /\ set_double_counting true w = (w', Ret tt) /\
  bond_value w' k <> bond_value w k.
Proof.
  exists w_unequal, (fst (set_double_counting true w_unequal)), (mkB atA atB c0). split; [exact r_unequal|]. split; [reflexivity|].
  split; [apply outcome_pair; vm_compute; reflexivity|].
  intros H. apply (f_equal (fun o => this (mxx (matof o)))) in H. vm_compute in H. discriminate H.
Qed.
Lemma reassign_false_refuted : exists (w w' : @world Qc) k, reachable w /\ h_dc (w_ham w) = Some false /\ set_double_counting false w = (w', Ret tt) /\
  In k (bonds w) /\ ~ In k (bonds w').
Proof.
  exists w_both, (fst (set_double_counting false w_both)), (mkB atB atA c0). split; [exact r_both|]. split; [reflexivity|].
  split; [apply outcome_pair; vm_compute; reflexivity|]. split; vm_compute; [auto|]. intros [H|[]]; discriminate H.
Qed.

(** ** The rich case meets all hypotheses of the notation theorems. *)
Lemma rich_bonds : bonds w_rich = [mkB atA atB c0; mkB atB atA c0; mkB atA atA c1; mkB atA atA (cneg c1)].
Proof. vm_compute. reflexivity. Qed.
Lemma rich_wf : wf w_rich. Proof. exact (proj1 (reachable_Inv _ r_rich)). Qed.
Lemma rich_unshared : unshared w_rich.
Proof. unfold unshared. vm_compute. repeat constructor; cbn; intuition discriminate. Qed.
Lemma rich_spins : spins_defined w_rich.
Proof.
  split.
  - intros k I. rewrite rich_bonds in I. destruct I as [<-|[<-|[<-|[<-|[]]]]]; split; eexists; (split; [reflexivity|qne]).
  - intros a I. change (sites w_rich) with [atB] in I. destruct I as [<-|[]]. eexists; (split; [reflexivity|qne]).
Qed.
Lemma rich_storage : reciprocal_storage w_rich true.
Proof.
  unfold reciprocal_storage. splits.
  - intros k I. rewrite rich_bonds in I. destruct I as [<-|[<-|[<-|[<-|[]]]]]; discriminate.
  - intros k I C. rewrite rich_bonds in I. destruct I as [<-|[<-|[<-|[<-|[]]]]]; cbn; intros; congruence.
  - intros k I. rewrite rich_bonds in *. destruct I as [<-|[<-|[<-|[<-|[]]]]]; vm_compute; auto.
  - intros k J J' H1 H2. assert (I : In k (bonds w_rich)) by (apply bond_value_stored; [apply rich_wf|eauto]).
    rewrite rich_bonds in I.
    assert (E1 : bond_value w_rich (mkB atA atB c0) = Some gen) by (vm_compute; reflexivity).
    assert (E2 : bond_value w_rich (mkB atB atA c0) = Some (mtrans gen)) by (vm_compute; reflexivity).
    assert (E3 : bond_value w_rich (mkB atA atA c1) = Some gen) by (vm_compute; reflexivity).
    assert (E4 : bond_value w_rich (mkB atA atA (cneg c1)) = Some (mtrans gen)) by (vm_compute; reflexivity).
    destruct I as [<-|[<-|[<-|[<-|[]]]]].
    + change (mirror (mkB atA atB c0)) with (mkB atB atA c0) in H2. congruence.
    + change (mirror (mkB atB atA c0)) with (mkB atA atB c0) in H2. rewrite E1 in H2. rewrite E2 in H1.
      apply (f_equal matof) in H1. apply (f_equal matof) in H2. cbn [matof] in *. subst. reflexivity.
    + change (mirror (mkB atA atA c1)) with (mkB atA atA (cneg c1)) in H2. congruence.
    + change (mirror (mkB atA atA (cneg c1))) with (mkB atA atA c1) in H2. rewrite E3 in H2. rewrite E4 in H1.
      apply (f_equal matof) in H1. apply (f_equal matof) in H2. cbn [matof] in *. subst. reflexivity.
Qed.
Lemma rich_notation : notation_is w_rich true false (qq 1 2) (q 1).
Proof. unfold notation_is. splits; reflexivity. Qed.
Lemma rich_energy : exists E, energy w_rich cell1 up = Some E.
Proof. eexists. vm_compute. reflexivity. Qed.
