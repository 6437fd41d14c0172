(** C06-C10, C53, C60: the notation properties of SpinHamiltonian. The vocabulary is in Spec/HamSpec.v (observable values, classical
    energy) and Spec/NotationSpec.v; the setters are those of Model/Hamiltonian.v. *)
From Coq Require Import List QArith Qcanon ZArith String.
From Verif.Base Require Import Scalar Linear3 QcLit.
From Verif.Model Require Import MatrixParam Hamiltonian History.
From Verif.Spec Require Import HamSpec NotationSpec.
From Verif.Proofs Require Import HamBasics HamSetters HamDcEnergy NotationProofs HistoryProofs NotationNames HamGlue HamWitness.
Local Open Scope fld_scope.

(** ** C06 *)
Theorem C06_first_interpretation : forall (F : Type) (SF : Scalar F) (w : @world F),
  (h_sn (w_ham w) = None -> forall new, exists w', set_spin_normalized new w = (w', Ret tt) /\ same_parameters w w') /\
  (h_ef (w_ham w) = None -> forall new, exists w', set_exchange_factor new w = (w', Ret tt) /\ same_parameters w w') /\
  (h_of (w_ham w) = None -> forall new, exists w', set_on_site_factor new w = (w', Ret tt) /\ same_parameters w w').
Proof. exact @first_simple. Qed.
Print Assumptions C06_first_interpretation.

Theorem C06_first_double_counting : forall (F : Type) (SF : Scalar F) (w : @world F) (new : bool),
  wf w -> h_dc (w_ham w) = None ->
  (forall a, onsite_value (fst (set_double_counting new w)) a = onsite_value w a) /\
  (forall k J, bond_value (fst (set_double_counting new w)) k = Some J ->
     bond_value w k = Some J \/ bond_value w (mirror k) = Some (mtrans J)).
Proof. exact @first_dc. Qed.
Print Assumptions C06_first_double_counting.

Example C06_case : wf w_back /\ h_dc (w_ham w_back) = None /\ h_sn (w_ham w_back) = None /\ h_ef (w_ham w_back) = None /\
  h_of (w_ham w_back) = None /\ bond_value w_back (mkB atB atA c0) = Some one.
Proof. split; [exact (proj1 (reachable_Inv _ r_back))|]. splits; reflexivity. Qed.

(** ** C07 *)
Theorem C07_exchange_factor : forall (F : Type) (SF : Scalar F) (w : @world F) (old new : F),
  wf w -> unshared w -> h_ef (w_ham w) = Some old -> new <> 0 ->
  exists w', set_exchange_factor new w = (w', Ret tt) /\ forall L s E, energy w L s = Some E -> energy w' L s = Some E.
Proof. exact @ef_energy. Qed.
Print Assumptions C07_exchange_factor.

Theorem C07_on_site_factor : forall (F : Type) (SF : Scalar F) (w : @world F) (old new : F),
  wf w -> unshared w -> h_of (w_ham w) = Some old -> new <> 0 ->
  exists w', set_on_site_factor new w = (w', Ret tt) /\ forall L s E, energy w L s = Some E -> energy w' L s = Some E.
Proof. exact @of_energy. Qed.
Print Assumptions C07_on_site_factor.

Theorem C07_spin_normalized : forall (F : Type) (SF : Scalar F) (w : @world F) (old new : bool),
  wf w -> unshared w -> h_sn (w_ham w) = Some old -> spins_defined w ->
  exists w', set_spin_normalized new w = (w', Ret tt) /\ forall L s E, energy w L s = Some E -> energy w' L s = Some E.
Proof. exact @sn_energy. Qed.
Print Assumptions C07_spin_normalized.

(** Distinct objects are needed: an object used for two bonds is rescaled twice. *)
Theorem C07_shared_object_refuted : exists (w w' : @world Qc) old new L s E E',
  reachable w /\ h_ef (w_ham w) = Some old /\ new <> 0 /\
  set_exchange_factor new w = (w', Ret tt) /\ energy w L s = Some E /\ energy w' L s = Some E' /\ E <> E'.
Proof. exact shared_refuted. Qed.
Print Assumptions C07_shared_object_refuted.

Example C07_case : wf w_rich /\ unshared w_rich /\ spins_defined w_rich /\ notation_is w_rich true false (qq 1 2) (q 1) /\
  exists E, energy w_rich cell1 up = Some E.
Proof. exact (conj rich_wf (conj rich_unshared (conj rich_spins (conj rich_notation rich_energy)))). Qed.

(** ** C08. Full claim: without the hypotheses on the stored bonds. *)
Theorem C08_switch_off_partial : forall (F : Type) (SF : Scalar F) (w : @world F) L s,
  wf w -> unshared w -> h_dc (w_ham w) = Some true -> mirror_closed w -> reciprocal w ->
  (forall k, In k (bonds w) -> ~ self_bond k) -> distinct_indices w -> periodic L s ->
  exists w', set_double_counting false w = (w', Ret tt) /\ forall E, energy w L s = Some E -> energy w' L s = Some E.
Proof. exact @set_dc_off_energy. Qed.
Print Assumptions C08_switch_off_partial.

Theorem C08_switch_on_partial : forall (F : Type) (SF : Scalar F) (w : @world F) L s,
  wf w -> unshared w -> h_dc (w_ham w) = Some false -> (forall k, In k (bonds w) -> ~ In (mirror k) (bonds w)) -> periodic L s ->
  exists w', set_double_counting true w = (w', Ret tt) /\ forall E, energy w L s = Some E -> energy w' L s = Some E.
Proof. exact @set_dc_on_energy. Qed.
Print Assumptions C08_switch_on_partial.

(** Assigning a whole notation (a name, three or four values) preserves the energy. *)
Theorem C08_notation_partial : forall (F : Type) (SF : Scalar F) (w : @world F) dc sn ef of_ n dc' sn' ef' of',
  wf w -> unshared w -> spins_defined w -> reciprocal_storage w dc -> notation_is w dc sn ef of_ -> ef <> 0 -> of_ <> 0 ->
  parse_notation n = Some (dc', sn', ef', of') -> ef' <> 0 -> of' <> 0 ->
  exists w', set_notation n w = (w', Ret tt) /\ notation_is w' dc' sn' ef' of' /\
    forall L s, periodic L s -> forall E, energy w L s = Some E -> energy w' L s = Some E.
Proof. exact @notation_energy. Qed.
Print Assumptions C08_notation_partial.

Theorem C08_unequal_mirrors_refuted : exists (w w' : @world Qc) L s E E',
  reachable w /\ unshared w /\ mirror_closed w /\ (forall k, In k (bonds w) -> ~ self_bond k) /\ periodic L s /\
  h_dc (w_ham w) = Some true /\ set_double_counting false w = (w', Ret tt) /\
  energy w L s = Some E /\ energy w' L s = Some E' /\ E <> E'.
Proof. exact dc_off_unequal_refuted. Qed.
Print Assumptions C08_unequal_mirrors_refuted.

Theorem C08_self_bond_refuted : exists (w w' : @world Qc) L s E E',
  reachable w /\ unshared w /\ mirror_closed w /\ reciprocal w /\ periodic L s /\
  h_dc (w_ham w) = Some true /\ set_double_counting false w = (w', Ret tt) /\
  energy w L s = Some E /\ energy w' L s = Some E' /\ E <> E'.
Proof. exact dc_off_self_refuted. Qed.
Print Assumptions C08_self_bond_refuted.

Theorem C08_both_directions_refuted : exists (w w' : @world Qc) L s E E',
  reachable w /\ unshared w /\ periodic L s /\ h_dc (w_ham w) = Some false /\ set_double_counting true w = (w', Ret tt) /\
  energy w L s = Some E /\ energy w' L s = Some E' /\ E <> E'.
Proof. exact dc_on_refuted. Qed.
Print Assumptions C08_both_directions_refuted.

Example C08_case : wf w_rich /\ unshared w_rich /\ h_dc (w_ham w_rich) = Some true /\ reciprocal_storage w_rich true /\ spins_defined w_rich /\
  notation_is w_rich true false (qq 1 2) (q 1) /\ periodic cell1 up /\ exists E, energy w_rich cell1 up = Some E.
Proof.
  exact (conj rich_wf (conj rich_unshared (conj eq_refl (conj rich_storage (conj rich_spins (conj rich_notation (conj (up_periodic cell1) rich_energy))))))).
Qed.

(** ** C09 *)
Theorem C09_round_trip : forall (F : Type) (SF : Scalar F) (w : @world F) dc sn ef of_ dc1 sn1 ef1 of1,
  wf w -> unshared w -> spins_defined w -> reciprocal_storage w dc ->
  notation_is w dc sn ef of_ -> ef <> 0 -> of_ <> 0 -> ef1 <> 0 -> of1 <> 0 ->
  exists w1 w2, set_notation (N4 dc1 sn1 ef1 of1) w = (w1, Ret tt) /\ set_notation (N4 dc sn ef of_) w1 = (w2, Ret tt) /\
    notation_is w1 dc1 sn1 ef1 of1 /\ notation_is w2 dc sn ef of_ /\ same_parameters w w2.
Proof. exact @round_trip. Qed.
Print Assumptions C09_round_trip.

Theorem C09_path_independent : forall (F : Type) (SF : Scalar F) (w : @world F) dc sn ef of_ dc1 sn1 ef1 of1 dc2 sn2 ef2 of2,
  wf w -> unshared w -> spins_defined w -> reciprocal_storage w dc ->
  notation_is w dc sn ef of_ -> ef <> 0 -> of_ <> 0 -> ef1 <> 0 -> of1 <> 0 -> ef2 <> 0 -> of2 <> 0 ->
  exists w1 w2 w3, set_notation (N4 dc1 sn1 ef1 of1) w = (w1, Ret tt) /\ set_notation (N4 dc2 sn2 ef2 of2) w1 = (w2, Ret tt) /\
    set_notation (N4 dc2 sn2 ef2 of2) w = (w3, Ret tt) /\ notation_is w3 dc2 sn2 ef2 of2 /\ same_parameters w3 w2.
Proof. exact @path_independent. Qed.
Print Assumptions C09_path_independent.

Example C09_case : wf w_rich /\ unshared w_rich /\ spins_defined w_rich /\ reciprocal_storage w_rich true /\ notation_is w_rich true false (qq 1 2) (q 1).
Proof. exact (conj rich_wf (conj rich_unshared (conj rich_spins (conj rich_storage rich_notation)))). Qed.

(** ** C10. Full claim: [set_X v w = (w', Raise e) -> same_parameters w w'] and all notation properties are the old ones. *)
Theorem C10_unknown_notation_partial : forall (F : Type) (SF : Scalar F) (w : @world F) n,
  parse_notation n = None -> set_notation n w = (w, Raise ValueError).
Proof. exact @parse_reject. Qed.
Print Assumptions C10_unknown_notation_partial.

Theorem C10_exchange_factor_partial : forall (F : Type) (SF : Scalar F) (w w' : @world F) new e,
  wf w -> set_exchange_factor new w = (w', Raise e) -> w' = w /\ new = 0 /\ e = ZeroDivisionError.
Proof. exact @set_ef_reject. Qed.
Print Assumptions C10_exchange_factor_partial.

Theorem C10_on_site_factor_partial : forall (F : Type) (SF : Scalar F) (w w' : @world F) new e,
  wf w -> set_on_site_factor new w = (w', Raise e) -> w' = w /\ new = 0 /\ e = ZeroDivisionError.
Proof. exact @set_of_reject. Qed.
Print Assumptions C10_on_site_factor_partial.

(** Only the parameters can be changed by a rejected [spin_normalized], only the flag by a rejected [double_counting]. *)
Theorem C10_spin_normalized_partial : forall (F : Type) (SF : Scalar F) (w w' : @world F) new e,
  set_spin_normalized new w = (w', Raise e) -> w_ham w' = w_ham w.
Proof. exact @set_sn_reject. Qed.
Print Assumptions C10_spin_normalized_partial.

Theorem C10_double_counting_partial : forall (F : Type) (SF : Scalar F) (w w' : @world F) b e,
  wf w -> (h_dc (w_ham w) = Some true -> mirror_closed w) -> set_double_counting b w = (w', Raise e) ->
  b = false /\ e = TypeError /\ same_parameters w w' /\ h_dc (w_ham w') = Some false.
Proof. exact @dc_reject. Qed.
Print Assumptions C10_double_counting_partial.

Theorem C10_missing_spin_refuted : exists (w w' : @world Qc) e k,
  reachable w /\ set_spin_normalized true w = (w', Raise e) /\ bond_value w' k <> bond_value w k.
Proof. exact spin_missing_refuted. Qed.
Print Assumptions C10_missing_spin_refuted.

Theorem C10_backward_bond_refuted : exists (w w' : @world Qc) e,
  reachable w /\ set_double_counting false w = (w', Raise e) /\ h_dc (w_ham w') <> h_dc (w_ham w).
Proof. exact dc_flag_refuted. Qed.
Print Assumptions C10_backward_bond_refuted.

Theorem C10_notation_half_done_refuted : exists (w w' : @world Qc) n e k,
  reachable w /\ set_notation n w = (w', Raise e) /\ h_dc (w_ham w') <> h_dc (w_ham w) /\ bond_value w' k <> bond_value w k.
Proof. exact notation_half_done_refuted. Qed.
Print Assumptions C10_notation_half_done_refuted.

Example C10_case : exists w', set_exchange_factor (q 0) w_rich = (w', Raise ZeroDivisionError).
Proof. eexists. apply outcome_pair. vm_compute. reflexivity. Qed.

(** ** C53. Full claim: without the hypotheses on the stored bonds. *)
Theorem C53_reassign_notation_partial : forall (F : Type) (SF : Scalar F) (w : @world F) dc sn ef of_,
  wf w -> unshared w -> spins_defined w -> reciprocal_storage w dc -> notation_is w dc sn ef of_ -> ef <> 0 -> of_ <> 0 ->
  exists w', set_notation (N4 dc sn ef of_) w = (w', Ret tt) /\ notation_is w' dc sn ef of_ /\ same_parameters w w'.
Proof. exact @reassign. Qed.
Print Assumptions C53_reassign_notation_partial.

Theorem C53_reassign_simple : forall (F : Type) (SF : Scalar F) (w : @world F),
  (forall b, h_sn (w_ham w) = Some b -> set_spin_normalized b w = (w, Ret tt)) /\
  (forall x, h_ef (w_ham w) = Some x -> set_exchange_factor x w = (w, Ret tt)) /\
  (forall x, h_of (w_ham w) = Some x -> set_on_site_factor x w = (w, Ret tt)).
Proof. exact @reassign_simple. Qed.
Print Assumptions C53_reassign_simple.

Theorem C53_reassign_true_refuted : exists (w w' : @world Qc) k,
  reachable w /\ h_dc (w_ham w) = Some true /\ set_double_counting true w = (w', Ret tt) /\ bond_value w' k <> bond_value w k.
Proof. exact reassign_refuted. Qed.
Print Assumptions C53_reassign_true_refuted.

Theorem C53_reassign_false_refuted : exists (w w' : @world Qc) k,
  reachable w /\ h_dc (w_ham w) = Some false /\ set_double_counting false w = (w', Ret tt) /\ In k (bonds w) /\ ~ In k (bonds w').
Proof. exact reassign_false_refuted. Qed.
Print Assumptions C53_reassign_false_refuted.

(** ** C60 *)
Theorem C60_named : forall (F : Type) (SF : Scalar F) s dc sn fe fo (w : @world F) name,
  In (name, (dc, sn, fe, fo)) named_notations -> same_ignoring_case s name -> set_notation (NStr s) w = set_notation (N4 dc sn fe fo) w.
Proof. exact @named. Qed.
Print Assumptions C60_named.
Theorem C60_unknown_name : forall (F : Type) (SF : Scalar F) s (w : @world F),
  (forall name q, In (name, q) (@named_notations F SF) -> ~ same_ignoring_case s name) -> set_notation (NStr s) w = (w, Raise ValueError).
Proof. exact @unnamed. Qed.
Print Assumptions C60_unknown_name.
Theorem C60_one_factor : forall (F : Type) (SF : Scalar F) dc sn f (w : @world F), set_notation (N3 dc sn f) w = set_notation (N4 dc sn f f) w.
Proof. exact @one_factor. Qed.
Print Assumptions C60_one_factor.
Theorem C60_getter : forall (F : Type) (SF : Scalar F) (w w' : @world F) dc sn fe fo, wf w ->
  set_notation (N4 dc sn fe fo) w = (w', Ret tt) -> get_notation w' = (w', Ret (dc, sn, fe, fo)).
Proof. exact @getter_after. Qed.
Print Assumptions C60_getter.
Example C60_case : same_ignoring_case "sPinW" "SpinW" /\ ~ same_ignoring_case "SpinWx" "SpinW".
Proof. exact names_case. Qed.
