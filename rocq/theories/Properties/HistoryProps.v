(** C11-C20: histories of calls, dictionary behaviour, filtering, copies and listings of SpinHamiltonian.
    Vocabulary: Spec/HamSpec.v, Spec/HistorySpec.v; calls and histories: Model/Hamiltonian.v, Model/History.v. *)
From Coq Require Import List QArith Qcanon ZArith String Permutation Sorted.
From Verif.Base Require Import Scalar Linear3 QcLit PyDict.
From Verif.Model Require Import MatrixParam Hamiltonian History.
From Verif.Spec Require Import HamSpec NotationSpec HistorySpec.
From Verif.Proofs Require Import HamBasics HistoryProofs CallProofs FilterProofs FrameProofs HamGlue HamWitness HistoryWitness.
Local Open Scope fld_scope.

(** ** C11 *)
Theorem C11_mirrors_together : forall (F : Type) (SF : Scalar F) (st : list (M3 F)) atoms (spins : dict atom F) (ops : list op),
  let w := run ops (fresh st atoms spins) in
  h_dc (w_ham w) = Some true -> forall k, In k (bonds w) <-> In (mirror k) (bonds w).
Proof. exact @history_closed. Qed.
Print Assumptions C11_mirrors_together.

(** The representation is sane after every history; this discharges the hypotheses [wf w] and
    [h_dc (w_ham w) = Some true -> mirror_closed w] of the other theorems. *)
Theorem C11_reachable_sane : forall (F : Type) (SF : Scalar F) (w : @world F),
  reachable w -> wf w /\ (h_dc (w_ham w) = Some true -> mirror_closed w).
Proof. exact @reachable_Inv. Qed.
Print Assumptions C11_reachable_sane.

Example C11_case : reachable w_rich /\ h_dc (w_ham w_rich) = Some true /\ In (mkB atA atA c1) (bonds w_rich) /\ In (mkB atB atA c0) (bonds w_rich).
Proof. split; [exact r_rich|]. rewrite rich_bonds. cbn. auto 10. Qed.

(** ** C12. Full claim: the conclusion for every history. *)
Theorem C12_transposed_partial : forall (F : Type) (SF : Scalar F) (st : list (M3 F)) atoms (spins : dict atom F) (ops : list op),
  tame_history ops (fresh st atoms spins) ->
  let w := run ops (fresh st atoms spins) in h_dc (w_ham w) = Some true ->
  forall k J, bond_value w k = Some J -> bond_value w (mirror k) = Some (mtrans J).
Proof. exact @history_reciprocal. Qed.
Print Assumptions C12_transposed_partial.

Theorem C12_overwrite_refuted : exists (w : @world Qc) r1 r2 ijk m k J,
  reachable w /\ h_dc (w_ham w) = Some true /\
  (forall k J, bond_value w k = Some J -> bond_value w (mirror k) = Some (mtrans J)) /\
  let w' := fst (exec (OAddExchangeNew r1 r2 ijk m) w) in bond_value w' k = Some J /\ bond_value w' (mirror k) <> Some (mtrans J).
Proof. exact overwrite_refuted. Qed.
Print Assumptions C12_overwrite_refuted.

Theorem C12_in_place_refuted : exists (w : @world Qc) l m k J,
  reachable w /\ h_dc (w_ham w) = Some true /\
  (forall k J, bond_value w k = Some J -> bond_value w (mirror k) = Some (mtrans J)) /\
  let w' := fst (exec (OAssign l m) w) in bond_value w' k = Some J /\ bond_value w' (mirror k) <> Some (mtrans J).
Proof. exact in_place_refuted. Qed.
Print Assumptions C12_in_place_refuted.

Example C12_case : tame_history rich_ops (start nil) /\ h_dc (w_ham (run rich_ops (start nil))) = Some true /\
  bond_value (run rich_ops (start nil)) (mkB atA atB c0) = Some gen.
Proof. exact rich_tame. Qed.

(** ** C13 *)
Theorem C13_canonical : forall (F : Type) (SF : Scalar F) (w w' : @world F),
  wf w -> set_double_counting false w = (w', Ret tt) ->
  forall k, In k (bonds w') -> kept_direction k /\ ~ In (mirror k) (bonds w') /\ In k (bonds w).
Proof. exact @dc_off_canonical. Qed.
Print Assumptions C13_canonical.

(** Full claim: without the two hypotheses on the bonds. *)
Theorem C13_complete_partial : forall (F : Type) (SF : Scalar F) (w w' : @world F),
  wf w -> set_double_counting false w = (w', Ret tt) ->
  (forall k, In k (bonds w) -> ~ self_bond k) -> distinct_indices w ->
  forall k, In k (bonds w) -> In k (bonds w') \/ In (mirror k) (bonds w').
Proof. exact @dc_off_complete. Qed.
Print Assumptions C13_complete_partial.

Theorem C13_self_bond_lost_refuted : exists (w w' : @world Qc) k,
  reachable w /\ set_double_counting false w = (w', Ret tt) /\ In k (bonds w) /\ ~ In k (bonds w') /\ ~ In (mirror k) (bonds w').
Proof. exact self_lost_refuted. Qed.
Print Assumptions C13_self_bond_lost_refuted.

Example C13_case : wf w_rich /\ (exists w', set_double_counting false w_rich = (w', Ret tt) /\ bonds w' = (mkB atA atB c0 :: mkB atA atA c1 :: nil)%list) /\
  (forall k, In k (bonds w_rich) -> ~ self_bond k) /\ distinct_indices w_rich.
Proof. exact rich_off. Qed.

(** ** C14 *)
Theorem C14_add_exchange : forall (F : Type) r1 r2 ijk l m (w w' : @world F),
  wf w -> nth_error (w_store w) l = Some m -> add_exchange r1 r2 ijk l w = (w', Ret tt) ->
  exists a1 a2, refers r1 a1 /\ refers r2 a2 /\ get_bond (mkB a1 a2 ijk) w' = (w', Ret l) /\ added w w' (mkB a1 a2 ijk) m.
Proof. exact @add_exchange_effect. Qed.
Print Assumptions C14_add_exchange.

Theorem C14_add_exchange_keywords : forall (F : Type) r1 r2 ijk m (w w' : @world F),
  wf w -> add_exchange_new r1 r2 ijk (Some m) w = (w', Ret tt) ->
  exists a1 a2, refers r1 a1 /\ refers r2 a2 /\ added w w' (mkB a1 a2 ijk) m.
Proof. exact @add_exchange_new_effect. Qed.
Print Assumptions C14_add_exchange_keywords.

Theorem C14_add_exchange_succeeds : forall (F : Type) a1 a2 ijk l (w : @world F),
  (l < List.length (w_store w))%nat -> exists w', add_exchange (AObj a1) (AObj a2) ijk l w = (w', Ret tt).
Proof. exact @add_exchange_total. Qed.
Print Assumptions C14_add_exchange_succeeds.

Theorem C14_remove_exchange : forall (F : Type) r1 r2 ijk b (w w' : @world F),
  wf w -> remove_exchange r1 r2 ijk b w = (w', Ret tt) ->
  exists a1 a2, refers r1 a1 /\ refers r2 a2 /\ removed w w' (mkB a1 a2 ijk).
Proof. exact @remove_exchange_effect. Qed.
Print Assumptions C14_remove_exchange.

Theorem C14_remove_exchange_reject : forall (F : Type) r1 r2 ijk b (w w' : @world F) e,
  wf w -> remove_exchange r1 r2 ijk b w = (w', Raise e) -> w' = w.
Proof. exact @remove_exchange_reject. Qed.
Print Assumptions C14_remove_exchange_reject.

Theorem C14_membership : forall (F : Type) r1 r2 ijk (w : @world F),
  (contains_bond r1 r2 ijk w = (w, Ret true) <-> exists l, getitem_bond r1 r2 ijk w = (w, Ret l)) /\
  (contains_bond r1 r2 ijk w = (w, Ret false) <-> getitem_bond r1 r2 ijk w = (w, Raise KeyError)).
Proof. exact @contains_getitem_bond. Qed.
Print Assumptions C14_membership.

Theorem C14_membership_on_site : forall (F : Type) r (w : @world F),
  (contains_onsite r w = (w, Ret true) <-> exists l, getitem_onsite r w = (w, Ret l)) /\
  (contains_onsite r w = (w, Ret false) <-> getitem_onsite r w = (w, Raise KeyError)).
Proof. exact @contains_getitem_onsite. Qed.
Print Assumptions C14_membership_on_site.

Theorem C14_add_on_site : forall (F : Type) r l m (w w' : @world F),
  nth_error (w_store w) l = Some m -> add_on_site r l w = (w', Ret tt) ->
  exists a, refers r a /\ onsite_value w' a = Some m /\ (forall a', a' <> a -> onsite_value w' a' = onsite_value w a') /\
    (forall k, bond_value w' k = bond_value w k).
Proof. exact @add_on_site_effect. Qed.
Print Assumptions C14_add_on_site.

Example C14_case : wf w_shared /\ nth_error (w_store w_shared) 0 = Some (Linear3.mscale (q 1) one) /\
  (exists w', add_exchange (AName "C") (AObj atA) c1 0%nat w_shared = (w', Ret tt)) /\
  (exists w', remove_exchange (AName "A") (AObj atB) c1 true w_shared = (w', Ret tt)).
Proof. exact shared_calls. Qed.

(** ** C15. Full claim: [remove_atom] succeeds and removes exactly the parameters of the atom, in every notation. *)
Theorem C15_remove_atom_exact : forall (F : Type) (w w' : @world F) a,
  wf w -> (h_dc (w_ham w) = Some true -> mirror_closed w) -> remove_atom (AObj a) w = (w', Ret tt) ->
  (forall k, b_from k = a \/ b_to k = a -> bond_value w' k = None) /\
  (forall k, b_from k <> a -> b_to k <> a -> bond_value w' k = bond_value w k) /\
  onsite_value w' a = None /\ (forall a', a' <> a -> onsite_value w' a' = onsite_value w a').
Proof. exact @remove_atom_exact. Qed.
Print Assumptions C15_remove_atom_exact.

Theorem C15_remove_atom_succeeds_partial : forall (F : Type) (w : @world F) a,
  wf w -> (h_dc (w_ham w) = Some true -> mirror_closed w) -> In a (h_atoms (w_ham w)) ->
  (h_dc (w_ham w) = Some true -> forall k, In k (bonds w) -> (b_from k = a \/ b_to k = a) -> self_bond k) ->
  exists w' l1 l2, remove_atom (AObj a) w = (w', Ret tt) /\ h_atoms (w_ham w) = (l1 ++ a :: l2)%list /\ h_atoms (w_ham w') = (l1 ++ l2)%list.
Proof. exact @remove_atom_succeeds. Qed.
Print Assumptions C15_remove_atom_succeeds_partial.

(** The remaining case always fails. *)
Theorem C15_double_counting_fails : forall (F : Type) (w : @world F) a k,
  wf w /\ (h_dc (w_ham w) = Some true -> mirror_closed w) -> h_dc (w_ham w) = Some true -> In k (bonds w) ->
  (b_from k = a \/ b_to k = a) -> ~ self_bond k -> exists w', remove_atom (AObj a) w = (w', Raise KeyError).
Proof. exact @remove_atom_double_counting. Qed.
Print Assumptions C15_double_counting_fails.

Theorem C15_remove_atom_refuted : exists (w w' : @world Qc) a e k,
  reachable w /\ In a (h_atoms (w_ham w)) /\ remove_atom (AObj a) w = (w', Raise e) /\
  In a (h_atoms (w_ham w')) /\ b_from k = a /\ In k (bonds w) /\ In k (bonds w') /\
  (exists k', b_from k' = a /\ In k' (bonds w) /\ ~ In k' (bonds w')).
Proof. exact remove_atom_refuted. Qed.
Print Assumptions C15_remove_atom_refuted.

Example C15_case : wf w_both /\ In atA (h_atoms (w_ham w_both)) /\ h_dc (w_ham w_both) = Some false /\
  exists w', remove_atom (AObj atA) w_both = (w', Ret tt) /\ bonds w_both <> nil /\ bonds w' = nil.
Proof. exact both_remove. Qed.

(** ** C16. Full claim: also for [AName (a_name a)]. *)
Theorem C16_remove_by_object_partial : forall (F : Type) a b (w w' : @world F),
  wf w -> remove_on_site (AObj a) b w = (w', Ret tt) ->
  onsite_value w' a = None /\ (forall a', a' <> a -> onsite_value w' a' = onsite_value w a') /\ (forall k, bond_value w' k = bond_value w k).
Proof. exact @remove_on_site_effect. Qed.
Print Assumptions C16_remove_by_object_partial.

Theorem C16_remove_present : forall (F : Type) a b (w : @world F),
  In a (sites w) -> exists w', remove_on_site (AObj a) b w = (w', Ret tt).
Proof. exact @remove_on_site_present. Qed.
Print Assumptions C16_remove_present.

(** By name nothing is ever removed. *)
Theorem C16_remove_by_name_never_works : forall (F : Type) s b (w : @world F), fst (remove_on_site (AName s) b w) = w.
Proof. exact @remove_on_site_name. Qed.
Print Assumptions C16_remove_by_name_never_works.

Theorem C16_remove_by_name_refuted : exists (w w' : @world Qc) a e,
  reachable w /\ In a (sites w) /\ In a (h_atoms (w_ham w)) /\ remove_on_site (AName (a_name a)) true w = (w', Raise e) /\ In a (sites w').
Proof. exact remove_on_site_name_refuted. Qed.
Print Assumptions C16_remove_by_name_refuted.

Example C16_case : wf w_rich /\ In atB (sites w_rich) /\ exists w', remove_on_site (AObj atB) true w_rich = (w', Ret tt).
Proof. split; [exact rich_wf|]. split; [left; reflexivity|]. apply remove_on_site_present. left; reflexivity. Qed.

(** ** C17 *)
Theorem C17_filter_exact : forall (F : Type) (SF : Scalar F) dist order maxd mind custom,
  (forall l, Permutation (order l) l) -> forall w : @world F,
  wf w /\ (h_dc (w_ham w) = Some true -> mirror_closed w) ->
  exists w', h_filter dist order maxd mind custom w = (w', Ret tt) /\
    (wf w' /\ (h_dc (w_ham w') = Some true -> mirror_closed w')) /\ h_dc (w_ham w') = h_dc (w_ham w) /\
    (forall k, In k (bonds w') <-> In k (bonds w) /\ meets dist maxd mind custom w k /\
                 (h_dc (w_ham w) = Some true -> meets dist maxd mind custom w (mirror k))) /\
    (forall a, In a (sites w') <-> In a (sites w) /\ meets_onsite mind custom w a) /\
    (forall k, In k (bonds w') -> bond_value w' k = bond_value w k) /\ (forall a, In a (sites w') -> onsite_value w' a = onsite_value w a).
Proof. exact @filter_exact. Qed.
Print Assumptions C17_filter_exact.

Theorem C17_filter_idempotent : forall (F : Type) (SF : Scalar F) dist order maxd mind custom,
  (forall l, Permutation (order l) l) -> forall w w' : @world F,
  wf w /\ (h_dc (w_ham w) = Some true -> mirror_closed w) -> h_filter dist order maxd mind custom w = (w', Ret tt) ->
  h_filter dist order maxd mind custom w' = (w', Ret tt).
Proof. exact @filter_idempotent. Qed.
Print Assumptions C17_filter_idempotent.

Theorem C17_filter_order : forall (F : Type) (SF : Scalar F) dist o1 o2 maxd mind custom (w : @world F),
  (forall l, Permutation (o1 l) l) -> (forall l, Permutation (o2 l) l) -> wf w /\ (h_dc (w_ham w) = Some true -> mirror_closed w) ->
  same_parameters (fst (h_filter dist o1 maxd mind custom w)) (fst (h_filter dist o2 maxd mind custom w)).
Proof. exact @filter_order. Qed.
Print Assumptions C17_filter_order.

Example C17_case : exists w', h_filter far (@rev _) (Some (q 1)) None None w_rich = (w', Ret tt) /\
  bonds w' = (mkB atA atB c0 :: mkB atB atA c0 :: nil)%list /\ sites w' = (atB :: nil)%list.
Proof. exact rich_filter. Qed.

(** ** C18 *)
Theorem C18_copy_independent : forall (F : Type) (st : list (M3 F)) h, wf (mkW st h) ->
  let '(st', h') := copy_ham st h in
  (exists ms, st' = (st ++ ms)%list) /\ wf (mkW st' h') /\
  h_dc h' = h_dc h /\ h_sn h' = h_sn h /\ h_ef h' = h_ef h /\ h_of h' = h_of h /\ h_spins h' = h_spins h /\ h_atoms h' = h_atoms h /\
  bonds (mkW st' h') = bonds (mkW st h) /\ sites (mkW st' h') = sites (mkW st h) /\
  same_parameters (mkW st h) (mkW st' h') /\ (unshared (mkW st h) -> unshared (mkW st' h')) /\
  (forall l, In l (in_use (mkW st' h')) -> (List.length st <= l < List.length st')%nat).
Proof. exact @copy_ok. Qed.
Print Assumptions C18_copy_independent.

(** [filtered]: the original is unchanged, the copy holds exactly what passes the filter, and no later history on one of
    the two is visible in the other (as long as its calls are not handed the other's parameter objects). *)
Theorem C18_filtered : forall (F : Type) (SF : Scalar F) dist order maxd mind custom (w : @world F),
  (forall l, Permutation (order l) l) -> wf w /\ (h_dc (w_ham w) = Some true -> mirror_closed w) ->
  exists st h2, filtered dist order maxd mind custom w = (st, w_ham w, (h2, Ret tt)) /\
    same_parameters w (mkW st (w_ham w)) /\
    (forall k, In k (bonds (mkW st h2)) <-> In k (bonds w) /\ meets dist maxd mind custom w k /\
                 (h_dc (w_ham w) = Some true -> meets dist maxd mind custom w (mirror k))) /\
    (forall a, In a (sites (mkW st h2)) <-> In a (sites w) /\ meets_onsite mind custom w a) /\
    (forall k, In k (bonds (mkW st h2)) -> bond_value (mkW st h2) k = bond_value w k) /\
    (forall a, In a (sites (mkW st h2)) -> onsite_value (mkW st h2) a = onsite_value w a) /\
    (forall ops, (forall o l, In o ops -> In l (mentions o) -> ~ In l (in_use w)) ->
       same_parameters w (mkW (w_store (run ops (mkW st h2))) (w_ham w))) /\
    (forall ops, (forall o l, In o ops -> In l (mentions o) -> ~ In l (in_use (mkW st h2))) ->
       same_parameters (mkW st h2) (mkW (w_store (run ops (mkW st (w_ham w)))) h2)).
Proof. exact @filtered_ok. Qed.
Print Assumptions C18_filtered.

Example C18_case : let '(st, h, (h2, o)) := filtered far (@rev _) (Some (q 1)) None None w_rich in
  o = Ret tt /\ bonds (mkW st h) = bonds w_rich /\ bonds (mkW st h2) = (mkB atA atB c0 :: mkB atB atA c0 :: nil)%list.
Proof. vm_compute. auto. Qed.

(** ** C19 *)
Theorem C19_magnetic_atoms : forall (F : Type) order (w : @world F), (forall l, Permutation (order l) l) ->
  exists r, magnetic_atoms order w = (w, Ret r) /\ NoDup r /\ Sorted by_index r /\
    forall a, In a r <-> (exists k, In k (bonds w) /\ (b_from k = a \/ b_to k = a)) \/ In a (sites w).
Proof. exact @magnetic_atoms_exact. Qed.
Print Assumptions C19_magnetic_atoms.

Example C19_case : magnetic_atoms (@rev _) w_rich = (w_rich, Ret (atA :: atB :: nil)%list).
Proof. apply outcome_pair. reflexivity. Qed.

(** ** C20 *)
Theorem C20_listing : forall (F : Type) (SF : Scalar F) (w : @world F) ef of_,
  wf w -> h_ef (w_ham w) = Some ef -> h_of (w_ham w) = Some of_ -> of_ <> 0 ->
  exists w' r, exchange_like w = (w', Ret r) /\ w_ham w' = w_ham w /\ same_parameters w w' /\
    map fst r = (map (fun a => mkB a a (0, 0, 0)%Z) (sites w) ++ bonds w)%list /\
    map (fun kl => nth_error (w_store w') (snd kl)) r =
    (map (fun a => option_map (mscale (ef / of_)) (onsite_value w a)) (sites w) ++ map (bond_value w) (bonds w))%list.
Proof. exact @exchange_like_listing. Qed.
Print Assumptions C20_listing.

(** Full claim: without [ef * ef = of_ * of_]. *)
Theorem C20_energy_partial : forall (F : Type) (SF : Scalar F) (w : @world F) ef of_ L s,
  wf w -> h_ef (w_ham w) = Some ef -> h_of (w_ham w) = Some of_ -> of_ <> 0 -> ef * ef = of_ * of_ ->
  exists w' r, exchange_like w = (w', Ret r) /\ listed_energy w' L s (entry_values w' r) = energy w L s.
Proof. exact @exchange_like_energy. Qed.
Print Assumptions C20_energy_partial.

Theorem C20_energy_refuted : exists (w w' : @world Qc) r L s E E',
  reachable w /\ exchange_like w = (w', Ret r) /\
  energy w L s = Some E /\ listed_energy w' L s (entry_values w' r) = Some E' /\ E <> E'.
Proof. exact exchange_like_refuted. Qed.
Print Assumptions C20_energy_refuted.

Example C20_case : wf w_minus /\ h_ef (w_ham w_minus) = Some (q (-1)) /\ h_of (w_ham w_minus) = Some (q 1) /\ (q 1 <> 0) /\
  q (-1) * q (-1) = q 1 * q 1 /\ sites w_minus <> nil /\ bonds w_minus <> nil.
Proof. exact minus_case. Qed.
