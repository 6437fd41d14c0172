(** Notation changes: first interpretation, round trips, rejected assignments (C06, C09, C10). *)
From Coq Require Import List Bool ZArith Lia Permutation String.
From Coq Require Import Ring Field Field_theory Ring_theory.
From Verif.Base Require Import Scalar Linear3 PyDict.
From Verif.Model Require Import MatrixParam Hamiltonian.
From Verif.Spec Require Import HamSpec NotationSpec.
From Verif.Proofs Require Import DictProofs HamBasics HamSetters HamDouble HamDcEnergy.
Import ListNotations.

Section NotationProofs.
Context {F : Type} {SF : Scalar F}.
Add Field F_field : (@f_field F SF).
Notation world := (@world F).
Notation ham := (@ham F).
Notation M := (@M F).
Local Open Scope py_scope.
Local Open Scope fld_scope.

Lemma mul_nz (x y : F) : x <> 0 -> y <> 0 -> x * y <> 0.
Proof.
  intros Hx Hy E. apply Hy. transitivity ((1 / x) * (x * y)); [field; exact Hx|]. rewrite E. field. exact Hx.
Qed.
Lemma f2_nz : (f2 : F) <> 0.
Proof. exact f_two. Qed.
Lemma half_nz : (1 / f2 : F) <> 0.
Proof.
  intros E. apply (@F_1_neq_0 _ _ _ _ _ _ _ _ _ _ (@f_field F SF)). rewrite <- f2_half, E. unfold f2. ring.
Qed.
Lemma mscale_cancel c (m m' : M3 F) : c <> 0 -> mscale c m = mscale c m' -> m = m'.
Proof.
  intros Hc E. rewrite <- (mscale_1 m), <- (mscale_1 m'). replace (1 : F) with ((1 / c) * c) by (field; exact Hc).
  rewrite <- !mscale_mscale, E. reflexivity.
Qed.

(** ** Setting a property for the first time *)
Lemma set_sn_first (w : world) new : h_sn (w_ham w) = None ->
  set_spin_normalized new w = (mkW (w_store w) (with_sn (w_ham w) new), Ret tt).
Proof. intros E. destruct w as [st h]; cbn in E. unfold set_spin_normalized. rewrite bind_gets; cbn [w_ham]. rewrite E. reflexivity. Qed.
Lemma set_ef_first (w : world) new : h_ef (w_ham w) = None ->
  set_exchange_factor new w = (mkW (w_store w) (with_ef (w_ham w) new), Ret tt).
Proof. intros E. destruct w as [st h]; cbn in E. unfold set_exchange_factor. rewrite bind_gets; cbn [w_ham]. rewrite E. reflexivity. Qed.
Lemma set_of_first (w : world) new : h_of (w_ham w) = None ->
  set_on_site_factor new w = (mkW (w_store w) (with_of (w_ham w) new), Ret tt).
Proof. intros E. destruct w as [st h]; cbn in E. unfold set_on_site_factor. rewrite bind_gets; cbn [w_ham]. rewrite E. reflexivity. Qed.

Lemma first_simple (w : world) :
  (h_sn (w_ham w) = None -> forall new, exists w', set_spin_normalized new w = (w', Ret tt) /\ same_parameters w w') /\
  (h_ef (w_ham w) = None -> forall new, exists w', set_exchange_factor new w = (w', Ret tt) /\ same_parameters w w') /\
  (h_of (w_ham w) = None -> forall new, exists w', set_on_site_factor new w = (w', Ret tt) /\ same_parameters w w').
Proof.
  splits; intros E new; eexists; (split; [first [apply set_sn_first|apply set_ef_first|apply set_of_first]; exact E|]); split; reflexivity.
Qed.

Lemma all_or_witness (w : world) :
  (forall k, In k (bonds w) -> canonical k = true \/ In (mirror k) (bonds w)) \/
  (exists k, In k (bonds w) /\ canonical k = false /\ ~ In (mirror k) (bonds w)).
Proof.
  assert (Dec : forall k, {canonical k = true \/ In (mirror k) (bonds w)} + {~ (canonical k = true \/ In (mirror k) (bonds w))}).
  { intros k. destruct (canonical k); [left; auto|].
    destruct (in_dec eq_dec (mirror k) (bonds w)); [left; auto|right; intros [|]; [discriminate|contradiction]]. }
  destruct (Forall_Exists_dec _ Dec (bonds w)) as [H|H].
  - left. apply Forall_forall. exact H.
  - right. apply Exists_exists in H as (k & I & H). exists k. splits; [exact I| |tauto].
    destruct (canonical k); [tauto|reflexivity].
Qed.

Lemma first_dc (w : world) new : wf w -> h_dc (w_ham w) = None ->
  (forall a, onsite_value (fst (set_double_counting new w)) a = onsite_value w a) /\
  (forall k J, bond_value (fst (set_double_counting new w)) k = Some J ->
     bond_value w k = Some J \/ bond_value w (mirror k) = Some (mtrans J)).
Proof.
  intros W D. destruct new.
  - destruct (set_dc_true_ok w W) as (w' & E & W' & U' & R & D' & V); [congruence|]. rewrite E; cbn [fst].
    rewrite D in V; cbn [dc_factor] in V.
    splits; [apply R|].
    intros k J. rewrite V, option_map_mscale_1. unfold mirrored_value. destruct (dmem _ _); [|auto].
    destruct (bond_value w (mirror k)) as [m|]; [|discriminate]. cbn. intros [= <-]. right. rewrite mtrans_invol. reflexivity.
  - destruct (all_or_witness w) as [H|(k0 & I & C & N)].
    + destruct (set_dc_false_ok w W) as (w' & E & W' & U' & R & D' & V); [congruence|exact H|]. rewrite E; cbn [fst].
      rewrite D in V; cbn [dc_factor] in V.
      splits; [apply R|].
      intros k J. rewrite V. destruct (survives w k); [|discriminate]. rewrite option_map_mscale_1. auto.
    + rewrite (set_dc_false_fail w k0 W I C N). cbn [fst]. unfold dc_scaled. rewrite D. splits; auto.
Qed.

(** ** Success of the scaling setters *)
Lemma for_each_total {A} (l : list A) (body : A -> M unit) (h : ham) (n : nat) :
  (forall x st, In x l -> List.length st = n -> exists st', List.length st' = n /\ body x (mkW st h) = (mkW st' h, Ret tt)) ->
  forall st, List.length st = n -> exists st', List.length st' = n /\ for_each l body (mkW st h) = (mkW st' h, Ret tt).
Proof.
  intros Hb. induction l as [|x l IH]; intros st Hl; [exists st; auto|].
  destruct (Hb x st (or_introl eq_refl) Hl) as (st1 & L1 & E1). cbn [for_each]. rewrite (bind_val _ _ _ _ _ E1).
  apply IH; auto. intros; apply Hb; auto. right; assumption.
Qed.
Lemma list_set_total (st : list (M3 F)) (h : ham) l c : (l < List.length st)%nat ->
  exists st', List.length st' = List.length st /\ scale_loc l c (mkW st h) = (mkW st' h, Ret tt).
Proof.
  intros H. destruct (nth_error_lt st l H) as [m E]. exists (list_set st l (mscale c m)). split; [apply length_list_set|].
  unfold scale_loc. rewrite (bind_val _ _ _ (mkW st h) m); [reflexivity|]. unfold read; cbn. rewrite E. reflexivity.
Qed.
Lemma div_loc_total (st : list (M3 F)) (h : ham) l c : (l < List.length st)%nat -> c <> 0 ->
  exists st', List.length st' = List.length st /\ div_loc l c (mkW st h) = (mkW st' h, Ret tt).
Proof.
  intros H Hc. destruct (nth_error_lt st l H) as [m E]. exists (list_set st l (mdivs m c)). split; [apply length_list_set|].
  unfold div_loc. rewrite (bind_val _ _ _ (mkW st h) m); [|unfold read; cbn; rewrite E; reflexivity].
  unfold p_div. destruct (feq_dec c 0); [contradiction|reflexivity].
Qed.
Lemma py_div_ok (a b : F) w : b <> 0 -> py_div a b w = (w, Ret (a / b)).
Proof. intros H. unfold py_div. destruct (feq_dec b 0); [contradiction|reflexivity]. Qed.
Lemma key_entry {K} `{EqDec K} (d : dict K loc) k : In k (dkeys d) -> exists l, In (k, l) d.
Proof. unfold dkeys. intros I. apply in_map_iff in I as ([k' l] & <- & I). eauto. Qed.

Lemma set_ef_total (w : world) new : wf w -> new <> 0 -> exists w', set_exchange_factor new w = (w', Ret tt).
Proof.
  intros (Nk & _ & Hl & _) Hn. destruct w as [st h]. unfold set_exchange_factor. rewrite bind_gets; cbn [w_ham].
  destruct (h_ef h) as [o|]; [|eexists; reflexivity]. destruct (feq_dec o new); [eexists; reflexivity|].
  edestruct (for_each_total (dkeys (h_exch h)) (fun k => l <- get_bond k ;; c <- py_div o new ;; scale_loc l c) h
    (List.length st)) as (st' & L' & E); [|reflexivity|].
  - intros k s I Ls. destruct (key_entry _ _ I) as [l Il]. cbn [w_store w_ham] in Hl.
    rewrite (bind_val _ _ _ _ _ (get_bond_In (mkW s h) k l Nk Il)), (bind_val _ _ _ _ _ (py_div_ok o new _ Hn)).
    rewrite <- Ls. apply list_set_total. rewrite Ls. apply (Hl k l Il).
  - eexists. rewrite (bind_val _ _ _ (mkW st' h) tt); [reflexivity|]. rewrite bind_gets. exact E.
Qed.
Lemma set_of_total (w : world) new : wf w -> new <> 0 -> exists w', set_on_site_factor new w = (w', Ret tt).
Proof.
  intros (_ & Nk & _ & Hl & _) Hn. destruct w as [st h]. unfold set_on_site_factor. rewrite bind_gets; cbn [w_ham].
  destruct (h_of h) as [o|]; [|eexists; reflexivity]. destruct (feq_dec o new); [eexists; reflexivity|].
  edestruct (for_each_total (dkeys (h_ons h)) (fun k => l <- get_onsite k ;; c <- py_div o new ;; scale_loc l c) h
    (List.length st)) as (st' & L' & E); [|reflexivity|].
  - intros k s I Ls. destruct (key_entry _ _ I) as [l Il]. cbn [w_store w_ham] in Hl.
    rewrite (bind_val _ _ _ _ _ (get_onsite_In (mkW s h) k l Nk Il)), (bind_val _ _ _ _ _ (py_div_ok o new _ Hn)).
    rewrite <- Ls. apply list_set_total. rewrite Ls. apply (Hl k l Il).
  - eexists. rewrite (bind_val _ _ _ (mkW st' h) tt); [reflexivity|]. rewrite bind_gets. exact E.
Qed.

Lemma sn_loops_total (op : loc -> F -> M unit) st (h : ham) :
  (forall st l c, (l < List.length st)%nat -> c <> 0 ->
     exists st', List.length st' = List.length st /\ op l c (mkW st h) = (mkW st' h, Ret tt)) ->
  wf (mkW st h) -> spins_defined (mkW st h) ->
  exists st',
  (d <- gets (@h_exch F) ;;
   for_each (dkeys d) (fun k =>
     l <- get_bond k ;; s1 <- spin (b_from k) ;; s2 <- spin (b_to k) ;; op l (s1 * s2)) ;;;
   e <- gets (@h_ons F) ;;
   for_each (dkeys e) (fun a => l <- get_onsite a ;; s <- spin a ;; op l (s * s))) (mkW st h) = (mkW st' h, Ret tt).
Proof.
  intros Hop (Nk & Ns & Hl & Hlo & _) [Sb Ss].
  edestruct (for_each_total (dkeys (h_exch h)) (fun k =>
     l <- get_bond k ;; s1 <- spin (b_from k) ;; s2 <- spin (b_to k) ;; op l (s1 * s2)) h (List.length st)) as (st1 & L1 & E1); [|reflexivity|].
  { intros k s I Ls. destruct (key_entry _ _ I) as [l Il]. cbn [w_store w_ham] in Hl.
    destruct (Sb k I) as [(x & Ex & Hx) (y & Ey & Hy)].
    rewrite (bind_val _ _ _ _ _ (get_bond_In (mkW s h) k l Nk Il)).
    rewrite (bind_val _ _ _ _ _ (spin_some (mkW s h) _ _ Ex)), (bind_val _ _ _ _ _ (spin_some (mkW s h) _ _ Ey)).
    rewrite <- Ls. apply Hop; [rewrite Ls; apply (Hl k l Il)|]. apply mul_nz; assumption. }
  edestruct (for_each_total (dkeys (h_ons h)) (fun a => l <- get_onsite a ;; s <- spin a ;; op l (s * s)) h (List.length st))
    with (st := st1) as (st2 & L2 & E2); [|exact L1|].
  { intros k s I Ls. destruct (key_entry _ _ I) as [l Il]. cbn [w_store w_ham] in Hlo.
    destruct (Ss k I) as (x & Ex & Hx).
    rewrite (bind_val _ _ _ _ _ (get_onsite_In (mkW s h) k l Ns Il)).
    rewrite (bind_val _ _ _ _ _ (spin_some (mkW s h) _ _ Ex)).
    rewrite <- Ls. apply Hop; [rewrite Ls; apply (Hlo k l Il)|]. apply mul_nz; assumption. }
  exists st2. rewrite bind_gets. cbn [w_ham]. rewrite (bind_val _ _ _ _ _ E1), bind_gets. exact E2.
Qed.

Lemma set_sn_total (w : world) new : wf w -> spins_defined w -> exists w', set_spin_normalized new w = (w', Ret tt).
Proof.
  intros W S. destruct w as [st h]. unfold set_spin_normalized. rewrite bind_gets; cbn [w_ham].
  destruct (h_sn h) as [[]|]; destruct new; try (eexists; reflexivity).
  - destruct (sn_loops_total div_loc st h) as [st' E]; auto.
    { intros; apply div_loc_total; auto. }
    eexists. rewrite (bind_val _ _ _ _ _ E). reflexivity.
  - destruct (sn_loops_total scale_loc st h) as [st' E]; auto.
    { intros; apply list_set_total; auto. }
    eexists. rewrite (bind_val _ _ _ _ _ E). reflexivity.
Qed.

(** ** Physical content *)
Definition dcf (b : bool) : F := if b then f2 else 1.

Record full (w : world) (dc sn : bool) (ef of_ : F) : Prop := {
  fu_wf : wf w; fu_un : unshared w; fu_sp : spins_defined w; fu_st : reciprocal_storage w dc;
  fu_no : notation_is w dc sn ef of_; fu_ef : ef <> 0; fu_of : of_ <> 0 }.

Definition sl (sn : bool) (w : world) (a : atom) : F := sdef (slen sn (w_ham w) a).
Definition cb (dc sn : bool) (ef : F) (w : world) k : F := dcf dc * (ef * (sl sn w (b_from k) * sl sn w (b_to k))).
Definition co (sn : bool) (of_ : F) (w : world) a : F := of_ * (sl sn w a * sl sn w a).

(** Same physics: canonical bonds and on-site terms agree up to the weights of the two notations. *)
Definition same_physics (w : world) dc sn ef of_ (w' : world) dc' sn' ef' of' : Prop :=
  h_spins (w_ham w') = h_spins (w_ham w) /\
  (forall k, canonical k = true ->
     option_map (mscale (cb dc' sn' ef' w' k)) (bond_value w' k) = option_map (mscale (cb dc sn ef w k)) (bond_value w k)) /\
  (forall a, option_map (mscale (co sn' of' w' a)) (onsite_value w' a) = option_map (mscale (co sn of_ w a)) (onsite_value w a)).

Lemma same_physics_trans w dc sn ef of_ w' dc' sn' ef' of' w'' dc'' sn'' ef'' of'' :
  same_physics w dc sn ef of_ w' dc' sn' ef' of' -> same_physics w' dc' sn' ef' of' w'' dc'' sn'' ef'' of'' ->
  same_physics w dc sn ef of_ w'' dc'' sn'' ef'' of''.
Proof. intros (A & B & C) (A' & B' & C'). unfold same_physics. splits; [congruence| |]; intros; [rewrite B'; auto|rewrite C'; auto]. Qed.
Lemma same_physics_sym w dc sn ef of_ w' dc' sn' ef' of' :
  same_physics w dc sn ef of_ w' dc' sn' ef' of' -> same_physics w' dc' sn' ef' of' w dc sn ef of_.
Proof. intros (A & B & C). unfold same_physics. splits; [congruence| |]; intros; symmetry; auto. Qed.

Lemma sl_nz sn (w : world) : spins_defined w ->
  (forall k, In k (bonds w) -> sl sn w (b_from k) <> 0 /\ sl sn w (b_to k) <> 0) /\ (forall a, In a (sites w) -> sl sn w a <> 0).
Proof.
  intros [A B]. unfold sl, slen. destruct sn.
  - cbn. split; intros; try split; apply (@F_1_neq_0 _ _ _ _ _ _ _ _ _ _ (@f_field F SF)).
  - split.
    + intros k I. destruct (A k I) as [(x & Ex & Hx) (y & Ey & Hy)]. unfold spin_of in *. rewrite Ex, Ey. auto.
    + intros a I. destruct (B a I) as (x & Ex & Hx). unfold spin_of in *. rewrite Ex. auto.
Qed.
Lemma dcf_nz b : dcf b <> 0.
Proof. destruct b; [apply f2_nz|apply (@F_1_neq_0 _ _ _ _ _ _ _ _ _ _ (@f_field F SF))]. Qed.

Lemma full_twin w dc sn ef of_ k : full w dc sn ef of_ -> canonical k = false ->
  bond_value w k = if dc then option_map mtrans (bond_value w (mirror k)) else None.
Proof.
  intros Fw C. destruct (fu_st _ _ _ _ _ Fw) as (Hns & Hd & Hst). assert (W := fu_wf _ _ _ _ _ Fw).
  destruct dc.
  - destruct Hst as [Hm Hr]. destruct (bond_value w k) as [J|] eqn:E.
    + assert (I : In k (bonds w)) by (apply bond_value_stored; eauto). apply Hm in I.
      apply bond_value_stored in I as [J' E']; [|exact W]. rewrite E'. cbn. f_equal. rewrite (Hr k J J' E E'). symmetry. apply mtrans_invol.
    + destruct (bond_value w (mirror k)) as [J'|] eqn:E'; [|reflexivity]. exfalso.
      assert (I : In (mirror k) (bonds w)) by (apply bond_value_stored; eauto). apply Hm in I. rewrite mirror_invol in I.
      apply bond_value_stored in I as [? ?]; [congruence|exact W].
  - apply bond_value_absent; [exact W|]. intros I. apply Hst in I. apply canonical_kept in I. congruence.
Qed.

Lemma full_determined w w' dc sn ef of_ : full w dc sn ef of_ -> full w' dc sn ef of_ ->
  same_physics w dc sn ef of_ w' dc sn ef of_ -> same_parameters w w'.
Proof.
  intros Fw Fw' (Hs & Hb & Ho).
  assert (Hcan : forall k, canonical k = true -> bond_value w' k = bond_value w k).
  { intros k C. specialize (Hb k C). unfold cb, sl, slen in Hb. rewrite Hs in Hb. fold (slen sn (w_ham w) (b_from k)) in Hb.
    fold (slen sn (w_ham w) (b_to k)) in Hb. fold (sl sn w (b_from k)) in Hb. fold (sl sn w (b_to k)) in Hb. fold (cb dc sn ef w k) in Hb.
    destruct (bond_value w k) as [J|] eqn:E; destruct (bond_value w' k) as [J'|] eqn:E'; try discriminate; [|reflexivity].
    f_equal. assert (Hb' := f_equal (@vdef F SF) Hb). revert Hb'. apply mscale_cancel.
    assert (I : In k (bonds w)) by (apply bond_value_stored; [apply Fw|eauto]).
    destruct (proj1 (sl_nz sn w (fu_sp _ _ _ _ _ Fw)) k I). repeat apply mul_nz; auto; [apply dcf_nz|apply Fw]. }
  split.
  - intros k. destruct (canonical k) eqn:C; [auto|].
    rewrite (full_twin _ _ _ _ _ k Fw C), (full_twin _ _ _ _ _ k Fw' C). destruct dc; [|reflexivity].
    rewrite Hcan; [reflexivity|]. destruct (canonical_or k); congruence.
  - intros a. specialize (Ho a). unfold co, sl, slen in Ho. rewrite Hs in Ho.
    fold (slen sn (w_ham w) a) in Ho. fold (sl sn w a) in Ho. fold (co sn of_ w a) in Ho.
    destruct (onsite_value w a) as [J|] eqn:E; destruct (onsite_value w' a) as [J'|] eqn:E'; try discriminate; [|reflexivity].
    f_equal. assert (Ho' := f_equal (@vdef F SF) Ho). revert Ho'. apply mscale_cancel.
    assert (I : In a (sites w)) by (apply onsite_value_stored; [apply Fw|eauto]).
    assert (N := proj2 (sl_nz sn w (fu_sp _ _ _ _ _ Fw)) a I). repeat apply mul_nz; auto. apply Fw.
Qed.

(** Rescalings keep the shape. *)
Lemma rescaled_full (w w' : world) h' fe fo dc sn ef of_ sn' ef' of' :
  full w dc sn ef of_ -> rescaled w w' h' (fun k m => mscale (fe k) m) (fun a m => mscale (fo a) m) ->
  h_exch h' = h_exch (w_ham w) -> h_ons h' = h_ons (w_ham w) -> h_atoms h' = h_atoms (w_ham w) -> h_spins h' = h_spins (w_ham w) ->
  h_dc h' = h_dc (w_ham w) -> h_sn h' = Some sn' -> h_ef h' = Some ef' -> h_of h' = Some of' -> ef' <> 0 -> of' <> 0 ->
  (forall k, In k (bonds w) -> fe (mirror k) = fe k) -> full w' dc sn' ef' of'.
Proof.
  intros Fw (Hh & Hl & Vb & Vo) E1 E2 E3 E4 E5 E6 E7 E8 N1 N2 Hfe.
  assert (Eb : bonds w' = bonds w) by (unfold bonds; rewrite Hh, E1; reflexivity).
  assert (Es : sites w' = sites w) by (unfold sites; rewrite Hh, E2; reflexivity).
  destruct (fu_st _ _ _ _ _ Fw) as (Hns & Hd & Hst). destruct (fu_sp _ _ _ _ _ Fw) as [Sb Ss].
  destruct (fu_wf _ _ _ _ _ Fw) as (A & B & C & D & E & G). destruct (fu_no _ _ _ _ _ Fw) as (K1 & _).
  constructor; auto.
  - unfold wf. rewrite Eb, Es, Hh, E1, E2, E3, Hl. splits; auto.
  - unfold unshared. rewrite Hh, E1, E2. apply Fw.
  - unfold spins_defined, spin_of. rewrite Eb, Es, Hh, E4. split; auto.
  - unfold reciprocal_storage, distinct_indices, mirror_closed. rewrite Eb. splits; auto. destruct dc; [|exact Hst].
    destruct Hst as [Hm Hr]. split; [exact Hm|]. intros k J J'. rewrite !Vb.
    destruct (bond_value w k) as [X|] eqn:EX; [|discriminate]. destruct (bond_value w (mirror k)) as [X'|] eqn:EX'; [|discriminate].
    cbn. intros [= <-] [= <-]. rewrite mtrans_mscale, (Hr k X X' EX EX'), Hfe; [reflexivity|].
    apply bond_value_stored; [apply Fw|eauto].
  - unfold notation_is. rewrite Hh, E5, E6, E7, E8. auto.
Qed.

Lemma option_map_mscale2 a b (o : option (M3 F)) : option_map (mscale a) (option_map (fun m => mscale b m) o) = option_map (mscale (a * b)) o.
Proof. destruct o; [|reflexivity]. cbn. f_equal. apply mscale_mscale. Qed.
Lemma option_map_some_eq a b (o : option (M3 F)) : (o <> None -> a = b) -> option_map (mscale a) o = option_map (mscale b) o.
Proof. destruct o; [|reflexivity]. intros H. rewrite H; [reflexivity|congruence]. Qed.

Lemma step_ef (w : world) dc sn ef of_ new : full w dc sn ef of_ -> new <> 0 ->
  exists w', set_exchange_factor new w = (w', Ret tt) /\ full w' dc sn new of_ /\ same_physics w dc sn ef of_ w' dc sn new of_.
Proof.
  intros Fw Hn. destruct (set_ef_total w new (fu_wf _ _ _ _ _ Fw) Hn) as [w' E]. exists w'. split; [exact E|].
  assert (W := fu_wf _ _ _ _ _ Fw). destruct (fu_no _ _ _ _ _ Fw) as (K1 & K2 & K3 & K4).
  destruct (set_exchange_factor_ok w w' new (proj1 W) (fu_un _ _ _ _ _ Fw) E) as (c & R & Hc & _).
  split.
  - eapply (rescaled_full w w' _ (fun _ => c) (fun _ => 1)); eauto. apply Fw.
  - destruct R as (Hh & _ & Vb & Vo). unfold same_physics, cb, co, sl. rewrite Hh. splits; [reflexivity| |].
    + intros k _. rewrite Vb, option_map_mscale2. apply option_map_some_eq. intros Hv.
      destruct (Hc ef K3) as [Hb|Hb].
      * exfalso. apply Hv. apply bond_value_absent; [exact W|]. rewrite Hb. auto.
      * rewrite <- Hb. unfold slen; cbn [h_spins with_ef]. ring.
    + intros a. rewrite Vo, option_map_mscale2. apply option_map_some_eq. intros _. unfold slen; cbn [h_spins with_ef]. ring.
Qed.
Lemma step_of (w : world) dc sn ef of_ new : full w dc sn ef of_ -> new <> 0 ->
  exists w', set_on_site_factor new w = (w', Ret tt) /\ full w' dc sn ef new /\ same_physics w dc sn ef of_ w' dc sn ef new.
Proof.
  intros Fw Hn. destruct (set_of_total w new (fu_wf _ _ _ _ _ Fw) Hn) as [w' E]. exists w'. split; [exact E|].
  assert (W := fu_wf _ _ _ _ _ Fw). destruct (fu_no _ _ _ _ _ Fw) as (K1 & K2 & K3 & K4).
  destruct (set_on_site_factor_ok w w' new (proj1 (proj2 W)) (fu_un _ _ _ _ _ Fw) E) as (c & R & Hc & _).
  split.
  - eapply (rescaled_full w w' _ (fun _ => 1) (fun _ => c)); eauto. apply Fw.
  - destruct R as (Hh & _ & Vb & Vo). unfold same_physics, cb, co, sl. rewrite Hh. splits; [reflexivity| |].
    + intros k _. rewrite Vb, option_map_mscale2. apply option_map_some_eq. intros _. unfold slen; cbn [h_spins with_of]. ring.
    + intros a. rewrite Vo, option_map_mscale2. apply option_map_some_eq. intros Hv.
      destruct (Hc of_ K4) as [Hb|Hb].
      * exfalso. destruct (onsite_value w a) eqn:Ea; [|congruence].
        assert (I : In a (sites w)) by (apply onsite_value_stored; [exact W|eauto]). rewrite Hb in I. destruct I.
      * rewrite <- Hb. unfold slen; cbn [h_spins with_of]. ring.
Qed.

(** The factors of a spin_normalized change are symmetric under mirroring. *)
Lemma step_sn (w : world) dc sn ef of_ new : full w dc sn ef of_ ->
  exists w', set_spin_normalized new w = (w', Ret tt) /\ full w' dc new ef of_ /\ same_physics w dc sn ef of_ w' dc new ef of_.
Proof.
  intros Fw. destruct (set_sn_total w new (fu_wf _ _ _ _ _ Fw) (fu_sp _ _ _ _ _ Fw)) as [w' E]. exists w'. split; [exact E|].
  assert (W := fu_wf _ _ _ _ _ Fw). destruct (fu_no _ _ _ _ _ Fw) as (K1 & K2 & K3 & K4).
  destruct (set_spin_normalized_ok w w' new (proj1 W) (proj1 (proj2 W)) (fu_un _ _ _ _ _ Fw) E) as (ce & cs & R & Hc & _).
  specialize (Hc sn K2). destruct Hc as [Hce Hco].
  assert (Sl : forall b a, (exists x, spin_of w a = Some x /\ x <> 0) -> slen b (w_ham w) a = Some (sl b w a) /\ sl b w a <> 0).
  { intros b a (x & Ex & Hx). unfold sl, slen. destruct b; [cbn; split; auto; apply (@F_1_neq_0 _ _ _ _ _ _ _ _ _ _ (@f_field F SF))|].
    unfold spin_of in Ex. rewrite Ex. auto. }
  destruct (fu_sp _ _ _ _ _ Fw) as [Sb Ss].
  assert (Q : forall k, In k (bonds w) -> sl new w (b_from k) * sl new w (b_to k) * ce k = sl sn w (b_from k) * sl sn w (b_to k)).
  { intros k I. destruct (Sb k I) as [S1 S2]. destruct (Sl sn _ S1) as [a1 _], (Sl sn _ S2) as [a2 _].
    destruct (Sl new _ S1) as [b1 _], (Sl new _ S2) as [b2 _].
    destruct (Hce k _ _ I a1 a2) as (x' & y' & e1 & e2 & e3). congruence. }
  assert (Qs : forall k, In k (sites w) -> sl new w k * sl new w k * cs k = sl sn w k * sl sn w k).
  { intros k I. specialize (Ss k I). destruct (Sl sn _ Ss) as [a1 _]. destruct (Sl new _ Ss) as [b1 _].
    destruct (Hco k _ I a1) as (x' & e1 & e3). congruence. }
  split.
  - (* with double counting off the factor of the absent mirror is irrelevant: replace it by a symmetric one *)
    set (ce' := fun k => (sl sn w (b_from k) * sl sn w (b_to k)) / (sl new w (b_from k) * sl new w (b_to k))).
    eapply (rescaled_full w w' (with_sn (w_ham w) new) ce' cs); eauto; try apply Fw.
    + eapply (rescaled_ext w w' _ (fun k m => mscale (ce k) m) _ (fun a m => mscale (cs a) m)); [| |exact R]; [|reflexivity].
      intros k I m. f_equal. unfold ce'. rewrite <- (Q k I). destruct (Sb k I) as [S1 S2].
      field. split; [apply (Sl new _ S2)|apply (Sl new _ S1)].
    + intros k I. unfold ce', mirror; cbn. destruct (Sb k I) as [S1 S2]. field. split; [apply (Sl new _ S2)|apply (Sl new _ S1)].
  - destruct R as (Hh & _ & Vb & Vo). unfold same_physics. rewrite Hh. splits; [reflexivity| |].
    + intros k _. rewrite Vb, option_map_mscale2. apply option_map_some_eq. intros Hv.
      assert (I : In k (bonds w)).
      { apply bond_value_stored; [exact W|]. destruct (bond_value w k); [eauto|congruence]. }
      unfold cb. rewrite <- (Q k I). unfold sl. rewrite Hh. unfold slen; cbn [h_spins with_sn]. ring.
    + intros a. rewrite Vo, option_map_mscale2. apply option_map_some_eq. intros Hv.
      assert (I : In a (sites w)).
      { apply onsite_value_stored; [exact W|]. destruct (onsite_value w a); [eauto|congruence]. }
      unfold co. rewrite <- (Qs a I). unfold sl. rewrite Hh. unfold slen; cbn [h_spins with_sn]. ring.
Qed.

Lemma kept_mirror_absent (w : world) k : (forall k, In k (bonds w) -> ~ self_bond k) -> distinct_indices w ->
  In k (bonds w) -> canonical k = true -> canonical (mirror k) = true -> False.
Proof.
  intros Hns Hd I C C'. destruct (canonical_both k C C') as [A B]. apply (Hns k I), self_bond_iff. split; auto.
Qed.

Lemma step_dc (w : world) dc sn ef of_ new : full w dc sn ef of_ ->
  exists w', set_double_counting new w = (w', Ret tt) /\ full w' new sn ef of_ /\ same_physics w dc sn ef of_ w' new sn ef of_.
Proof.
  intros Fw. assert (W := fu_wf _ _ _ _ _ Fw). assert (U := fu_un _ _ _ _ _ Fw). destruct (fu_no _ _ _ _ _ Fw) as (K1 & K2 & K3 & K4).
  destruct (fu_st _ _ _ _ _ Fw) as (Hns & Hd & Hst). destruct (fu_sp _ _ _ _ _ Fw) as [Sb Ss].
  destruct new.
  - destruct (set_dc_true_ok w W (fun _ => U)) as (w' & E & W' & U' & R & D' & V).
    exists w'. split; [exact E|]. rewrite K1 in V. destruct R as (R1 & R2 & R3 & R4 & R5 & R6 & R7).
    assert (Hb := mirrored_bonds w w' _ W W' V).
    assert (Vcan : forall k, canonical k = true -> bond_value w' k = option_map (mscale (if dc then 1 else 1 / f2)) (bond_value w k)).
    { intros k C. rewrite V. unfold mirrored_value. destruct (dmem _ (mirror k)) eqn:Em.
      - apply dmem_key in Em. destruct dc.
        + destruct Hst as [Hm Hr]. assert (I := Hm _ Em). rewrite mirror_invol in I.
          apply bond_value_stored in Em as [J' E']; [|exact W]. apply bond_value_stored in I as [J E0]; [|exact W].
          rewrite E', E0, (Hr k J J' E0 E'). reflexivity.
        + exfalso. assert (C' := Hst _ Em). apply canonical_kept in C'.
          apply (kept_mirror_absent w (mirror k) Hns Hd Em C'). rewrite mirror_invol. exact C.
      - destruct dc; reflexivity. }
    assert (Sp : spins_defined w').
    { unfold spins_defined, spin_of, sites. rewrite R1, R3. split; [|exact Ss]. intros k I. apply Hb in I as [I|I].
      - apply (Sb k I).
      - destruct (Sb _ I) as [A B]. unfold mirror in A, B; cbn in A, B. split; assumption. }
    split.
    + constructor; auto; try apply Fw.
      * unfold reciprocal_storage. splits.
        -- intros k I S. apply Hb in I as [I|I]; [apply (Hns k I S)|]. apply (Hns _ I). unfold self_bond in *. rewrite S. exact S.
        -- intros k I Hc Hi. apply Hb in I as [I|I]; [apply (Hd k I Hc Hi)|]. symmetry.
           apply (Hd _ I); unfold mirror; cbn; [rewrite Hc; reflexivity|congruence].
        -- intros k I. rewrite Hb, mirror_invol. apply Hb in I. tauto.
        -- intros k J J' E1 E2. rewrite V in E1, E2. unfold mirrored_value in E1, E2. rewrite mirror_invol in E2.
           destruct (dmem _ k) eqn:Dk; destruct (dmem _ (mirror k)) eqn:Dm.
           ++ destruct dc.
              ** destruct Hst as [Hm Hr]. destruct (bond_value w k) as [X|] eqn:EX; [|discriminate].
                 destruct (bond_value w (mirror k)) as [X'|] eqn:EX'; [|discriminate]. cbn in E1, E2.
                 injection E1 as <-. injection E2 as <-. rewrite (Hr k X X' EX EX'), mtrans_mscale. reflexivity.
              ** exfalso. apply dmem_key in Dk, Dm. assert (A := Hst _ Dk). assert (B := Hst _ Dm).
                 apply canonical_kept in A, B. apply (kept_mirror_absent w k Hns Hd Dk A B).
           ++ destruct (bond_value w k) as [X|] eqn:EX; [|discriminate]. cbn in E1, E2. injection E1 as <-. injection E2 as <-.
              symmetry; apply mtrans_mscale.
           ++ destruct (bond_value w (mirror k)) as [X|] eqn:EX; [|discriminate]. cbn in E1, E2. injection E1 as <-. injection E2 as <-.
              rewrite mtrans_mscale, mtrans_invol. reflexivity.
           ++ apply dmem_key_false, (bond_value_absent w k W) in Dk. rewrite Dk in E1. discriminate.
      * unfold notation_is. rewrite R4, R5, R6. auto.
    + unfold same_physics, cb, co, sl, slen. rewrite R3. splits; [reflexivity| |].
      * intros k C. rewrite (Vcan k C), option_map_mscale2. apply option_map_some_eq. intros _. destruct dc; cbn [dcf]; [ring|].
        unfold f2. field. apply f_two.
      * intros a. rewrite R7. reflexivity.
  - assert (Hok : forall k, In k (bonds w) -> canonical k = true \/ In (mirror k) (bonds w)).
    { intros k I. destruct dc; [right; apply Hst, I|left; apply canonical_kept, Hst, I]. }
    destruct (set_dc_false_ok w W (fun _ => U) Hok) as (w' & E & W' & U' & R & D' & V).
    exists w'. split; [exact E|]. rewrite K1 in V. destruct R as (R1 & R2 & R3 & R4 & R5 & R6 & R7).
    assert (Hb := survives_bonds w w' _ W W' V).
    assert (Scan : forall k, In k (bonds w) -> canonical k = true -> survives w k = true).
    { intros k I C. unfold survives. destruct (dmem _ (mirror k)); [|reflexivity]. cbn. apply negb_true_iff.
      destruct (canonical (mirror k)) eqn:C'; [|reflexivity]. exfalso. eapply kept_mirror_absent; eauto. }
    assert (Ssur : forall k, In k (bonds w) -> survives w k = true -> canonical k = true).
    { intros k I S. destruct (Hok k I) as [C|Im]; [exact C|]. unfold survives in S.
      rewrite (proj2 (dmem_key _ _) Im) in S. cbn in S. apply negb_true_iff in S. destruct (canonical_or k); congruence. }
    split.
    + constructor; auto; try apply Fw.
      * unfold spins_defined, spin_of, sites. rewrite R1, R3. split; [|exact Ss]. intros k I. apply Hb in I as [I _]. apply (Sb k I).
      * unfold reciprocal_storage. splits.
        -- intros k I. apply Hb in I as [I _]. auto.
        -- intros k I. apply Hb in I as [I _]. apply (Hd k I).
        -- intros k I. apply Hb in I as [I S]. apply canonical_kept. auto.
      * unfold notation_is. rewrite R4, R5, R6. auto.
    + unfold same_physics, cb, co, sl, slen. rewrite R3. splits; [reflexivity| |].
      * intros k C. rewrite V. destruct (survives w k) eqn:S.
        -- rewrite option_map_mscale2. apply option_map_some_eq. intros _. destruct dc; cbn [dcf dc_factor]; ring.
        -- destruct (bond_value w k) eqn:EV; [|reflexivity]. exfalso.
           assert (I : In k (bonds w)) by (apply bond_value_stored; eauto). rewrite (Scan k I C) in S. discriminate.
      * intros a. rewrite R7. reflexivity.
Qed.

Lemma set_notation_full (w : world) dc sn ef of_ dc' sn' ef' of' : full w dc sn ef of_ -> ef' <> 0 -> of' <> 0 ->
  exists w', set_notation (N4 dc' sn' ef' of') w = (w', Ret tt) /\ full w' dc' sn' ef' of' /\
    same_physics w dc sn ef of_ w' dc' sn' ef' of'.
Proof.
  intros F0 He Ho. unfold set_notation; cbn [parse_notation].
  destruct (step_dc w dc sn ef of_ dc' F0) as (w1 & E1 & F1 & P1).
  destruct (step_sn w1 dc' sn ef of_ sn' F1) as (w2 & E2 & F2 & P2).
  destruct (step_ef w2 dc' sn' ef of_ ef' F2 He) as (w3 & E3 & F3 & P3).
  destruct (step_of w3 dc' sn' ef' of_ of' F3 Ho) as (w4 & E4 & F4 & P4).
  exists w4. splits; [|exact F4|].
  - rewrite (bind_val _ _ _ _ _ E1), (bind_val _ _ _ _ _ E2), (bind_val _ _ _ _ _ E3). exact E4.
  - eapply same_physics_trans; [exact P1|]. eapply same_physics_trans; [exact P2|]. eapply same_physics_trans; [exact P3|]. exact P4.
Qed.

Lemma full_intro (w : world) dc sn ef of_ : wf w -> unshared w -> spins_defined w -> reciprocal_storage w dc ->
  notation_is w dc sn ef of_ -> ef <> 0 -> of_ <> 0 -> full w dc sn ef of_.
Proof. intros. constructor; assumption. Qed.

Lemma round_trip (w : world) dc sn ef of_ dc1 sn1 ef1 of1 : wf w -> unshared w -> spins_defined w -> reciprocal_storage w dc ->
  notation_is w dc sn ef of_ -> ef <> 0 -> of_ <> 0 -> ef1 <> 0 -> of1 <> 0 ->
  exists w1 w2, set_notation (N4 dc1 sn1 ef1 of1) w = (w1, Ret tt) /\ set_notation (N4 dc sn ef of_) w1 = (w2, Ret tt) /\
    notation_is w1 dc1 sn1 ef1 of1 /\ notation_is w2 dc sn ef of_ /\ same_parameters w w2.
Proof.
  intros W U S St No Ne Nf Ne1 Nf1. assert (F0 := full_intro w dc sn ef of_ W U S St No Ne Nf).
  destruct (set_notation_full w _ _ _ _ dc1 sn1 ef1 of1 F0 Ne1 Nf1) as (w1 & E1 & F1 & P1).
  destruct (set_notation_full w1 _ _ _ _ dc sn ef of_ F1 Ne Nf) as (w2 & E2 & F2 & P2).
  exists w1, w2. splits; auto; [apply (fu_no _ _ _ _ _ F1)|apply (fu_no _ _ _ _ _ F2)|]. apply (full_determined w w2 dc sn ef of_ F0 F2).
  eapply same_physics_trans; [exact P1|exact P2].
Qed.

Lemma path_independent (w : world) dc sn ef of_ dc1 sn1 ef1 of1 dc2 sn2 ef2 of2 :
  wf w -> unshared w -> spins_defined w -> reciprocal_storage w dc ->
  notation_is w dc sn ef of_ -> ef <> 0 -> of_ <> 0 -> ef1 <> 0 -> of1 <> 0 -> ef2 <> 0 -> of2 <> 0 ->
  exists w1 w2 w3, set_notation (N4 dc1 sn1 ef1 of1) w = (w1, Ret tt) /\ set_notation (N4 dc2 sn2 ef2 of2) w1 = (w2, Ret tt) /\
    set_notation (N4 dc2 sn2 ef2 of2) w = (w3, Ret tt) /\ notation_is w3 dc2 sn2 ef2 of2 /\ same_parameters w3 w2.
Proof.
  intros W U S St No Ne Nf Ne1 Nf1 Ne2 Nf2. assert (F0 := full_intro w dc sn ef of_ W U S St No Ne Nf).
  destruct (set_notation_full w _ _ _ _ dc1 sn1 ef1 of1 F0 Ne1 Nf1) as (w1 & E1 & F1 & P1).
  destruct (set_notation_full w1 _ _ _ _ dc2 sn2 ef2 of2 F1 Ne2 Nf2) as (w2 & E2 & F2 & P2).
  destruct (set_notation_full w _ _ _ _ dc2 sn2 ef2 of2 F0 Ne2 Nf2) as (w3 & E3 & F3 & P3).
  exists w1, w2, w3. splits; auto; [apply (fu_no _ _ _ _ _ F3)|]. apply (full_determined w3 w2 dc2 sn2 ef2 of2 F3 F2).
  eapply same_physics_trans; [apply same_physics_sym; exact P3|]. eapply same_physics_trans; [exact P1|exact P2].
Qed.

(** ** Rejected assignments *)
Lemma parse_reject (w : world) n : parse_notation n = None -> set_notation n w = (w, Raise ValueError).
Proof. intros E. unfold set_notation. rewrite E. reflexivity. Qed.

Lemma set_ef_reject (w w' : world) new e : wf w -> set_exchange_factor new w = (w', Raise e) -> w' = w /\ new = 0 /\ e = ZeroDivisionError.
Proof.
  intros W H. destruct (feq_dec new 0) as [->|N].
  2:{ destruct (set_ef_total w new W N) as [w1 E1]. congruence. }
  destruct w as [st h]. unfold set_exchange_factor in H. rewrite bind_gets in H; cbn [w_ham] in H.
  destruct (h_ef h) as [o|]; [|discriminate]. destruct (feq_dec o 0); [discriminate|].
  assert (Z : forall k rest l, dget (h_exch h) k = Some l ->
     for_each (k :: rest) (fun k => l <- get_bond k ;; c <- py_div o 0 ;; scale_loc l c) (mkW st h) = (mkW st h, Raise ZeroDivisionError)).
  { intros k rest l E. cbn [for_each]. apply bind_exn. unfold get_bond, bind, gets; cbn [w_ham]. rewrite E. unfold ret, py_div.
    destruct (feq_dec 0 0); [reflexivity|congruence]. }
  destruct (dkeys (h_exch h)) as [|k rest] eqn:Ek.
  - exfalso. revert H. rewrite (bind_val _ _ _ (mkW st h) tt); [discriminate|]. rewrite bind_gets; cbn [w_ham]. rewrite Ek. reflexivity.
  - assert (exists l, dget (h_exch h) k = Some l) as [l El] by (apply dget_key; rewrite Ek; left; reflexivity).
    revert H. rewrite (bind_exn _ _ _ (mkW st h) ZeroDivisionError).
    + intros [= <- <-]. auto.
    + rewrite bind_gets; cbn [w_ham]. rewrite Ek. eapply Z, El.
Qed.
Lemma set_of_reject (w w' : world) new e : wf w -> set_on_site_factor new w = (w', Raise e) -> w' = w /\ new = 0 /\ e = ZeroDivisionError.
Proof.
  intros W H. destruct (feq_dec new 0) as [->|N].
  2:{ destruct (set_of_total w new W N) as [w1 E1]. congruence. }
  destruct w as [st h]. unfold set_on_site_factor in H. rewrite bind_gets in H; cbn [w_ham] in H.
  destruct (h_of h) as [o|]; [|discriminate]. destruct (feq_dec o 0); [discriminate|].
  assert (Z : forall k rest l, dget (h_ons h) k = Some l ->
     for_each (k :: rest) (fun k => l <- get_onsite k ;; c <- py_div o 0 ;; scale_loc l c) (mkW st h) = (mkW st h, Raise ZeroDivisionError)).
  { intros k rest l E. cbn [for_each]. apply bind_exn. unfold get_onsite, bind, gets; cbn [w_ham]. rewrite E. unfold ret, py_div.
    destruct (feq_dec 0 0); [reflexivity|congruence]. }
  destruct (dkeys (h_ons h)) as [|k rest] eqn:Ek.
  - exfalso. revert H. rewrite (bind_val _ _ _ (mkW st h) tt); [discriminate|]. rewrite bind_gets; cbn [w_ham]. rewrite Ek. reflexivity.
  - assert (exists l, dget (h_ons h) k = Some l) as [l El] by (apply dget_key; rewrite Ek; left; reflexivity).
    revert H. rewrite (bind_exn _ _ _ (mkW st h) ZeroDivisionError).
    + intros [= <- <-]. auto.
    + rewrite bind_gets; cbn [w_ham]. rewrite Ek. eapply Z, El.
Qed.

End NotationProofs.
