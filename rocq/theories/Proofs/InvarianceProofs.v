(** The magnon matrix does not depend on the notation, on the order or on the direction in which the parameters are stored. *)
From Coq Require Import List Bool ZArith Reals Lra Lia Permutation Sorted Arith String.
From Coquelicot Require Import Complex.
From Verif.Base Require Import Scalar ScalarR Linear3 PyDict PyString.
From Verif.Model Require Import MatrixParam Hamiltonian EnergyInit Energy Dispersion.
From Verif.Spec Require Import HamSpec NotationSpec HistorySpec DispersionSpec InvarianceSpec.
From Verif.Proofs Require Import DictProofs HamBasics HamSetters HamDouble HamDcEnergy NotationProofs HistoryProofs CallProofs FilterProofs FrameProofs
  HamGlue EnergyInitProofs OptimizerProofs DispersionMatrix DispersionInit.
From Coq Require Import List.
Import ListNotations.

Section Worlds.
Context {F : Type} {SF : Scalar F}.
Local Open Scope fld_scope.
Notation world := (@Hamiltonian.world F).
Add Field Ffield : (@f_field F SF).

(** ** Two states in the same notation with the same couplings have the same parameters *)
Definition same_coupled (w : world) dc sn ef of_ (w' : world) dc' sn' ef' of' : Prop :=
  (forall a, spin_of w' a = spin_of w a) /\
  (forall k, canonical k = true ->
     option_map (mscale (cb dc' sn' ef' w' k)) (bond_value w' k) = option_map (mscale (cb dc sn ef w k)) (bond_value w k)) /\
  (forall a, option_map (mscale (co sn' of' w' a)) (onsite_value w' a) = option_map (mscale (co sn of_ w a)) (onsite_value w a)).
Lemma same_coupled_trans w dc sn ef of_ w' dc' sn' ef' of' w'' dc'' sn'' ef'' of'' :
  same_coupled w dc sn ef of_ w' dc' sn' ef' of' -> same_coupled w' dc' sn' ef' of' w'' dc'' sn'' ef'' of'' ->
  same_coupled w dc sn ef of_ w'' dc'' sn'' ef'' of''.
Proof. intros (A & B & C) (A' & B' & C'). unfold same_coupled. splits; intros; [rewrite A'|rewrite B'|rewrite C']; auto. Qed.
Lemma same_coupled_sym w dc sn ef of_ w' dc' sn' ef' of' :
  same_coupled w dc sn ef of_ w' dc' sn' ef' of' -> same_coupled w' dc' sn' ef' of' w dc sn ef of_.
Proof. intros (A & B & C). unfold same_coupled. splits; intros; symmetry; auto. Qed.
Lemma same_coupled_of w dc sn ef of_ w' dc' sn' ef' of' :
  same_physics w dc sn ef of_ w' dc' sn' ef' of' -> same_coupled w dc sn ef of_ w' dc' sn' ef' of'.
Proof. intros (A & B & C). unfold same_coupled. splits; auto. intros a. unfold spin_of. rewrite A. reflexivity. Qed.

Lemma sl_same sn (w w' : world) a : (forall a, spin_of w' a = spin_of w a) -> sl sn w' a = sl sn w a.
Proof. intros H. unfold sl, slen. destruct sn; [reflexivity|]. specialize (H a). unfold spin_of in H. rewrite H. reflexivity. Qed.

Lemma coupled_determined (w w' : world) dc sn ef of_ : full w dc sn ef of_ -> full w' dc sn ef of_ ->
  same_coupled w dc sn ef of_ w' dc sn ef of_ -> same_parameters w w'.
Proof.
  intros Fw Fw' (Hs & Hb & Ho).
  assert (Hcan : forall k, canonical k = true -> bond_value w' k = bond_value w k).
  { intros k C. specialize (Hb k C). unfold cb in Hb. rewrite !(sl_same sn w w') in Hb by exact Hs.
    destruct (bond_value w k) as [J|] eqn:E; destruct (bond_value w' k) as [J'|] eqn:E'; try discriminate; [|reflexivity].
    f_equal. assert (Hb' := f_equal (@vdef F SF) Hb). revert Hb'. apply mscale_cancel.
    assert (I : In k (bonds w)) by (apply bond_value_stored; [apply Fw|eauto]).
    destruct (proj1 (sl_nz sn w (fu_sp _ _ _ _ _ Fw)) k I). repeat apply mul_nz; auto; [apply dcf_nz|apply Fw]. }
  split.
  - intros k. destruct (canonical k) eqn:C; [auto|].
    rewrite (full_twin _ _ _ _ _ k Fw C), (full_twin _ _ _ _ _ k Fw' C). destruct dc; [|reflexivity].
    rewrite Hcan; [reflexivity|]. destruct (canonical_or k); congruence.
  - intros a. specialize (Ho a). unfold co in Ho. rewrite !(sl_same sn w w') in Ho by exact Hs.
    destruct (onsite_value w a) as [J|] eqn:E; destruct (onsite_value w' a) as [J'|] eqn:E'; try discriminate; [|reflexivity].
    f_equal. assert (Ho' := f_equal (@vdef F SF) Ho). revert Ho'. apply mscale_cancel.
    assert (I : In a (sites w)) by (apply onsite_value_stored; [apply Fw|eauto]).
    assert (N := proj2 (sl_nz sn w (fu_sp _ _ _ _ _ Fw)) a I). repeat apply mul_nz; auto. apply Fw.
Qed.

(** ** From the specification *)
Lemma full_coupling (w : world) dc sn ef of_ k : full w dc sn ef of_ -> canonical k = true -> bonded w k ->
  In k (bonds w) /\ pair_coupling sn ef w k = option_map (mscale (cb dc sn ef w k)) (bond_value w k).
Proof.
  intros Fw C B. assert (W := fu_wf _ _ _ _ _ Fw). destruct (fu_st _ _ _ _ _ Fw) as (Hns & Hd & Hst).
  assert (I : In k (bonds w)).
  { destruct B as [B|B]; [exact B|]. destruct dc.
    - destruct Hst as [Hm _]. apply Hm in B. rewrite mirror_invol in B. exact B.
    - exfalso. assert (Cm := Hst _ B). apply canonical_kept in Cm. destruct (canonical_both k C Cm) as (Z & X).
      apply (Hns _ B). unfold self_bond. rewrite mirror_invol. symmetry. apply self_bond_iff. split; [|exact Z].
      assert (Y := Hd _ B). unfold mirror in Y; cbn [b_cell b_from b_to] in Y. rewrite Z in Y. symmetry. apply Y; [reflexivity|congruence]. }
  split; [exact I|]. destruct (proj1 (fu_sp _ _ _ _ _ Fw) k I) as [(x & Ex & Hx) (y & Ey & Hy)].
  apply (bond_value_stored w k W) in I as [J EJ]. unfold pair_coupling, stored, cb, sl. rewrite EJ, !spin_length_slen. cbn [option_map].
  assert (Hl : exists x' y', slen sn (w_ham w) (b_from k) = Some x' /\ slen sn (w_ham w) (b_to k) = Some y').
  { unfold slen, spin_of in *. destruct sn; [eauto|]. rewrite Ex, Ey. eauto. }
  destruct Hl as (x' & y' & -> & ->). cbn [sdef]. f_equal. destruct dc; cbn [dcf].
  - destruct Hst as [Hm Hr]. assert (Im : In (mirror k) (bonds w)) by (apply Hm; apply bond_value_stored; [exact W|eauto]).
    apply (bond_value_stored w _ W) in Im as [J' EJ']. rewrite EJ', (Hr k J J' EJ EJ'), mtrans_invol. destruct J. lin3. unfold f2. f_equal; ring.
  - replace (bond_value w (mirror k)) with (@None (M3 F)).
    + destruct J. lin3. f_equal; ring.
    + symmetry. apply bond_value_absent; [exact W|]. intros Im. assert (Cm := Hst _ Im). apply canonical_kept in Cm. destruct (canonical_both k C Cm) as (Z & X).
      assert (I : In k (bonds w)) by (apply bond_value_stored; [exact W|eauto]).
      apply (Hns _ I). unfold self_bond. apply self_bond_iff. split; [|exact Z]. apply (Hd _ I Z X).
Qed.
Lemma full_site (w : world) dc sn ef of_ a : full w dc sn ef of_ -> In a (sites w) ->
  site_coupling sn of_ w a = option_map (mscale (co sn of_ w a)) (onsite_value w a).
Proof.
  intros Fw I. destruct (proj2 (fu_sp _ _ _ _ _ Fw) a I) as (x & Ex & Hx). unfold site_coupling, co, sl. rewrite !spin_length_slen.
  assert (Hl : exists x', slen sn (w_ham w) a = Some x') by (unfold slen, spin_of in *; destruct sn; [eauto|]; rewrite Ex; eauto).
  destruct Hl as (x' & ->). destruct (onsite_value w a); reflexivity.
Qed.
Lemma model_coupled (w w' : world) dc sn ef of_ dc' sn' ef' of' : full w dc sn ef of_ -> full w' dc' sn' ef' of' ->
  same_model sn ef of_ w sn' ef' of' w' -> same_coupled w dc sn ef of_ w' dc' sn' ef' of'.
Proof.
  intros Fw Fw' (Hs & Hb & Ho & Kb & Ko). unfold same_coupled. splits; auto.
  - intros k C. destruct (bond_value w k) as [J|] eqn:E.
    + assert (I : bonded w k) by (left; apply bond_value_stored; [apply Fw|eauto]).
      destruct (full_coupling w _ _ _ _ k Fw C I) as (_ & X). rewrite <- E, <- X. apply Hb in I as I'. destruct (full_coupling w' _ _ _ _ k Fw' C I') as (_ & <-). auto.
    + destruct (bond_value w' k) as [J'|] eqn:E'; [|reflexivity]. exfalso.
      assert (I' : bonded w' k) by (left; apply bond_value_stored; [apply Fw'|eauto]). apply Hb in I'.
      destruct (full_coupling w _ _ _ _ k Fw C I') as (I & _). apply (bond_value_stored w k (fu_wf _ _ _ _ _ Fw)) in I as [J X]. congruence.
  - intros a. destruct (in_dec eq_dec a (sites w)) as [I|I].
    + rewrite <- (full_site w _ _ _ _ a Fw I). apply Ho in I as I'. rewrite <- (full_site w' _ _ _ _ a Fw' I'). auto.
    + assert (I' : ~ In a (sites w')) by (rewrite Ho; exact I). destruct (onsite_value w a) eqn:E; [exfalso; apply I, onsite_value_stored; [apply Fw|eauto]|].
      destruct (onsite_value w' a) eqn:E'; [exfalso; apply I', onsite_value_stored; [apply Fw'|eauto]|]. reflexivity.
Qed.

(** ** The deep copy *)
Lemma copy_full (w : world) dc sn ef of_ : full w dc sn ef of_ ->
  let '(st, h) := copy_ham (w_store w) (w_ham w) in full (mkW st h) dc sn ef of_ /\ same_coupled w dc sn ef of_ (mkW st h) dc sn ef of_.
Proof.
  intros Fw. assert (CP := copy_ok (w_store w) (w_ham w)). replace (mkW (w_store w) (w_ham w)) with w in CP by (destruct w; reflexivity).
  specialize (CP (fu_wf _ _ _ _ _ Fw)). destruct (copy_ham (w_store w) (w_ham w)) as [st h].
  destruct CP as (_ & Wc & D1 & D2 & D3 & D4 & D5 & _ & Bc & Sc & [Vb Vo] & Uc & _). specialize (Uc (fu_un _ _ _ _ _ Fw)).
  destruct Fw as [W U Sp St No Ne Nf]. split.
  - constructor; auto.
    + unfold spins_defined in *. unfold spin_of in *. cbn [w_ham] in *. rewrite Bc, Sc, D5. exact Sp.
    + destruct St as (A & B & C). unfold reciprocal_storage, distinct_indices in *. rewrite Bc. splits; auto. destruct dc; [|exact C].
      destruct C as [C1 C2]. split; [unfold mirror_closed; rewrite Bc; exact C1|]. intros k J J'. rewrite !Vb. apply C2.
    + unfold notation_is in *. cbn [w_ham]. rewrite D1, D2, D3, D4. exact No.
  - assert (Hs : forall a, spin_of (mkW st h) a = spin_of w a) by (intros a; unfold spin_of; cbn [w_ham]; rewrite D5; reflexivity).
    unfold same_coupled. splits; auto.
    + intros k _. rewrite Vb. unfold cb. rewrite !(sl_same sn w (mkW st h)) by exact Hs. reflexivity.
    + intros a. rewrite Vo. unfold co. rewrite !(sl_same sn w (mkW st h)) by exact Hs. reflexivity.
Qed.

(** ** Lists of keys *)
Lemma same_bonds (w w' : world) : wf w -> wf w' -> same_parameters w w' -> Permutation (bonds w) (bonds w') /\ Permutation (sites w) (sites w').
Proof.
  intros W W' [Vb Vo]. split; apply NoDup_Permutation; try apply W; try apply W'.
  - intros k. rewrite (bond_value_stored w k W), (bond_value_stored w' k W'), Vb. tauto.
  - intros a. rewrite (onsite_value_stored w a W), (onsite_value_stored w' a W'), Vo. tauto.
Qed.

Lemma sorted_unique (l l' : list atom) : (forall a b, In a l -> In b l -> a_index a = a_index b -> a = b) ->
  NoDup l -> NoDup l' -> Sorted by_index l -> Sorted by_index l' -> (forall a, In a l <-> In a l') -> l = l'.
Proof.
  assert (Tr : forall x y z, by_index x y -> by_index y z -> by_index x z) by (unfold by_index; intros; lia).
  intros Hi N N' S0 S0'. apply Sorted_StronglySorted in S0, S0'; [|exact Tr|exact Tr].
  revert l' N' S0' Hi. induction S0 as [|a l S0 IH Ha]; intros l' N' S0' Hi E.
  - destruct l' as [|b l']; [reflexivity|]. exfalso. apply (E b). left; reflexivity.
  - destruct S0' as [|b l' S0' Hb]; [exfalso; apply (E a); left; reflexivity|].
    rewrite Forall_forall in Ha, Hb.
    assert (a = b) as ->.
    { assert (Ia : In a (b :: l')) by (apply E; left; reflexivity). assert (Ib : In b (a :: l)) by (apply E; left; reflexivity).
      destruct Ia as [->|Ia]; [reflexivity|]. destruct Ib as [->|Ib]; [reflexivity|].
      apply Hi; [left; reflexivity|right; exact Ib|]. specialize (Ha _ Ib). specialize (Hb _ Ia). unfold by_index in *. lia. }
    f_equal. inversion N as [|? ? N1 N2]; subst. inversion N' as [|? ? N1' N2']; subst. apply IH; auto.
    + intros x y X Y. apply Hi; right; assumption.
    + intros x. split; intros I.
      * assert (X : In x (b :: l')) by (apply E; right; exact I). destruct X as [->|X]; [contradiction|exact X].
      * assert (X : In x (b :: l)) by (apply E; right; exact I). destruct X as [->|X]; [contradiction|exact X].
Qed.
End Worlds.

Local Open Scope R_scope.

(** ** What the constructor of MagnonDispersion builds *)
Definition listed (cell : M3 R) pos (w4 : world) (atoms : list atom) : list entry :=
  map (fun kJ => (pindex atoms (b_from (fst kJ)), pindex atoms (b_to (fst kJ)), displacement cell pos (fst kJ), snd kJ))
      (map (fun a => (mkB a a (0, 0, 0)%Z, vdef (onsite_value w4 a))) (sites w4) ++ map (fun k => (k, vdef (bond_value w4 k))) (bonds w4)).

Lemma dispersion_parts order cell pos sv (w w1 : world) D dc sn ef of_ : full w dc sn ef of_ -> dispersion_init order cell pos sv w = (w1, Ret D) ->
  exists w4 atoms ax, full w4 true false 1 1 /\ same_coupled w dc sn ef of_ w4 true false 1 1 /\ magnetic_atoms order w4 = (w4, Ret atoms) /\
    entries (w_store w1) D = listed cell pos w4 atoms /\ local_axes sv atoms = Ret ax /\
    D = mkDisp (List.length atoms) (d_bonds D) (map (fun x => fst (fst x)) ax) (map (fun x => snd (fst x)) ax) (map snd ax).
Proof.
  intros Fw H. unfold dispersion_init in H. assert (CP := copy_full w _ _ _ _ Fw). destruct (copy_ham (w_store w) (w_ham w)) as [st h].
  destruct CP as [Fc Pc]. set (wc := mkW st h) in *. assert (nz : (1 : R) <> @f0 R R_Scalar) by exact R1_neq_R0.
  destruct (set_notation_full wc _ _ _ _ true false 1 1 Fc nz nz) as (w4 & E4 & F4 & P4).
  unfold init_copy in H. rewrite (bind_val _ _ _ w4 tt) in H; [|exact E4].
  apply bind_inv in H as (w5 & atoms & Ha & H). assert (w5 = w4) as -> by (eapply magnetic_state; eauto).
  assert (W4 := fu_wf _ _ _ _ _ F4). destruct (fu_no _ _ _ _ _ F4) as (N1 & N2 & N3 & N4).
  destruct (exchange_like_objects w4 1 1 W4 N3 N4 nz) as (ms & ro & Ex & K2 & L2 & V2).
  rewrite (bind_val _ _ _ _ _ Ex) in H. apply bind_inv in H as (w6 & bs & Hb & H). apply index_pairs_spec in Hb as (-> & Hb & Fa).
  unfold lift in H at 1. apply bind_inv in H as (w7 & ax & Hx & H). injection Hx as <- Hx. injection H as <- <-.
  exists w4, atoms, ax. splits; auto.
  - eapply same_coupled_trans; [exact Pc|apply same_coupled_of, P4].
  - unfold entries, listed. cbn [d_bonds w_store]. rewrite Hb, map_map, !map_app. f_equal.
    + rewrite map_map. cbn [fst snd].
      assert (X : map (fun kl => (fst kl, nth_error (w_store w4 ++ ms) (snd kl))) ro = map (fun a => (mkB a a (0, 0, 0)%Z, option_map (mscale (1 / 1)) (onsite_value w4 a))) (sites w4)).
      { clear - K2 V2. revert K2 V2. generalize (sites w4). induction ro as [|[k l] ro IH]; intros [|a s] K V; try discriminate; [reflexivity|].
        cbn [map fst snd] in *. injection K as K1 K2. injection V as V1 V2. rewrite K1, V1. f_equal. apply IH; assumption. }
      transitivity (map (fun kJ => (pindex atoms (b_from (fst kJ)), pindex atoms (b_to (fst kJ)), displacement cell pos (fst kJ), vdef (snd kJ)))
        (map (fun kl => (fst kl, nth_error (w_store w4 ++ ms) (snd kl))) ro)).
      * rewrite map_map. apply map_ext_in. intros [k l] I. cbn [fst snd entry_of]. f_equal. specialize (L2 _ I). cbn [snd] in L2.
        unfold vdef. destruct (nth_error (w_store w4 ++ ms) l) eqn:E; [apply (nth_error_nth _ _ _ E)|]. apply nth_error_None in E. unfold loc in *; lia.
      * rewrite X, map_map. apply map_ext_in. intros a I. cbn [fst snd]. f_equal.
        apply (onsite_value_stored w4 a W4) in I as [J ->]. cbn [option_map vdef]. replace (1 / 1) with 1 by field. change 1 with (@f1 R R_Scalar). apply mscale_1.
    + unfold bonds, dkeys. rewrite !map_map. apply map_ext_in. intros [k l] I. cbn [fst snd entry_of]. f_equal.
      rewrite app_nth1; [apply nth_bond; auto|]. destruct W4 as (_ & _ & W3 & _). apply (W3 k l I).
Qed.

(** ** Equal matrices *)
Lemma listed_perm cell pos (w4 w4' : world) atoms : wf w4 -> wf w4' -> same_parameters w4 w4' -> Permutation (listed cell pos w4 atoms) (listed cell pos w4' atoms).
Proof.
  intros W W' P. destruct (same_bonds w4 w4' W W' P) as [Pb Ps]. destruct P as [Vb Vo]. unfold listed. apply Permutation_map, Permutation_app.
  - rewrite (map_ext (fun a => (mkB a a (0, 0, 0)%Z, vdef (onsite_value w4' a))) (fun a => (mkB a a (0, 0, 0)%Z, vdef (onsite_value w4 a)))) by (intros; rewrite Vo; reflexivity).
    apply Permutation_map, Ps.
  - rewrite (map_ext (fun k => (k, vdef (bond_value w4' k))) (fun k => (k, vdef (bond_value w4 k)))) by (intros; rewrite Vb; reflexivity).
    apply Permutation_map, Pb.
Qed.
Lemma J_perm st D st' D' a k i j b : Permutation (entries st D) (entries st' D') -> cbil a (d_J st D k i j) b = cbil a (d_J st' D' k i j) b.
Proof. intros P. rewrite !J_sum. apply lsum_perm, Permutation_map, P. Qed.
Lemma h_perm st D st' D' : d_N D' = d_N D -> d_S D' = d_S D -> d_u D' = d_u D -> d_v D' = d_v D -> Permutation (entries st D) (entries st' D') ->
  forall k p q, d_h st' D' k p q = d_h st D k p q.
Proof.
  intros EN ES Eu Ev P k p q.
  assert (EA : forall k i j, d_A st' D' k i j = d_A st D k i j) by (intros; unfold d_A, S_, u_; rewrite ES, Eu, (J_perm st D st' D' _ _ _ _ _ P); reflexivity).
  assert (EB : forall k i j, d_B st' D' k i j = d_B st D k i j) by (intros; unfold d_B, S_, u_; rewrite ES, Eu, (J_perm st D st' D' _ _ _ _ _ P); reflexivity).
  assert (EC : forall i j, d_C st' D' i j = d_C st D i j).
  { intros i j. unfold d_C. destruct (Nat.eqb i j); [|reflexivity]. rewrite EN. generalize (seq 0 (d_N D)).
    intros l. generalize (RtoC 0). induction l as [|x l IH]; intros c; cbn [fold_left]; [reflexivity|]. rewrite IH. unfold S_, v_. rewrite ES, Ev, (J_perm st D st' D' _ _ _ _ _ P). reflexivity. }
  unfold d_h. rewrite EN, !EA, !EB, !EC. reflexivity.
Qed.

Definition with_parameter (w : world) (a : atom) : Prop := (exists k, In k (bonds w) /\ (b_from k = a \/ b_to k = a)) \/ In a (sites w).

Lemma same_atoms (order order' : list atom -> list atom) (w w' : world) atoms atoms' : (forall l, Permutation (order l) l) -> (forall l, Permutation (order' l) l) ->
  (forall a, with_parameter w' a <-> with_parameter w a) -> distinctly_indexed w ->
  magnetic_atoms order w = (w, Ret atoms) -> magnetic_atoms order' w' = (w', Ret atoms') -> atoms' = atoms.
Proof.
  intros Po Po' E Hi M M'. destruct (magnetic_atoms_exact order w Po) as (r & Er & N & S0 & I). destruct (magnetic_atoms_exact order' w' Po') as (r' & Er' & N' & S0' & I').
  rewrite M in Er. injection Er as <-. rewrite M' in Er'. injection Er' as <-. symmetry. apply sorted_unique; auto.
  - intros a b Ia Ib. apply Hi; apply I; assumption.
  - intros a. rewrite I, I'. symmetry. apply E.
Qed.

Lemma coupled_with (w w' : world) dc sn ef of_ dc' sn' ef' of' : full w dc sn ef of_ -> full w' dc' sn' ef' of' ->
  same_coupled w dc sn ef of_ w' dc' sn' ef' of' -> forall a, with_parameter w' a -> with_parameter w a.
Proof.
  intros Fw Fw' (_ & Hb & Ho) a [(k & I & Hk)|I].
  - left. assert (X : exists k, In k (bonds w') /\ canonical k = true /\ (b_from k = a \/ b_to k = a)).
    { destruct (canonical k) eqn:C; [exists k; auto|]. exists (mirror k). splits; [|destruct (canonical_or k); congruence|unfold mirror; cbn; tauto].
      apply (bond_value_stored w' k (fu_wf _ _ _ _ _ Fw')) in I as [J E]. rewrite (full_twin _ _ _ _ _ k Fw' C) in E. destruct dc'; [|discriminate].
      apply bond_value_stored; [apply Fw'|]. destruct (bond_value w' (mirror k)); [eauto|discriminate]. }
    clear k I Hk. destruct X as (k & I & C & Hk). exists k. split; [|exact Hk]. specialize (Hb k C).
    apply (bond_value_stored w' k (fu_wf _ _ _ _ _ Fw')) in I as [J E]. rewrite E in Hb. apply bond_value_stored; [apply Fw|].
    destruct (bond_value w k); [eauto|discriminate].
  - right. specialize (Ho a). apply (onsite_value_stored w' a (fu_wf _ _ _ _ _ Fw')) in I as [J E]. rewrite E in Ho. apply onsite_value_stored; [apply Fw|].
    destruct (onsite_value w a); [eauto|discriminate].
Qed.

Lemma h_coupled order order' cell pos sv (w w' w1 w1' : world) D D' dc sn ef of_ dc' sn' ef' of' :
  (forall l, Permutation (order l) l) -> (forall l, Permutation (order' l) l) -> full w dc sn ef of_ -> full w' dc' sn' ef' of' -> distinctly_indexed w ->
  same_coupled w dc sn ef of_ w' dc' sn' ef' of' ->
  dispersion_init order cell pos sv w = (w1, Ret D) -> dispersion_init order' cell pos sv w' = (w1', Ret D') ->
  d_N D' = d_N D /\ forall k p q, d_h (w_store w1') D' k p q = d_h (w_store w1) D k p q.
Proof.
  intros Po Po' Fw Fw' Hi P H H'. destruct (dispersion_parts _ _ _ _ _ _ _ _ _ _ _ Fw H) as (w4 & atoms & ax & F4 & P4 & M4 & E4 & A4 & D4).
  destruct (dispersion_parts _ _ _ _ _ _ _ _ _ _ _ Fw' H') as (v4 & atoms' & ax' & F4' & P4' & M4' & E4' & A4' & D4').
  assert (Q : same_coupled w4 true false 1 1 v4 true false 1 1).
  { eapply same_coupled_trans; [apply same_coupled_sym, P4|]. eapply same_coupled_trans; [exact P|exact P4']. }
  assert (SP := coupled_determined _ _ _ _ _ _ F4 F4' Q).
  assert (Hi4 : distinctly_indexed w4). { intros a b Ia Ib. apply Hi; [exact (coupled_with _ _ _ _ _ _ _ _ _ _ Fw F4 P4 a Ia)|exact (coupled_with _ _ _ _ _ _ _ _ _ _ Fw F4 P4 b Ib)]. }
  assert (EA : atoms' = atoms).
  { eapply (same_atoms order order' w4 v4); try eassumption. intros a. split; [exact (coupled_with _ _ _ _ _ _ _ _ _ _ F4 F4' Q a)|exact (coupled_with _ _ _ _ _ _ _ _ _ _ F4' F4 (same_coupled_sym _ _ _ _ _ _ _ _ _ _ Q) a)]. }
  subst atoms'. assert (ax' = ax) as -> by congruence. split; [rewrite D4, D4'; reflexivity|].
  apply h_perm; try (rewrite D4, D4'; reflexivity). rewrite E4, E4'. apply listed_perm; [apply F4|apply F4'|exact SP].
Qed.

Lemma h_model order order' cell pos sv (w w' w1 w1' : world) D D' dc sn ef of_ dc' sn' ef' of' :
  (forall l, Permutation (order l) l) -> (forall l, Permutation (order' l) l) ->
  wf w -> unshared w -> spins_defined w -> reciprocal_storage w dc -> notation_is w dc sn ef of_ -> ef <> 0 -> of_ <> 0 ->
  wf w' -> unshared w' -> spins_defined w' -> reciprocal_storage w' dc' -> notation_is w' dc' sn' ef' of' -> ef' <> 0 -> of' <> 0 ->
  distinctly_indexed w -> same_model sn ef of_ w sn' ef' of' w' ->
  dispersion_init order cell pos sv w = (w1, Ret D) -> dispersion_init order' cell pos sv w' = (w1', Ret D') ->
  d_N D' = d_N D /\ forall k p q, d_h (w_store w1') D' k p q = d_h (w_store w1) D k p q.
Proof.
  intros Po Po' W U Sp St No Ne Nf W' U' Sp' St' No' Ne' Nf' Hi P H H'. assert (Fw := full_intro w dc sn ef of_ W U Sp St No Ne Nf).
  assert (Fw' := full_intro w' dc' sn' ef' of' W' U' Sp' St' No' Ne' Nf').
  exact (h_coupled order order' cell pos sv w w' w1 w1' D D' _ _ _ _ _ _ _ _ Po Po' Fw Fw' Hi (model_coupled w w' _ _ _ _ _ _ _ _ Fw Fw' P) H H').
Qed.

Lemma h_notation order order' cell pos sv (w w' w1 w1' : world) D D' dc sn ef of_ n dc' sn' ef' of' :
  (forall l, Permutation (order l) l) -> (forall l, Permutation (order' l) l) ->
  wf w -> unshared w -> spins_defined w -> reciprocal_storage w dc -> notation_is w dc sn ef of_ -> ef <> 0 -> of_ <> 0 -> distinctly_indexed w ->
  parse_notation n = Some (dc', sn', ef', of') -> ef' <> 0 -> of' <> 0 -> set_notation n w = (w', Ret tt) ->
  dispersion_init order cell pos sv w = (w1, Ret D) -> dispersion_init order' cell pos sv w' = (w1', Ret D') ->
  d_N D' = d_N D /\ forall k p q, d_h (w_store w1') D' k p q = d_h (w_store w1) D k p q.
Proof.
  intros Po Po' W U Sp St No Ne Nf Hi Pn Ne' Nf' E H H'. assert (Fw := full_intro w dc sn ef of_ W U Sp St No Ne Nf).
  destruct (set_notation_full w _ _ _ _ dc' sn' ef' of' Fw Ne' Nf') as (v & Ev & Fv & Pv).
  assert (set_notation n w = set_notation (N4 dc' sn' ef' of') w) as X by (unfold set_notation; rewrite Pn; reflexivity).
  rewrite X in E. rewrite E in Ev. injection Ev as <-.
  eapply (h_coupled order order' cell pos sv w w'); try eassumption. apply same_coupled_of, Pv.
Qed.
