(** Construction of the dispersion: which bonds it lists, and that every bond is listed from both ends. *)
From Coq Require Import List Bool ZArith Reals Lra Lia Permutation Arith String.
From Coquelicot Require Import Complex.
From Verif.Base Require Import Scalar ScalarR Linear3 PyDict PyString.
From Verif.Model Require Import MatrixParam Hamiltonian EnergyInit Energy Dispersion.
From Verif.Spec Require Import HamSpec NotationSpec HistorySpec DispersionSpec.
From Verif.Proofs Require Import DictProofs HamBasics HamSetters HamDouble HamDcEnergy NotationProofs HistoryProofs CallProofs FilterProofs FrameProofs
  HamGlue EnergyInitProofs OptimizerProofs DispersionMatrix.
From Coq Require Import List.
Import ListNotations.
Local Open Scope R_scope.
Notation world := (@world R).

Definition Sym (w : world) : Prop := wf w /\ unshared w /\ reciprocal w /\ symmetric_onsite w.

Lemma vdef_Some (a b : M3 R) : Some a = Some b -> a = b.
Proof. intros H. apply (f_equal (@vdef R _)) in H. exact H. Qed.

Lemma Sym_rescaled (w w' : world) h' fe fo : Sym w -> rescaled w w' h' (fun k m => mscale (fe k) m) (fun a m => mscale (fo a) m) ->
  h_exch h' = h_exch (w_ham w) -> h_ons h' = h_ons (w_ham w) -> h_atoms h' = h_atoms (w_ham w) -> (forall k, fe (mirror k) = fe k) -> Sym w'.
Proof.
  intros (W & U & R & O) (Eh & El & Vb & Vo) E1 E2 E3 Hs. unfold Sym. splits.
  - destruct W as (A & B & C & D & E & G). unfold wf, bonds, sites. rewrite Eh, E1, E2, E3, El. splits; auto.
  - unfold unshared. rewrite Eh, E1, E2. exact U.
  - intros k J J'. rewrite !Vb, Hs. destruct (bond_value w k) as [M0|] eqn:A; [|discriminate]. destruct (bond_value w (mirror k)) as [M1|] eqn:B; [|discriminate].
    cbn [option_map]. intros X Y. apply vdef_Some in X, Y. subst. rewrite (R _ _ _ A B), mtrans_mscale. reflexivity.
  - intros a A. rewrite Vo. destruct (onsite_value w a) as [A0|] eqn:EA; [|discriminate]. cbn [option_map]. intros X. apply vdef_Some in X. subst.
    rewrite mtrans_mscale, <- (O a A0 EA). reflexivity.
Qed.

Lemma Sym_set_dc (w w' : world) : Sym w -> set_double_counting true w = (w', Ret tt) -> Sym w' /\ mirror_closed w' /\
  (forall k, bond_value w' k = option_map (mscale (dc_factor (h_dc (w_ham w)) true)) (mirrored_value w k)) /\ same_rest w w'.
Proof.
  intros (W & U & R & O) H. destruct (set_dc_true_ok w W (fun _ => U)) as (w1 & E & W' & U' & SR & _ & V). rewrite H in E. injection E as <-.
  assert (SR' := SR). destruct SR' as (_ & _ & _ & _ & _ & _ & Vo).
  splits; auto; [|intros k; rewrite !(mirrored_bonds w w' _ W W' V), mirror_invol; tauto].
  unfold Sym. splits; auto.
  - intros k J J'. rewrite !V. unfold mirrored_value. rewrite mirror_invol.
    destruct (dmem (h_exch (w_ham w)) (mirror k)) eqn:Em; destruct (dmem (h_exch (w_ham w)) k) eqn:Ek.
    + apply dmem_key in Em, Ek. apply (bond_value_stored w _ W) in Em as [Jm Em]. apply (bond_value_stored w _ W) in Ek as [Jk Ek].
      rewrite Em, Ek. cbn [option_map]. intros X Y. apply vdef_Some in X, Y. subst. rewrite (R _ _ _ Ek Em), !mtrans_mscale, !mtrans_invol. reflexivity.
    + destruct (bond_value w (mirror k)) as [Jm|]; [|discriminate]. cbn [option_map]. intros X Y. apply vdef_Some in X, Y. subst.
      rewrite mtrans_mscale, mtrans_invol. reflexivity.
    + destruct (bond_value w k) as [Jm|]; [|discriminate]. cbn [option_map]. intros X Y. apply vdef_Some in X, Y. subst. rewrite mtrans_mscale. reflexivity.
    + unfold bond_value. unfold dmem in Ek. destruct (dget (h_exch (w_ham w)) k); discriminate.
  - intros a A. rewrite Vo. apply O.
Qed.

Lemma mirror_closed_exch (w w' : world) : h_exch (w_ham w') = h_exch (w_ham w) -> mirror_closed w -> mirror_closed w'.
Proof. unfold mirror_closed, bonds. intros ->. auto. Qed.

(** The state in SpinW notation: every parameter of the given Hamiltonian times a factor. *)
Record spinw (w w' : world) : Prop := mkSpinw {
  sw_sym : Sym w';
  sw_closed : mirror_closed w';
  sw_not : notation_is w' true false 1 1;
  sw_bonds : exists fe, forall k, bond_value w' k = option_map (mscale (fe k)) (mirrored_value w k);
  sw_sites : exists fo, forall a, onsite_value w' a = option_map (mscale (fo a)) (onsite_value w a) }.

Lemma spinw_of (w w' : world) : Sym w -> set_notation (NStr "SpinW") w = (w', Ret tt) -> spinw w w'.
Proof.
  intros S0 H. unfold set_notation in H. replace (parse_notation (NStr "SpinW")) with (Some (true, false, 1, 1)) in H by reflexivity.
  apply bind_inv in H as (w1 & [] & H1 & H). apply bind_inv in H as (w2 & [] & H2 & H). apply bind_inv in H as (w3 & [] & H3 & H).
  assert (D1 := fun u => set_dc_true_ok w (proj1 S0) u). destruct (D1 (fun _ => proj1 (proj2 S0))) as (w1' & E1 & _ & _ & _ & D & _).
  rewrite H1 in E1. injection E1 as <-. clear D1.
  destruct (Sym_set_dc w w1 S0 H1) as (S1 & C1 & V1 & R1).
  destruct (set_spin_normalized_sym w1 w2 false) as (ce & co & Hr & _ & _ & Hs); auto; try apply S1.
  assert (S2 := Sym_rescaled w1 w2 _ _ _ S1 Hr eq_refl eq_refl eq_refl Hs).
  destruct (set_exchange_factor_ok w2 w3 1) as (c & Hc & _); auto; try apply S2.
  assert (S3 := Sym_rescaled w2 w3 _ (fun _ => c) (fun _ => 1) S2 Hc eq_refl eq_refl eq_refl (fun _ => eq_refl)).
  destruct (set_on_site_factor_ok w3 w' 1) as (c' & Hc' & _); auto; try apply S3.
  assert (S4 := Sym_rescaled w3 w' _ (fun _ => 1) (fun _ => c') S3 Hc' eq_refl eq_refl eq_refl (fun _ => eq_refl)).
  destruct Hr as (Q2 & _ & B2 & O2). destruct Hc as (Q3 & _ & B3 & O3). destruct Hc' as (Q4 & _ & B4 & O4).
  constructor; [exact S4| | | |].
  - apply (mirror_closed_exch w1); [|exact C1]. rewrite Q4; cbn. rewrite Q3; cbn. rewrite Q2; reflexivity.
  - unfold notation_is. rewrite Q4; cbn. rewrite Q3; cbn. rewrite Q2; cbn. auto.
  - exists (fun k => (1 * c * ce k * dc_factor (h_dc (w_ham w)) true)%fld). intros k. rewrite B4, B3, B2, V1, !option_map_map.
    destruct (mirrored_value w k); [|reflexivity]. cbn [option_map]. f_equal. rewrite !mscale_mscale. reflexivity.
  - exists (fun a => (c' * 1 * co a)%fld). intros a. rewrite O4, O3, O2, !option_map_map. destruct R1 as (_ & _ & _ & _ & _ & _ & ->).
    destruct (onsite_value w a); [|reflexivity]. cbn [option_map]. f_equal. rewrite !mscale_mscale. reflexivity.
Qed.

(** ** The listed bonds *)
Definition pindex (atoms : list atom) (a : atom) : nat := match position a atoms with Some i => i | None => O end.

Lemma index_pairs_spec atoms vec items (w w' : world) r : index_pairs atoms vec items w = (w', Ret r) ->
  w' = w /\ r = map (fun kl => (pindex atoms (b_from (fst kl)), pindex atoms (b_to (fst kl)), vec (fst kl), snd kl)) items /\
  Forall (fun kl => In (b_from (fst kl)) atoms /\ In (b_to (fst kl)) atoms) items.
Proof.
  assert (PI : forall a l i, position a l = Some i -> In a l).
  { clear. intros a l. induction l as [|x l IH]; cbn; [discriminate|]. intros i. destruct (eq_dec a x) as [->|]; [left; reflexivity|].
    destruct (position a l); [right; eauto|discriminate]. }
  revert r w'. induction items as [|[k l] t IH]; intros r w' E; cbn [index_pairs] in E.
  - injection E as <- <-. splits; auto.
  - apply bind_inv in E as (w1 & i & E1 & E). unfold atom_index in E1. destruct (position (b_from k) atoms) as [i0|] eqn:P1; [|discriminate].
    injection E1 as <- <-. apply bind_inv in E as (w2 & j & E2 & E). unfold atom_index in E2. destruct (position (b_to k) atoms) as [j0|] eqn:P2; [|discriminate].
    injection E2 as <- <-. apply bind_inv in E as (w3 & r' & E3 & E). injection E as <- <-. destruct (IH _ _ E3) as (-> & -> & Fa). splits; auto.
    + cbn [map fst snd]. replace (pindex atoms (b_from k)) with i0 by (unfold pindex; rewrite P1; reflexivity).
      replace (pindex atoms (b_to k)) with j0 by (unfold pindex; rewrite P2; reflexivity). reflexivity.
    + constructor; [|exact Fa]. cbn [fst]. split; eapply PI; eauto.
Qed.

Lemma local_axes_spec sv atoms r : local_axes sv atoms = Ret r ->
  Forall2 (fun a x => exists s e1 e2 e3, sv a = Some s /\ span_orthonormal_set s = Ret (e1, e2, e3) /\
             x = (s, complex_vec e1 e2, complex_vec e3 vzero)) atoms r.
Proof.
  revert r. induction atoms as [|a t IH]; intros r E; cbn [local_axes] in E.
  - injection E as <-. constructor.
  - destruct (sv a) as [s|] eqn:Es; [|discriminate]. apply obind_inv in E as ([[e1 e2] e3] & E1 & E).
    apply obind_inv in E as (r' & E2 & E). injection E as <-. constructor; [|apply IH, E2]. exists s, e1, e2, e3. auto.
Qed.

Lemma real_complex e : cv_conj (complex_vec e vzero) = complex_vec e vzero.
Proof. destruct e. unfold cv_conj, complex_vec, Cconj, vzero; cbn. repeat f_equal; ring. Qed.

(** What a successful construction yields. *)
Record made (order : list atom -> list atom) (cell : M3 R) (pos : atom -> V3 R) (sv : atom -> option (V3 R)) (w w1 : world) (D : dispersion)
    (w4 : world) (atoms : list atom) : Prop := mkMade {
  md_spinw : spinw w w4;
  md_atoms : magnetic_atoms order w4 = (w4, Ret atoms);
  md_N : d_N D = List.length atoms;
  md_entries : entries (w_store w1) D =
    map (fun kJ => (pindex atoms (b_from (fst kJ)), pindex atoms (b_to (fst kJ)), displacement cell pos (fst kJ), snd kJ))
        (map (fun a => (mkB a a (0, 0, 0)%Z, vdef (onsite_value w4 a))) (sites w4) ++ map (fun k => (k, vdef (bond_value w4 k))) (bonds w4));
  md_axes : Forall2 (fun a x => exists s e1 e2 e3, sv a = Some s /\ span_orthonormal_set s = Ret (e1, e2, e3) /\
             x = (s, complex_vec e1 e2, complex_vec e3 vzero)) atoms (combine (combine (d_S D) (d_u D)) (d_v D));
  md_covers : forall a, In a (sites w4) \/ (exists k, In k (bonds w4) /\ (b_from k = a \/ b_to k = a)) -> In a atoms;
  md_lengths : List.length (d_S D) = List.length atoms /\ List.length (d_u D) = List.length atoms /\ List.length (d_v D) = List.length atoms;
  md_copied : set_notation (NStr "SpinW") (let '(st, h) := copy_ham (w_store w) (w_ham w) in mkW st h) = (w4, Ret tt) }.

Lemma magnetic_state order (w w' : world) atoms : magnetic_atoms order w = (w', Ret atoms) -> w' = w.
Proof. unfold magnetic_atoms. rewrite bind_gets. intros [= <- _]. reflexivity. Qed.

Lemma combine_map3 {A B C} (l : list (A * B * C)) :
  combine (combine (map (fun x => fst (fst x)) l) (map (fun x => snd (fst x)) l)) (map snd l) = l.
Proof. induction l as [|[[a b] c] l IH]; cbn; [reflexivity|]. rewrite IH. reflexivity. Qed.

Lemma nth_bond (w : world) k l : wf w -> In (k, l) (h_exch (w_ham w)) -> nth l (w_store w) mzero = vdef (bond_value w k).
Proof.
  intros W I. assert (N := proj1 W). destruct W as (_ & _ & W3 & _). unfold bond_value. assert (E : dget (h_exch (w_ham w)) k = Some l) by (apply In_dget; auto).
  rewrite E. specialize (W3 k l I). unfold vdef. destruct (nth_error (w_store w) l) eqn:X.
  - apply (nth_error_nth _ _ _ X).
  - apply nth_error_None in X. unfold loc in *; lia.
Qed.

Lemma dispersion_made order cell pos sv (w w1 : world) D : Sym w -> dispersion_init order cell pos sv w = (w1, Ret D) ->
  exists w4 atoms, made order cell pos sv w w1 D w4 atoms.
Proof.
  intros (W & U & Rc & O) H. unfold dispersion_init in H. assert (CP := copy_ok (w_store w) (w_ham w)).
  replace (mkW (w_store w) (w_ham w)) with w in CP by (destruct w; reflexivity). specialize (CP W).
  destruct (copy_ham (w_store w) (w_ham w)) as [st h] eqn:Ec.
  destruct CP as (_ & Wc & _ & _ & _ & _ & _ & _ & Bc & Sc & [Vb Vo] & Uc & _). specialize (Uc U).
  set (wc := mkW st h) in *.
  assert (Sc' : Sym wc).
  { unfold Sym. splits; auto.
    - intros k J J'. rewrite !Vb. apply Rc.
    - intros a A. rewrite Vo. apply O. }
  unfold init_copy in H. apply bind_inv in H as (w4 & [] & H0 & H). assert (SW := spinw_of wc w4 Sc' H0).
  assert (SW' : spinw w w4).
  { destruct SW as [P1 P2 P3 [fe P4] [fo P5]]. constructor; auto.
    - exists fe. intros k. rewrite P4. unfold mirrored_value. rewrite !Vb. unfold dmem.
      replace (match dget (h_exch (w_ham wc)) (mirror k) with Some _ => true | None => false end) with
              (match dget (h_exch (w_ham w)) (mirror k) with Some _ => true | None => false end); [reflexivity|].
      destruct (in_dec eq_dec (mirror k) (bonds w)) as [I|I].
      + assert (I' := I). rewrite <- Bc in I'. unfold bonds in I, I'. rewrite <- dget_key in I, I'. destruct I as [x ->], I' as [y ->]. reflexivity.
      + assert (I' := I). rewrite <- Bc in I'. unfold bonds in I, I'. rewrite <- dget_key in I, I'.
        destruct (dget (h_exch (w_ham w)) (mirror k)) as [x|]; [exfalso; eauto|]. destruct (dget (h_exch (w_ham wc)) (mirror k)) as [x|]; [exfalso; eauto|]. reflexivity.
    - exists fo. intros a. rewrite P5, Vo. reflexivity. }
  apply bind_inv in H as (w5 & atoms & Ha & H). assert (w5 = w4) as -> by (eapply magnetic_state; eauto).
  destruct SW as [(W4 & U4 & R4 & O4) C4 (N1 & N2 & N3 & N4) _ _].
  assert (nz : (1 : R) <> @f0 R R_Scalar) by exact R1_neq_R0.
  destruct (exchange_like_objects w4 1 1 W4 N3 N4 nz) as (ms & ro & Ex & K2 & L2 & V2).
  rewrite (bind_val _ _ _ _ _ Ex) in H. apply bind_inv in H as (w6 & bs & Hb & H). apply index_pairs_spec in Hb as (-> & Hb & Fa).
  unfold lift in H at 1. apply bind_inv in H as (w7 & ax & Hx & H). injection Hx as <- Hx. injection H as <- <-.
  exists w4, atoms. constructor; auto; cbn [d_N d_S d_u d_v].
  - unfold entries. cbn [d_bonds w_store]. rewrite Hb, map_map, !map_app. f_equal.
    + rewrite map_map. cbn [fst snd].
      assert (X : map (fun kl => (fst kl, nth_error (w_store w4 ++ ms) (snd kl))) ro = map (fun a => (mkB a a (0, 0, 0)%Z, option_map (mscale (1 / 1)) (onsite_value w4 a))) (sites w4)).
      { clear - K2 V2. revert K2 V2. generalize (sites w4). induction ro as [|[k l] ro IH]; intros [|a s] K V; try discriminate; [reflexivity|].
        cbn [map fst snd] in *. injection K as K1 K2. injection V as V1 V2. rewrite K1, V1. f_equal. apply IH; assumption. }
      transitivity (map (fun kJ => (pindex atoms (b_from (fst kJ)), pindex atoms (b_to (fst kJ)), displacement cell pos (fst kJ), vdef (snd kJ)))
        (map (fun kl => (fst kl, nth_error (w_store w4 ++ ms) (snd kl))) ro)).
      * rewrite map_map. apply map_ext_in. intros [k l] I. cbn [fst snd entry_of]. f_equal. specialize (L2 _ I). cbn [snd] in L2.
        unfold vdef. destruct (nth_error (w_store w4 ++ ms) l) eqn:E; [apply (nth_error_nth _ _ _ E)|]. apply nth_error_None in E. unfold loc in *; lia.
      * rewrite X, map_map. apply map_ext_in. intros a I. cbn [fst snd]. f_equal.
        apply (onsite_value_stored w4 a W4) in I as [J ->]. cbn [option_map vdef]. replace (1 / 1) with 1 by field. change 1 with (@f1 R R_Scalar). apply mscale_1.
    + unfold bonds, dkeys. rewrite !map_map. apply map_ext_in. intros [k l] I. cbn [fst snd entry_of]. f_equal.
      rewrite app_nth1; [apply nth_bond; auto|]. destruct W4 as (_ & _ & W3 & _). apply (W3 k l I).
  - rewrite combine_map3. apply local_axes_spec, Hx.
  - intros a [I|(k & I & Hk)].
    + assert (J : In (mkB a a (0, 0, 0)%Z) (map fst ro)) by (rewrite K2; apply in_map_iff; exists a; auto).
      apply in_map_iff in J as ([k l] & E & J). cbn [fst] in E. subst. rewrite Forall_forall in Fa. destruct (Fa _ (in_or_app _ _ _ (or_introl J))) as [X _]. exact X.
    + unfold bonds, dkeys in I. apply in_map_iff in I as ([k' l] & E & J). cbn [fst] in E. subst. rewrite Forall_forall in Fa.
      destruct (Fa _ (in_or_app _ _ _ (or_intror J))) as [X Y]. cbn [fst] in X, Y. destruct Hk; subst; assumption.
  - apply local_axes_spec in Hx. assert (L : List.length atoms = List.length ax) by (clear - Hx; induction Hx; cbn; congruence). rewrite !map_length. auto.
  - rewrite Ec. exact H0.
Qed.

Lemma made_real order cell pos sv w w1 D w4 atoms : made order cell pos sv w w1 D w4 atoms -> real_axes D.
Proof.
  intros []. destruct md_lengths0 as (L1 & L2 & L3). unfold real_axes. apply Forall_forall. intros v I.
  apply (In_nth _ _ cv_zero) in I as (n & Ln & <-).
  assert (Hn : In (nth n (d_S D) vzero, nth n (d_u D) cv_zero, nth n (d_v D) cv_zero) (combine (combine (d_S D) (d_u D)) (d_v D))).
  { rewrite <- combine_nth by lia. rewrite <- combine_nth by (rewrite combine_length; lia). apply nth_In. rewrite !combine_length. lia. }
  clear - md_axes0 Hn. revert Hn. generalize (nth n (d_S D) vzero, nth n (d_u D) cv_zero). generalize (nth n (d_v D) cv_zero).
  induction md_axes0 as [|a x l l' (s & e1 & e2 & e3 & _ & _ & ->) _ IH]; intros v p Hn; [destruct Hn|].
  destruct Hn as [E|Hn]; [|eauto]. injection E as _ <-. apply real_complex.
Qed.

Lemma lattice_neg cell c : lattice_vector cell (cneg c) = vopp (lattice_vector (F := R) cell c).
Proof.
  assert (Z : forall z, fZ (F := R) (- z) = - fZ z) by (intros [|p|p]; cbn; ring).
  destruct c as [[i j] k], cell. unfold lattice_vector, cneg. rewrite !Z. unfold vmat, mvec, vopp, vmap, mtrans, dot, mrow1, mrow2, mrow3; cbn. f_equal; ring.
Qed.
Lemma displacement_mirror cell pos k : displacement cell pos (mirror k) = vopp (displacement cell pos k).
Proof.
  unfold displacement, mirror; cbn [b_from b_to b_cell]. rewrite lattice_neg. destruct (lattice_vector cell (b_cell k)), (pos (b_from k)), (pos (b_to k)).
  unfold vadd, vsub, vopp, vmap, vmap2; cbn. f_equal; ring.
Qed.

Lemma made_both_ends order cell pos sv w w1 D w4 atoms : made order cell pos sv w w1 D w4 atoms -> both_ends (w_store w1) D.
Proof.
  intros []. destruct md_spinw0 as [(W4 & U4 & R4 & O4) C4 _ _ _]. unfold both_ends. rewrite md_entries0.
  set (E := fun kJ : bkey * M3 R => (pindex atoms (b_from (fst kJ)), pindex atoms (b_to (fst kJ)), displacement cell pos (fst kJ), snd kJ)).
  set (mir := fun kJ : bkey * M3 R => (mirror (fst kJ), mtrans (snd kJ))).
  assert (Hf : forall l, map flip (map E l) = map E (map mir l)).
  { intros l. rewrite !map_map. apply map_ext. intros [k J]. unfold E, mir, flip; cbn [fst snd]. rewrite displacement_mirror. reflexivity. }
  rewrite Hf. apply Permutation_map. rewrite map_app. apply Permutation_app.
  - rewrite map_map. erewrite map_ext_in; [apply Permutation_refl|]. intros a I. unfold mir; cbn [fst snd]. unfold mirror; cbn. f_equal.
    apply (onsite_value_stored w4 a W4) in I as [J EJ]. rewrite EJ. cbn [vdef]. apply (O4 a), EJ.
  - assert (mm : forall x, mir (mir x) = x) by (intros [k J]; unfold mir; cbn [fst snd]; rewrite mirror_invol, mtrans_invol; reflexivity).
    set (L := map (fun k => (k, vdef (bond_value w4 k))) (bonds w4)).
    assert (Nk : NoDup (map fst L)) by (unfold L; rewrite map_map; cbn [fst]; rewrite map_id; apply W4).
    assert (Cl : forall x, In x L -> In (mir x) L).
    { intros x I. unfold L in I. apply in_map_iff in I as (k & <- & I). assert (Im := C4 k I).
      apply (bond_value_stored w4 k W4) in I as [J EJ]. assert (Im' := Im). apply (bond_value_stored w4 _ W4) in Im' as [J' EJ'].
      unfold L. apply in_map_iff. exists (mirror k). split; [|exact Im]. unfold mir; cbn [fst snd]. rewrite EJ, EJ'. cbn [vdef]. rewrite (R4 k J J' EJ EJ'). reflexivity. }
    apply NoDup_Permutation.
    + apply (NoDup_map_inv fst). exact Nk.
    + apply FinFun.Injective_map_NoDup; [|apply (NoDup_map_inv fst); exact Nk]. intros x y Exy. rewrite <- (mm x), <- (mm y), Exy. reflexivity.
    + intros x. split; intros I.
      * apply in_map_iff. exists (mir x). split; [apply mm|apply Cl, I].
      * apply in_map_iff in I as (y & <- & I). apply Cl, I.
Qed.
