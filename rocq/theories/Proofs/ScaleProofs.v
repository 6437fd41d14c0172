(** Proofs for C91: the energies of a Hamiltonian with all parameters multiplied by a number. *)
From Coq Require Import List Bool ZArith Reals Lra Lia Permutation Sorted Arith String.
From Verif.Base Require Import Scalar ScalarR Linear3 PyDict PyString.
From Verif.Model Require Import MatrixParam Hamiltonian EnergyInit Energy Dispersion.
From Verif.Spec Require Import HamSpec NotationSpec HistorySpec EnergySpec DispersionSpec InvarianceSpec RotationSpec ReversalSpec ScaleSpec.
From Verif.Proofs Require Import DictProofs HamBasics HamSetters HamDouble HamDcEnergy NotationProofs HistoryProofs CallProofs FilterProofs FrameProofs
  HamGlue EnergyInitProofs EnergyProofs OptimizerProofs DispersionMatrix DispersionInit InvarianceProofs RotationProofs RotationEnergy ReversalProofs.
From Coq Require Import List.
Import ListNotations.
Local Open Scope R_scope.

(** ** Sums *)
Definition scale_item (c : R) (x : nat * nat * V3 R * option (M3 R)) : nat * nat * V3 R * option (M3 R) :=
  let '(i, j, d, m) := x in (i, j, d, option_map (mscale c) m).
Lemma osum_times c l : osum (map (option_map (Rmult c)) l) = option_map (Rmult c) (osum l).
Proof.
  induction l as [|[x|] l IH]; cbn [map osum option_map]; [f_equal; cbn; ring| |reflexivity].
  rewrite IH. destruct (osum l); [|reflexivity]. cbn [option_map]. f_equal. cbn. ring.
Qed.
Lemma bilin_scale c u (J : M3 R) v : bilin u (mscale c J) v = c * bilin u J v.
Proof. unfold bilin. destruct u, v, J. rlin. ring. Qed.
Lemma energy_scaled c st st' (E E' : @energy_obj R) C dirs :
  Permutation (map (scale_item c) (resolved st E)) (resolved st' E') -> e_factor E' = e_factor E -> e_spins E' = e_spins E ->
  (forall d J, C d (mscale c J) = mscale c (C d J)) ->
  bonds_energy st' E' C dirs = option_map (Rmult c) (bonds_energy st E C dirs).
Proof.
  intros Pm Ef Es HC. rewrite !bonds_energy_items, <- osum_times. rewrite <- (osum_perm _ _ (Permutation_map _ Pm)), !map_map. f_equal. apply map_ext.
  intros [[[i j] d] m]. cbn [scale_item item_energy]. rewrite Ef, Es.
  destruct (nth_error (e_spins E) i); [|reflexivity]. destruct (nth_error (e_spins E) j); [|reflexivity].
  destruct (nth_error dirs i); [|reflexivity]. destruct (nth_error dirs j); [|reflexivity]. destruct m as [J|]; [|reflexivity]. cbn [option_map].
  rewrite HC, bilin_scale. f_equal. ring.
Qed.

(** ** Products *)
Lemma mmul_scale_r c (a b : M3 R) : mmul a (mscale c b) = mscale c (mmul a b). Proof. destruct a, b. r3. f_equal; ring. Qed.
Lemma mmul_scale_l c (a b : M3 R) : mmul (mscale c a) b = mscale c (mmul a b). Proof. destruct a, b. r3. f_equal; ring. Qed.
Lemma madd_scale c (a b : M3 R) : madd (mscale c a) (mscale c b) = mscale c (madd a b). Proof. destruct a, b. r3. f_equal; ring. Qed.
Lemma msub_scale c (a b : M3 R) : msub (mscale c a) (mscale c b) = mscale c (msub a b). Proof. destruct a, b. r3. f_equal; ring. Qed.
Lemma mscale_comm c d (a : M3 R) : mscale d (mscale c a) = mscale c (mscale d a). Proof. destruct a. r3. f_equal; ring. Qed.
Lemma mdivs_scale c (a : M3 R) d : mdivs (mscale c a) d = mscale c (mdivs a d). Proof. destruct a. r3. unfold Rdiv. f_equal; ring. Qed.
Lemma antiferro_scaled c K J co s : antiferro_C K (mscale c J) co s = mscale c (antiferro_C (F := R) K J co s).
Proof. unfold antiferro_C. cbn zeta. rewrite !mmul_scale_r, !mmul_scale_l, !(mscale_comm c), madd_scale, msub_scale. reflexivity. Qed.
Lemma spiral_scaled c K J co s : spiral_C K (mscale c J) co s = mscale c (spiral_C (F := R) K J co s).
Proof.
  unfold spiral_C. cbn zeta. rewrite !mmul_scale_r, !mmul_scale_l, madd_scale, !msub_scale, !mdivs_scale, !(mscale_comm c), !msub_scale. reflexivity.
Qed.
Lemma zeeman_scaled c mu (E E' : @energy_obj R) H so : e_g E' = e_g E ->
  zeeman mu (set_field E' (option_map (vscale c) H)) so = c * zeeman mu (set_field E H) so.
Proof.
  intros Eg. unfold zeeman, set_field. cbn [e_field e_g]. rewrite Eg. destruct H as [H|]; cbn [option_map]; [|symmetry; apply Rmult_0_r]. rewrite zeeman_sum_scale.
  generalize (zeeman_sum H (e_g E) so). intros z. change (mu * (c * z) = c * (mu * z)). ring.
Qed.

Section Values.
Variables (c : R) (st st' : list (M3 R)) (E E' : @energy_obj R).
Hypothesis HR : Permutation (map (scale_item c) (resolved st E)) (resolved st' E').
Hypothesis Hf : e_factor E' = e_factor E.
Hypothesis Hs : e_spins E' = e_spins E.
Hypothesis Hg : e_g E' = e_g E.

Lemma check_same H H' a : check_spins (set_field E' H') a = check_spins (set_field E H) a.
Proof. unfold check_spins. change (e_spins (set_field E' H')) with (e_spins E'). change (e_spins (set_field E H)) with (e_spins E). rewrite Hs. reflexivity. Qed.
Lemma ferro_scaled mu H a : e_ferro mu st' (set_field E' (option_map (vscale c) H)) a = times c (e_ferro mu st (set_field E H) a).
Proof.
  unfold e_ferro. rewrite (check_same H). destruct (check_spins _ a) as [rows|]; [|reflexivity]. cbn [obind].
  destruct (normalize_all rows) as [dirs|]; [|reflexivity]. cbn [obind]. rewrite (zeeman_scaled c mu E E' H dirs Hg).
  change (bonds_energy st' (set_field E' (option_map (vscale c) H))) with (bonds_energy st' E'). change (bonds_energy st (set_field E H)) with (bonds_energy st E).
  rewrite (energy_scaled c st st' E E' (fun _ J => J)) by (assumption || reflexivity). destruct (bonds_energy _ _ _ _) as [x|]; [|reflexivity].
  cbn [option_map of_option obind times]. f_equal. generalize (zeeman mu (set_field E H) dirs). intros z. change (c * x + c * z = c * (x + z)). ring.
Qed.
Lemma cone_scaled Cf mu H a n q : (forall K J co s, Cf K (mscale c J) co s = mscale c (Cf K J co s)) ->
  cone_energy Cf mu st' (set_field E' (option_map (vscale c) H)) a n q = times c (cone_energy Cf mu st (set_field E H) a n q).
Proof.
  intros HC. unfold cone_energy. destruct n as [n|]; [|reflexivity]. cbn [check_vector obind]. destruct q as [q|]; [|reflexivity]. cbn [check_vector obind].
  rewrite (check_same H). destruct (check_spins _ a) as [rows|]; [|reflexivity]. cbn [obind].
  destruct (normalize_all rows) as [dirs|]; [|reflexivity]. cbn [obind]. destruct (normalize n) as [m|]; [|reflexivity]. cbn [obind].
  change (bonds_energy st' (set_field E' (option_map (vscale c) H))) with (bonds_energy st' E'). change (bonds_energy st (set_field E H)) with (bonds_energy st E).
  rewrite (energy_scaled c st st' E E' (fun d J => Cf (cone_K m) J (cos (dot q d)) (sin (dot q d)))); [|exact HR|exact Hf|exact Hs|intros; apply HC].
  destruct (bonds_energy _ _ _ _) as [x|]; [|reflexivity]. cbn [option_map of_option obind times]. f_equal. rewrite (zeeman_scaled c mu E E' H _ Hg).
  generalize (zeeman mu (set_field E H) (so_prime (cone_K m) dirs)). intros z. change (c * x + c * z = c * (x + z)). ring.
Qed.
End Values.

(** ** Two constructions *)
Lemma scaled_keys c (w w' : world) : wf w -> wf w' -> scaled_parameters c w w' -> Permutation (bonds w) (bonds w') /\ Permutation (sites w) (sites w').
Proof.
  intros W W' (_ & Vb & Vo). split; apply NoDup_Permutation; try apply W; try apply W'.
  - intros k. rewrite (bond_value_stored w k W), (bond_value_stored w' k W'), Vb. destruct (bond_value w k); cbn [option_map]; split; intros [J E]; try discriminate; eauto.
  - intros a. rewrite (onsite_value_stored w a W), (onsite_value_stored w' a W'), Vo. destruct (onsite_value w a); cbn [option_map]; split; intros [J E]; try discriminate; eauto.
Qed.
Lemma mirrored_scaled c (w w' : world) k : wf w -> wf w' -> scaled_parameters c w w' -> mirrored_value w' k = option_map (mscale c) (mirrored_value w k).
Proof.
  intros W W' H. destruct (scaled_keys c w w' W W' H) as [Pb _]. destruct H as (_ & Vb & _). unfold mirrored_value.
  replace (dmem (h_exch (w_ham w')) (mirror k)) with (dmem (h_exch (w_ham w)) (mirror k)).
  - destruct (dmem _ _); rewrite Vb; [|reflexivity]. destruct (bond_value w (mirror k)); [|reflexivity]. cbn [option_map]. reflexivity.
  - destruct (dmem (h_exch (w_ham w)) (mirror k)) eqn:A, (dmem (h_exch (w_ham w')) (mirror k)) eqn:B; try reflexivity; exfalso.
    + apply dmem_key in A. apply dmem_key_false in B. apply B. apply (Permutation_in _ Pb), A.
    + apply dmem_key in B. apply dmem_key_false in A. apply A. apply (Permutation_in _ (Permutation_sym Pb)), B.
Qed.
Lemma energies_scaled c order order' g cell (w w' w1 w1' : world) E E' (dc sn sn' : bool) ef of_ : 
  (forall l, Permutation (order l) l) -> (forall l, Permutation (order' l) l) ->
  wf w -> wf w' -> (if dc then mirror_closed w else unshared w /\ unshared w') ->
  notation_is w dc sn ef of_ -> notation_is w' dc sn' ef of_ -> of_ <> 0 ->
  (forall a, carries w a -> spin_of w a <> None) -> distinctly_indexed w -> scaled_parameters c w w' ->
  energy_init order g cell w = (w1, Ret E) -> energy_init order' g (cell) w' = (w1', Ret E') ->
  (forall mu H a, e_ferro mu (w_store w1') (set_field E' (option_map (vscale c) H)) a = times c (e_ferro mu (w_store w1) (set_field E H) a)) /\
  (forall mu H a n q, e_spiral mu (w_store w1') (set_field E' (option_map (vscale c) H)) a n q = times c (e_spiral mu (w_store w1) (set_field E H) a n q)) /\
  (forall mu H a n q, e_antiferro mu (w_store w1') (set_field E' (option_map (vscale c) H)) a n q = times c (e_antiferro mu (w_store w1) (set_field E H) a n q)).
Proof.
  intros Po Po' W W' Hd No No' Nz Sp Hi Rp H H'.
  destruct (scaled_keys c w w' W W' Rp) as [Pb Ps].
  assert (Cw : forall a, carries w' a <-> carries w a).
  { intros a. unfold carries. split; (intros [(k & I & J)|I]; [left; exists k; split; [|exact J]|right]).
    - apply (Permutation_in _ (Permutation_sym Pb)), I. - apply (Permutation_in _ (Permutation_sym Ps)), I.
    - apply (Permutation_in _ Pb), I. - apply (Permutation_in _ Ps), I. }
  assert (Sp' : forall a, carries w' a -> spin_of w' a <> None) by (intros a I; rewrite (proj1 Rp); apply Sp, Cw, I).
  destruct (init_atoms order w Po Sp) as (atoms & Ea & Sa). destruct (init_atoms order' w' Po' Sp') as (atoms' & Ea' & Sa').
  assert (atoms' = atoms) as -> by exact (same_atoms order order' w w' atoms atoms' Po Po' Cw Hi Ea Ea').
  destruct No as (N1 & N2 & N3 & N4). destruct No' as (N1' & N2' & N3' & N4').
  assert (Mc : dc = true -> mirror_closed w) by (intros ->; exact Hd). assert (Uu : dc = false -> unshared w /\ unshared w') by (intros ->; exact Hd).
  assert (Mc' : dc = true -> mirror_closed w').
  { intros X k I. apply (Permutation_in _ Pb), (Mc X), (Permutation_in _ (Permutation_sym Pb)), I. }
  destruct (@energy_init_ok R R_Scalar order g cell w atoms ef of_ dc Po W Mc (fun X => proj1 (Uu X)) N1 N3 N4 Nz Ea Sa) as (v1 & F1 & ro & re & X1 & G1 & B1 & _).
  destruct (@energy_init_ok R R_Scalar order' g (cell) w' atoms ef of_ dc Po' W' Mc' (fun X => proj2 (Uu X)) N1' N3' N4' Nz Ea' Sa') as (v1' & F1' & ro' & re' & X1' & G1' & B1' & _).
  rewrite H in X1. injection X1 as <- <-. rewrite H' in X1'. injection X1' as <- <-.
  destruct (magnetic_covers order w atoms Po Ea) as [Nat _].
  assert (HR : Permutation (map (scale_item c) (resolved (w_store w1) E)) (resolved (w_store w1') E')).
  { etransitivity; [apply Permutation_map, (built_resolved _ _ _ _ _ _ _ _ _ Nat B1)|]. etransitivity; [|apply Permutation_sym, (built_resolved _ _ _ _ _ _ _ _ _ Nat B1')].
    transitivity (map (numbered atoms (cell)) (map (fun kv => (fst kv, option_map (mscale c) (snd kv))) (site_items w ef of_ ++ pair_items w))).
    { match goal with |- Permutation ?a ?b => assert (a = b) as ->; [|reflexivity] end. rewrite !map_map. apply map_ext. intros [k m]. unfold numbered. cbn [fst snd scale_item]. reflexivity. }
    apply Permutation_map. rewrite map_app. apply Permutation_app.
    - unfold site_items. rewrite map_map. cbn [fst snd]. etransitivity; [|apply Permutation_map, Ps].
      match goal with |- Permutation ?a ?b => assert (a = b) as ->; [|reflexivity] end. apply map_ext. intros a. rewrite (proj2 (proj2 Rp) a). destruct (onsite_value w a); [|reflexivity]. cbn [option_map]. rewrite mscale_comm. reflexivity.
    - unfold pair_items. rewrite map_map. cbn [fst snd].
      transitivity (map (fun k => (k, mirrored_value w' k)) (nodup eq_dec (bonds w ++ map mirror (bonds w)))).
      + match goal with |- Permutation ?a ?b => assert (a = b) as ->; [|reflexivity] end. apply map_ext. intros k. rewrite (mirrored_scaled c w w' k W W' Rp). reflexivity.
      + apply Permutation_map, NoDup_Permutation; [apply NoDup_nodup|apply NoDup_nodup|]. intros k. rewrite !nodup_In.
        assert (PP : Permutation (bonds w ++ map mirror (bonds w)) (bonds w' ++ map mirror (bonds w'))) by (apply Permutation_app; [exact Pb|apply Permutation_map, Pb]).
        split; apply Permutation_in; [exact PP|apply Permutation_sym, PP]. }
  assert (Hf : e_factor E' = e_factor E) by (rewrite (bu_factor _ _ _ _ _ _ _ _ _ B1), (bu_factor _ _ _ _ _ _ _ _ _ B1'); reflexivity).
  assert (Hs : e_spins E' = e_spins E).
  { assert (X := bu_spins _ _ _ _ _ _ _ _ _ B1). assert (X' := bu_spins _ _ _ _ _ _ _ _ _ B1'). rewrite (map_ext _ _ (proj1 Rp)), X in X'. clear - X'.
    revert X'. generalize (e_spins E) (e_spins E'). intros l. induction l as [|x l IH]; intros [|y l'] X; try discriminate; [reflexivity|]. injection X as -> X. f_equal. apply IH, X. }
  assert (Hg : e_g E' = e_g E) by congruence.
  splits; intros; [apply ferro_scaled|unfold e_spiral; apply cone_scaled|unfold e_antiferro; apply cone_scaled]; auto; intros; [apply spiral_scaled|apply antiferro_scaled].
Qed.
