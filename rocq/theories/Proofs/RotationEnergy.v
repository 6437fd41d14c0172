(** Rotations and the energies of the class Energy. *)
From Coq Require Import List Bool ZArith Reals Lra Lia Permutation Sorted Arith String.
From Verif.Base Require Import Scalar ScalarR Linear3 PyDict PyString.
From Verif.Model Require Import MatrixParam Hamiltonian EnergyInit Energy Dispersion.
From Verif.Spec Require Import HamSpec NotationSpec HistorySpec EnergySpec DispersionSpec InvarianceSpec RotationSpec.
From Verif.Proofs Require Import DictProofs HamBasics HamSetters HamDouble HamDcEnergy NotationProofs HistoryProofs CallProofs FilterProofs FrameProofs
  HamGlue EnergyInitProofs EnergyProofs OptimizerProofs DispersionMatrix DispersionInit InvarianceProofs RotationProofs.
From Coq Require Import List.
Import ListNotations.
Local Open Scope R_scope.

(** ** The parameters listed by the constructor *)
Definition resolved (st : list (M3 R)) (E : @energy_obj R) : list (nat * nat * V3 R * option (M3 R)) :=
  map (fun b : nat * nat * V3 R * loc => let '(i, j, d, l) := b in (i, j, d, nth_error st l)) (e_bonds E).
Definition numbered (atoms : list atom) (cell : M3 R) (kv : bkey * option (M3 R)) : nat * nat * V3 R * option (M3 R) :=
  (pindex atoms (b_from (fst kv)), pindex atoms (b_to (fst kv)), lattice_vector cell (b_cell (fst kv)), snd kv).
Definition site_items (w : world) (ef of_ : R) : list (bkey * option (M3 R)) :=
  map (fun a => (mkB a a (0, 0, 0)%Z, option_map (mscale (ef / of_)) (onsite_value w a))) (sites w).
Definition pair_items (w : world) : list (bkey * option (M3 R)) :=
  map (fun k => (k, mirrored_value w k)) (nodup eq_dec (bonds w ++ map mirror (bonds w))).

Lemma pindex_nth atoms i a : NoDup atoms -> nth_error atoms i = Some a -> pindex atoms a = i.
Proof.
  intros N E. unfold pindex. destruct (position_In a atoms (nth_error_In _ _ E)) as (j & -> & Ej).
  apply (proj1 (NoDup_nth_error atoms) N); [apply nth_error_Some; congruence|congruence].
Qed.
Lemma built_resolved atoms cell (w w' : world) E ef of_ ro re : NoDup atoms -> built atoms cell w w' E ef of_ ro re ->
  Permutation (resolved (w_store w') E) (map (numbered atoms cell) (site_items w ef of_ ++ pair_items w)).
Proof.
  intros N B. destruct B as [_ _ _ B4 B5 B6 B7 B8 B9 _ _].
  transitivity (map (numbered atoms cell) (map (fun kl => (fst kl, nth_error (w_store w') (snd kl))) (ro ++ re))).
  - match goal with |- Permutation ?a ?b => assert (a = b) as ->; [|reflexivity] end. rewrite map_map. unfold resolved. clear - N B4.
    induction B4 as [|[k l] [[[i j] d] l'] t t' (H1 & H2 & H3 & H4) _ IH]; [reflexivity|]. cbn [map]. rewrite IH. f_equal. unfold numbered. cbn [fst snd] in *.
    rewrite (pindex_nth atoms i _ N H1), (pindex_nth atoms j _ N H2), H3, H4. reflexivity.
  - apply Permutation_map. rewrite map_app. apply Permutation_app.
    + match goal with |- Permutation ?a ?b => assert (a = b) as ->; [|reflexivity] end. unfold site_items. clear - B5 B6. revert B5 B6. generalize (sites w).
      induction ro as [|[k l] ro IH]; intros [|a s] K V; try discriminate; [reflexivity|]. cbn [map fst snd] in *. injection K as K1 K2. injection V as V1 V2. rewrite K1, V1. f_equal. apply IH; assumption.
    + unfold pair_items. transitivity (map (fun k => (k, mirrored_value w k)) (map fst re)).
      * match goal with |- Permutation ?a ?b => assert (a = b) as ->; [|reflexivity] end. rewrite map_map. apply map_ext_in. intros [k l] I. cbn [fst snd]. rewrite (B9 k l I). reflexivity.
      * apply Permutation_map, NoDup_Permutation; [exact B7|apply NoDup_nodup|]. intros k. rewrite nodup_In, in_app_iff, B8, in_map_iff. split; (intros [I|I]; [left; exact I|right]).
        -- exists (mirror k). split; [apply mirror_invol|exact I].
        -- destruct I as (k' & <- & I). rewrite mirror_invol. exact I.
Qed.

(** ** Sums *)
Definition item_energy (E : @energy_obj R) (C : V3 R -> M3 R -> M3 R) (dirs : list (V3 R)) (x : nat * nat * V3 R * option (M3 R)) : option R :=
  let '(i, j, d, m) := x in
  match nth_error (e_spins E) i, nth_error (e_spins E) j, nth_error dirs i, nth_error dirs j, m with
  | Some si, Some sj, Some u, Some v, Some J => Some (e_factor E * si * sj * bilin u (C d J) v)
  | _, _, _, _, _ => None
  end.
Lemma bonds_energy_items st E C dirs : bonds_energy st E C dirs = osum (map (item_energy E C dirs) (resolved st E)).
Proof. rewrite bonds_energy_osum. unfold resolved. rewrite map_map. f_equal. apply map_ext. intros [[[i j] d] l]. reflexivity. Qed.

Definition turn_item (O P : M3 R) (x : nat * nat * V3 R * option (M3 R)) : nat * nat * V3 R * option (M3 R) :=
  let '(i, j, d, m) := x in (i, j, mvec P d, option_map (turned O) m).
Lemma bilin_turned O u J v : rotation O -> bilin (mvec O u) (turned O J) (mvec O v) = bilin u J v.
Proof.
  intros H. unfold bilin, turned. rewrite !mvec_mmul, (rotation_back O v H). apply (proj1 H).
Qed.
Lemma energy_turned O P st st' (E E' : @energy_obj R) C C' dirs : rotation O ->
  Permutation (map (turn_item O P) (resolved st E)) (resolved st' E') -> e_factor E' = e_factor E -> e_spins E' = e_spins E ->
  (forall d J, C' (mvec P d) (turned O J) = turned O (C d J)) ->
  bonds_energy st' E' C' (map (mvec O) dirs) = bonds_energy st E C dirs.
Proof.
  intros H Pm Ef Es HC. rewrite !bonds_energy_items. rewrite <- (osum_perm _ _ (Permutation_map _ Pm)), map_map. f_equal. apply map_ext.
  intros [[[i j] d] m]. cbn [turn_item item_energy]. rewrite Ef, Es, !nth_error_map.
  destruct (nth_error (e_spins E) i); [|reflexivity]. destruct (nth_error (e_spins E) j); [|reflexivity].
  destruct (nth_error dirs i); [|reflexivity]. destruct (nth_error dirs j); [|reflexivity]. destruct m as [J|]; [|reflexivity]. cbn [option_map].
  rewrite HC, bilin_turned by exact H. reflexivity.
Qed.

(** ** Products *)
Lemma turned_mul O a b : rotation O -> turned O (mmul a b) = mmul (turned O a) (turned O b).
Proof.
  intros H. unfold turned. assert (X := rotation_columns O H).
  assert (As : forall p q r : M3 R, mmul (mmul p q) r = mmul p (mmul q r)) by (intros p q r; destruct p, q, r; r3; f_equal; ring).
  rewrite !As. do 2 f_equal. rewrite <- (As (mtrans O)), X. assert (Id : forall p : M3 R, mmul mid p = p) by (intros p; destruct p; r3; f_equal; ring). rewrite Id. reflexivity.
Qed.
Lemma turned_mid O : rotation O -> turned O mid = mid.
Proof. intros H. transitivity (mmul O (mtrans O)); [unfold turned; f_equal; destruct O; r3; f_equal; ring|exact (rotation_rows' O H)]. Qed.
Lemma turned_sub O J J' : turned O (msub J J') = msub (turned O J) (turned O J').
Proof. destruct O, J, J'. unfold turned. r3. f_equal; ring. Qed.
Lemma turned_divs O J c : c <> 0 -> turned O (mdivs J c) = mdivs (turned O J) c.
Proof. intros N. destruct O, J. unfold turned. r3. f_equal; field; exact N. Qed.
Lemma cone_K_turned O n : rotation O -> cone_K (mvec O n) = turned O (cone_K n).
Proof.
  intros H. assert (X : forall v, mvec (cone_K (mvec O n)) v = mvec (turned O (cone_K n)) v).
  { assert (K : forall a v : V3 R, mvec (cone_K a) v = cross a v) by (intros a v; destruct a, v; unfold cone_K; r3; f_equal; ring).
    intros v. unfold turned. rewrite !mvec_mmul, !K, <- (proj2 H). f_equal. rewrite <- mvec_mmul, (rotation_rows' O H). symmetry. apply mvec_mid. }
  assert (X1 := X (mkV 1 0 0)). assert (X2 := X (mkV 0 1 0)). assert (X3 := X (mkV 0 0 1)). revert X1 X2 X3. clear. generalize (cone_K (mvec O n)) (turned O (cone_K n)).
  intros a b. destruct a, b. r3. intros X1 X2 X3. injection X1 as ? ? ?. injection X2 as ? ? ?. injection X3 as ? ? ?. f_equal; lra.
Qed.
Lemma antiferro_turned O K J c s : rotation O -> antiferro_C (turned O K) (turned O J) c s = turned O (antiferro_C K J c s).
Proof. intros H. unfold antiferro_C. cbn zeta. rewrite turned_sub, !turned_add, !turned_scale, !turned_mul, !turned_add, !turned_mul, turned_mid by exact H. reflexivity. Qed.
Lemma spiral_turned O K J c s : rotation O -> spiral_C (turned O K) (turned O J) c s = turned O (spiral_C K J c s).
Proof.
  intros H. assert (N2 : f2 <> (0 : R)) by (cbn; lra). unfold spiral_C. cbn zeta.
  rewrite !turned_sub, !turned_scale, !turned_divs, !turned_sub, !turned_add, !turned_mul, !turned_add, !turned_mul, turned_mid by assumption. reflexivity.
Qed.

(** ** Arguments *)
Lemma norm_turned O v : rotation O -> norm (mvec O v) = norm v.
Proof. intros H. unfold norm. rewrite (proj1 H). reflexivity. Qed.
Lemma unit_turned O v : rotation O -> Energy.unit (mvec O v) = mvec O (Energy.unit v).
Proof. intros H. unfold Energy.unit. rewrite norm_turned by exact H. generalize (norm v). intros c. destruct O, v. unfold Rdiv. r3. f_equal; ring. Qed.
Lemma normalize_all_turned O rows : rotation O ->
  normalize_all (map (mvec O) rows) = match normalize_all rows with Ret r => Ret (map (mvec O) r) | Raise e => Raise e end.
Proof.
  intros H. induction rows as [|v t IH]; [reflexivity|]. cbn [map normalize_all]. rewrite norm_turned by exact H. destruct (Req_EM_T (norm v) 0); [reflexivity|].
  rewrite IH. destruct (normalize_all t); [|reflexivity]. cbn [map]. rewrite unit_turned by exact H. reflexivity.
Qed.
Lemma check_turned O (E E' : @energy_obj R) a : e_spins E' = e_spins E ->
  check_spins E' (turn_arg O a) = match check_spins E a with Ret r => Ret (map (mvec O) r) | Raise e => Raise e end.
Proof.
  intros Es. destruct a as [[|v t]|v|]; cbn [turn_arg check_spins map]; try reflexivity; rewrite Es.
  - cbn [List.length]. rewrite map_length. destruct (Nat.eqb _ _); reflexivity.
  - destruct (Nat.eqb _ _); reflexivity.
Qed.
Lemma zeeman_turned O mu (E E' : @energy_obj R) H so : rotation O -> e_g E' = e_g E ->
  zeeman mu (set_field E' (option_map (mvec O) H)) (map (mvec O) so) = zeeman mu (set_field E H) so.
Proof.
  intros HO Eg. unfold zeeman, set_field. cbn [e_field e_g]. rewrite Eg. destruct H as [H|]; [|reflexivity]. cbn [option_map]. f_equal.
  clear Eg. revert so. induction (e_g E) as [|g gs IH]; intros [|v so]; cbn [zeeman_sum map]; try reflexivity. rewrite IH, (proj1 HO). reflexivity.
Qed.

Section Values.
Variables (O P : M3 R) (st st' : list (M3 R)) (E E' : @energy_obj R).
Hypothesis HO : rotation O.
Hypothesis HP : isometry P.
Hypothesis HR : Permutation (map (turn_item O P) (resolved st E)) (resolved st' E').
Hypothesis Hf : e_factor E' = e_factor E.
Hypothesis Hs : e_spins E' = e_spins E.
Hypothesis Hg : e_g E' = e_g E.

Lemma ferro_turned mu H a : e_ferro mu st' (set_field E' (option_map (mvec O) H)) (turn_arg O a) = e_ferro mu st (set_field E H) a.
Proof.
  unfold e_ferro. rewrite (check_turned O (set_field E H)) by exact Hs. destruct (check_spins _ a) as [rows|]; [|reflexivity]. cbn [obind].
  rewrite normalize_all_turned by exact HO. destruct (normalize_all rows) as [dirs|]; [|reflexivity]. cbn [obind].
  rewrite (zeeman_turned O mu E E' H dirs HO Hg).
  change (bonds_energy st' (set_field E' (option_map (mvec O) H))) with (bonds_energy st' E'). change (bonds_energy st (set_field E H)) with (bonds_energy st E).
  rewrite (energy_turned O P st st' E E' (fun _ J => J) (fun _ J => J)) by (assumption || reflexivity). reflexivity.
Qed.
Lemma cone_turned Cf mu H a n q : (forall K J c s, Cf (turned O K) (turned O J) c s = turned O (Cf K J c s)) ->
  cone_energy Cf mu st' (set_field E' (option_map (mvec O) H)) (turn_arg O a) (option_map (mvec O) n) (option_map (mvec P) q)
  = cone_energy Cf mu st (set_field E H) a n q.
Proof.
  intros HC. unfold cone_energy. destruct n as [n|]; [|reflexivity]. cbn [option_map check_vector obind]. destruct q as [q|]; [|reflexivity]. cbn [option_map check_vector obind].
  rewrite (check_turned O (set_field E H)) by exact Hs. destruct (check_spins _ a) as [rows|]; [|reflexivity]. cbn [obind].
  rewrite normalize_all_turned by exact HO. destruct (normalize_all rows) as [dirs|]; [|reflexivity]. cbn [obind].
  unfold normalize. rewrite norm_turned by exact HO. destruct (Req_EM_T (norm n) 0); [reflexivity|]. cbn [obind]. rewrite unit_turned by exact HO.
  rewrite cone_K_turned by exact HO. set (K := cone_K (Energy.unit n)).
  change (bonds_energy st' (set_field E' (option_map (mvec O) H))) with (bonds_energy st' E'). change (bonds_energy st (set_field E H)) with (bonds_energy st E).
  rewrite (energy_turned O P st st' E E' (fun d J => Cf K J (cos (dot q d)) (sin (dot q d)))).
  - destruct (bonds_energy _ _ _ _) as [x|]; [|reflexivity]. cbn [of_option obind]. f_equal. f_equal. rewrite <- (zeeman_turned O mu E E' H _ HO Hg). f_equal.
    unfold so_prime. rewrite !map_map. apply map_ext. intros v. rewrite <- (turned_mid O HO) at 1 2. rewrite <- turned_mul, <- !turned_add by exact HO.
    unfold turned. rewrite !mvec_mmul, rotation_back by exact HO. reflexivity.
  - exact HO.
  - exact HR.
  - exact Hf.
  - exact Hs.
  - intros d J. rewrite HP. apply HC.
Qed.
End Values.

(** ** Two constructions *)
Lemma rotated_keys O (w w' : world) : wf w -> wf w' -> rotated_parameters O w w' -> Permutation (bonds w) (bonds w') /\ Permutation (sites w) (sites w').
Proof.
  intros W W' (_ & Vb & Vo). split; apply NoDup_Permutation; try apply W; try apply W'.
  - intros k. rewrite (bond_value_stored w k W), (bond_value_stored w' k W'), Vb. destruct (bond_value w k); cbn [option_map]; split; intros [J E]; try discriminate; eauto.
  - intros a. rewrite (onsite_value_stored w a W), (onsite_value_stored w' a W'), Vo. destruct (onsite_value w a); cbn [option_map]; split; intros [J E]; try discriminate; eauto.
Qed.
Lemma mirrored_turned O (w w' : world) k : wf w -> wf w' -> rotated_parameters O w w' -> mirrored_value w' k = option_map (turned O) (mirrored_value w k).
Proof.
  intros W W' H. destruct (rotated_keys O w w' W W' H) as [Pb _]. destruct H as (_ & Vb & _). unfold mirrored_value.
  replace (dmem (h_exch (w_ham w')) (mirror k)) with (dmem (h_exch (w_ham w)) (mirror k)).
  - destruct (dmem _ _); rewrite Vb; [|reflexivity]. destruct (bond_value w (mirror k)); [|reflexivity]. cbn [option_map]. rewrite turned_trans. reflexivity.
  - destruct (dmem (h_exch (w_ham w)) (mirror k)) eqn:A, (dmem (h_exch (w_ham w')) (mirror k)) eqn:B; try reflexivity; exfalso.
    + apply dmem_key in A. apply dmem_key_false in B. apply B. apply (Permutation_in _ Pb), A.
    + apply dmem_key in B. apply dmem_key_false in A. apply A. apply (Permutation_in _ (Permutation_sym Pb)), B.
Qed.
Lemma lattice_turned P cell c : lattice_vector (turned_cell P cell) c = mvec P (lattice_vector (F := R) cell c).
Proof. unfold lattice_vector, turned_cell. destruct c as [[x y] z]. generalize (fZ (F := R) x) (fZ (F := R) y) (fZ (F := R) z). clear. intros x y z. destruct P, cell. r3. f_equal; ring. Qed.

Lemma carries_with (w : world) a : carries w a <-> with_parameter w a. Proof. reflexivity. Qed.

Lemma energies_rotated O P order order' g cell (w w' w1 w1' : world) E E' (dc sn sn' : bool) ef of_ : rotation O -> isometry P ->
  (forall l, Permutation (order l) l) -> (forall l, Permutation (order' l) l) ->
  wf w -> wf w' -> (if dc then mirror_closed w else unshared w /\ unshared w') ->
  notation_is w dc sn ef of_ -> notation_is w' dc sn' ef of_ -> of_ <> 0 ->
  (forall a, carries w a -> spin_of w a <> None) -> distinctly_indexed w -> rotated_parameters O w w' ->
  energy_init order g cell w = (w1, Ret E) -> energy_init order' g (turned_cell P cell) w' = (w1', Ret E') ->
  (forall mu H a, e_ferro mu (w_store w1') (set_field E' (option_map (mvec O) H)) (turn_arg O a) = e_ferro mu (w_store w1) (set_field E H) a) /\
  (forall mu H a n q, e_antiferro mu (w_store w1') (set_field E' (option_map (mvec O) H)) (turn_arg O a) (option_map (mvec O) n) (option_map (mvec P) q)
     = e_antiferro mu (w_store w1) (set_field E H) a n q) /\
  (forall mu H a n q, e_spiral mu (w_store w1') (set_field E' (option_map (mvec O) H)) (turn_arg O a) (option_map (mvec O) n) (option_map (mvec P) q)
     = e_spiral mu (w_store w1) (set_field E H) a n q).
Proof.
  intros HO HP Po Po' W W' Hd No No' Nz Sp Hi Rp H H'.
  destruct (rotated_keys O w w' W W' Rp) as [Pb Ps].
  assert (Cw : forall a, carries w' a <-> carries w a).
  { intros a. unfold carries. split; (intros [(k & I & J)|I]; [left; exists k; split; [|exact J]|right]).
    - apply (Permutation_in _ (Permutation_sym Pb)), I. - apply (Permutation_in _ (Permutation_sym Ps)), I.
    - apply (Permutation_in _ Pb), I. - apply (Permutation_in _ Ps), I. }
  assert (Sp' : forall a, carries w' a -> spin_of w' a <> None) by (intros a I; rewrite (proj1 Rp); apply Sp, Cw, I).
  destruct (init_atoms order w Po Sp) as (atoms & Ea & Sa). destruct (init_atoms order' w' Po' Sp') as (atoms' & Ea' & Sa').
  assert (atoms' = atoms) as -> by exact (same_atoms order order' w w' atoms atoms' Po Po' Cw Hi Ea Ea').
  destruct No as (N1 & N2 & N3 & N4). destruct No' as (N1' & N2' & N3' & N4').
  assert (Mc : dc = true -> mirror_closed w) by (intros ->; exact Hd). assert (Uu : dc = false -> unshared w /\ unshared w') by (intros ->; exact Hd).
  assert (Mc' : dc = true -> mirror_closed w').
  { intros X k I. apply (Permutation_in _ Pb), (Mc X), (Permutation_in _ (Permutation_sym Pb)), I. }
  destruct (@energy_init_ok R R_Scalar order g cell w atoms ef of_ dc Po W Mc (fun X => proj1 (Uu X)) N1 N3 N4 Nz Ea Sa) as (v1 & F1 & ro & re & X1 & G1 & B1 & _).
  destruct (@energy_init_ok R R_Scalar order' g (turned_cell P cell) w' atoms ef of_ dc Po' W' Mc' (fun X => proj2 (Uu X)) N1' N3' N4' Nz Ea' Sa') as (v1' & F1' & ro' & re' & X1' & G1' & B1' & _).
  rewrite H in X1. injection X1 as <- <-. rewrite H' in X1'. injection X1' as <- <-.
  destruct (magnetic_covers order w atoms Po Ea) as [Nat _].
  assert (HR : Permutation (map (turn_item O P) (resolved (w_store w1) E)) (resolved (w_store w1') E')).
  { etransitivity; [apply Permutation_map, (built_resolved _ _ _ _ _ _ _ _ _ Nat B1)|]. etransitivity; [|apply Permutation_sym, (built_resolved _ _ _ _ _ _ _ _ _ Nat B1')].
    transitivity (map (numbered atoms (turned_cell P cell)) (map (fun kv => (fst kv, option_map (turned O) (snd kv))) (site_items w ef of_ ++ pair_items w))).
    { match goal with |- Permutation ?a ?b => assert (a = b) as ->; [|reflexivity] end. rewrite !map_map. apply map_ext. intros [k m]. unfold numbered. cbn [fst snd turn_item]. rewrite lattice_turned. reflexivity. }
    apply Permutation_map. rewrite map_app. apply Permutation_app.
    - unfold site_items. rewrite map_map. cbn [fst snd]. etransitivity; [|apply Permutation_map, Ps].
      match goal with |- Permutation ?a ?b => assert (a = b) as ->; [|reflexivity] end. apply map_ext. intros a. rewrite (proj2 (proj2 Rp) a). destruct (onsite_value w a); [|reflexivity]. cbn [option_map]. rewrite turned_scale. reflexivity.
    - unfold pair_items. rewrite map_map. cbn [fst snd].
      transitivity (map (fun k => (k, mirrored_value w' k)) (nodup eq_dec (bonds w ++ map mirror (bonds w)))).
      + match goal with |- Permutation ?a ?b => assert (a = b) as ->; [|reflexivity] end. apply map_ext. intros k. rewrite (mirrored_turned O w w' k W W' Rp). reflexivity.
      + apply Permutation_map, NoDup_Permutation; [apply NoDup_nodup|apply NoDup_nodup|]. intros k. rewrite !nodup_In.
        assert (PP : Permutation (bonds w ++ map mirror (bonds w)) (bonds w' ++ map mirror (bonds w'))) by (apply Permutation_app; [exact Pb|apply Permutation_map, Pb]).
        split; apply Permutation_in; [exact PP|apply Permutation_sym, PP]. }
  assert (Hf : e_factor E' = e_factor E) by (rewrite (bu_factor _ _ _ _ _ _ _ _ _ B1), (bu_factor _ _ _ _ _ _ _ _ _ B1'); reflexivity).
  assert (Hs : e_spins E' = e_spins E).
  { assert (X := bu_spins _ _ _ _ _ _ _ _ _ B1). assert (X' := bu_spins _ _ _ _ _ _ _ _ _ B1'). rewrite (map_ext _ _ (proj1 Rp)), X in X'. clear - X'.
    revert X'. generalize (e_spins E) (e_spins E'). intros l. induction l as [|x l IH]; intros [|y l'] X; try discriminate; [reflexivity|]. injection X as -> X. f_equal. apply IH, X. }
  assert (Hg : e_g E' = e_g E) by congruence.
  splits; intros; [apply (ferro_turned O P)|unfold e_antiferro; apply cone_turned|unfold e_spiral; apply cone_turned]; auto; intros; [apply antiferro_turned|apply spiral_turned]; exact HO.
Qed.
