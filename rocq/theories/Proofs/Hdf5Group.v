(** HDF5 groups in declared units: the whole group. *)
From Coq Require Import String Ascii List Bool ZArith Arith Lia Ring Field Field_theory Ring_theory.
From Verif.Base Require Import Scalar Linear3 PyDict PyString PyText.
From Verif.Model Require Import MatrixParam Hamiltonian TxtVerify TxtRead Hdf5.
From Verif.Spec Require Import HamSpec TxtFormat Hdf5Spec AtomsSpec Hdf5Units.
From Verif.Proofs Require Import DictProofs HamBasics HamSetters HamDouble HistoryProofs CallProofs TextBasics SectionProofs TxtReadProofs LoadProofs Tb2jProofs Hdf5Files Hdf5Write Hdf5Read Hdf5Proofs Hdf5UnitsProofs.
Import ListNotations.

Section Group.
Context {F : Type} {SF : Scalar F}.
Variable X : externals F.
Add Field F_field : (@f_field F SF).
Notation node := (@node F).
Notation world := (@world F).
Notation spinham := (@spinham F).
Notation contents := (@contents F).
Local Open Scope fld_scope.

Definition to_meV (u : F) (m : M3 F) : M3 F := mscale (u / ENERGY X) m.
Lemma exchange_open (root : node) u l (w : world) : optional (in_units (all_members is_bond)) root "exchange" (Some (u, l)) ->
  exists k, Forall2 is_bond (map snd k) l
    /\ load_exchange X root w = match energy_units X u with Ret conv => for_each k (load_bond conv) w | Raise e => (w, Raise e) end.
Proof.
  intros H. pose proof (optional_has _ _ _ _ H) as E. destruct H as (n & M & U & a & k & -> & B). cbn [fst snd] in *. exists k. split; [exact B|].
  unfold load_exchange. rewrite E. cbn [is_some]. rewrite (bind_lift _ _ _ _ (proj2 (kid_member _ _ _) M)). apply unit_iff in U. rewrite U. cbn [obind].
  destruct (energy_units X u) as [conv|e]; reflexivity.
Qed.
Lemma on_site_open (root : node) u l (w : world) : optional (in_units (all_members is_site)) root "on-site" (Some (u, l)) ->
  exists k, Forall2 is_site (map snd k) l
    /\ load_on_site X root w = match energy_units X u with Ret conv => for_each k (load_site_parameter conv) w | Raise e => (w, Raise e) end.
Proof.
  intros H. pose proof (optional_has _ _ _ _ H) as E. destruct H as (n & M & U & a & k & -> & B). cbn [fst snd] in *. exists k. split; [exact B|].
  unfold load_on_site. rewrite E. cbn [is_some]. rewrite (bind_lift _ _ _ _ (proj2 (kid_member _ _ _) M)). apply unit_iff in U. rewrite U. cbn [obind].
  destruct (energy_units X u) as [conv|e]; reflexivity.
Qed.
Lemma exchange_stage (root : node) o (w w' : world) : Inv w -> names_ok w -> bonds w = [] ->
  optional (in_units (all_members is_bond)) root "exchange" o -> load_exchange X root w = (w', Ret tt) ->
  Inv w' /\ same_frame w w' /\ sites w' = sites w /\ (forall a, onsite_value w' a = onsite_value w a)
  /\ match o with
     | Some (u, l) => exists v, energy_named X u v /\ forall k, In (b_from k) (h_atoms (w_ham w)) -> In (b_to k) (h_atoms (w_ham w)) ->
         bond_value w' k = option_map (to_meV v) (written_bond (h_dc (w_ham w)) l k)
     | None => bonds w' = []
     end.
Proof.
  intros I N B O L. destruct o as [[u l]|].
  - destruct (exchange_open root u l w O) as (k & Hk & E). rewrite E in L. destruct (energy_units X u) as [conv|] eqn:Eu; [|discriminate].
    apply energy_iff in Eu as (v & Hv & ->). apply (load_bonds_items _ k l w w' Hk) in L.
    destruct (calls_effect w I B _ w' L) as (ks & K1 & K2 & K3 & K4 & K5 & K6 & K7); [rewrite Forall_map; apply Forall_forall; intros x _; discriminate|].
    split; [exact K3|]. split; [exact K4|]. split; [exact K7|]. split; [exact K6|]. exists v. split; [exact Hv|]. intros k0 I1 I2. rewrite K5.
    exact (items_value (h_atoms (w_ham w)) (v / ENERGY X) (h_dc (w_ham w)) N l ks K1 K2 k0 I1 I2).
  - unfold load_exchange in L. rewrite (optional_has _ _ _ _ O) in L. cbn in L. injection L as <-. split; [exact I|]. split; [apply same_frame_refl|]. auto.
Qed.
Lemma on_site_stage (root : node) o (w w' : world) : Inv w -> names_ok w -> sites w = [] ->
  optional (in_units (all_members is_site)) root "on-site" o -> load_on_site X root w = (w', Ret tt) ->
  Inv w' /\ same_frame w w' /\ bonds w' = bonds w /\ (forall k, bond_value w' k = bond_value w k)
  /\ match o with
     | Some (u, l) => exists v, energy_named X u v /\ forall a, In a (h_atoms (w_ham w)) -> onsite_value w' a = option_map (to_meV v) (last_entry (a_name a) l)
     | None => sites w' = []
     end.
Proof.
  intros I N B O L. assert (V0 : forall a, onsite_value w a = None).
  { intros a. unfold onsite_value. apply sites_nil in B. rewrite B. reflexivity. } destruct o as [[u l]|].
  - destruct (on_site_open root u l w O) as (k & Hk & E). rewrite E in L. destruct (energy_units X u) as [conv|] eqn:Eu; [|discriminate].
    apply energy_iff in Eu as (v & Hv & ->). apply (load_sites_items _ k l w w' Hk) in L.
    destruct (os_effect _ w I N l w' L) as (K1 & K2 & K3 & K4 & K5).
    split; [exact K1|]. split; [exact K2|]. split; [exact K4|]. split; [exact K3|]. exists v. split; [exact Hv|]. intros a Ia. rewrite K5, V0 by exact Ia.
    destruct (last_entry (a_name a) l); reflexivity.
  - unfold load_on_site in L. rewrite (optional_has _ _ _ _ O) in L. cbn in L. injection L as <-. split; [exact I|]. split; [apply same_frame_refl|]. auto.
Qed.
Lemma spiral_open (root : node) cell u q : optional (in_units is_vector) root "spiral-vector" (Some (u, q)) ->
  load_spiral X cell root = (if String.eqb (str_lower u) "absolute" then
      obind (of_option LinAlgError (x_reciprocal X cell)) (fun r => obind (of_option LinAlgError (x_abs_to_rel X r q)) (fun q' => Ret (Some q')))
    else if String.eqb (str_lower u) "relative" then Ret (Some q) else Raise ValueError).
Proof.
  intros H. pose proof (optional_has _ _ _ _ H) as E. destruct H as (n & M & U & V). cbn [fst snd] in *. unfold load_spiral. rewrite E. cbn [is_some].
  apply kid_member in M. rewrite M. cbn [obind]. apply vector_iff in V. rewrite V. cbn [obind]. apply unit_iff in U. rewrite U. reflexivity.
Qed.
Lemma cone_open (root : node) cell u v : optional (in_units is_vector) root "cone-axis" (Some (u, v)) ->
  load_cone X cell root = obind (if String.eqb (str_lower u) "relative" then Ret (vmat v cell) else if String.eqb (str_lower u) "absolute" then Ret v else Raise ValueError)
    (fun v' => obind (set_cone_axis X (vlist v')) (fun c => Ret (Some c))).
Proof.
  intros H. pose proof (optional_has _ _ _ _ H) as E. destruct H as (n & M & U & V). cbn [fst snd] in *. unfold load_cone. rewrite E. cbn [is_some].
  apply kid_member in M. rewrite M. cbn [obind]. apply vector_iff in V. rewrite V. cbn [obind]. apply unit_iff in U. rewrite U. reflexivity.
Qed.
Lemma cone_value (v : V3 F) c : set_cone_axis X (vlist v) = Ret c -> vscale (x_norm X v) c = v /\ x_norm X v <> f0.
Proof.
  destruct v as [a b d]. unfold set_cone_axis, vlist. cbn [vx vy vz]. destruct (x_close0 X (mkV a b d)); [discriminate|]. destruct (feq_dec _ _) as [|N]; [discriminate|].
  intros [= <-]. split; [|exact N]. generalize dependent (x_norm X (mkV a b d)). intros n N. lin3. f_equal; field; exact N.
Qed.

(** ** What an accepted group means *)
Lemma run_out_inv (m : @M F unit) (w w' : world) : run_out m w = Ret w' -> m w = (w', Ret tt).
Proof. unfold run_out. destruct (m w) as [w1 [[]|e]]; [intros [= ->]; reflexivity|discriminate]. Qed.
Lemma in_meV_of (u : F) o o' : ENERGY X <> f0 -> o = option_map (to_meV u) o' -> in_meV X u o o'.
Proof. intros N ->. unfold in_meV, to_meV, meV. destruct o' as [m|]; [|reflexivity]. cbn [option_map]. f_equal. apply unit_cancel; exact N. Qed.
Lemma meaning (root : node) (c : contents) (s : spinham) : units_defined X -> (forall cell v p, x_abs_to_rel X cell v = Some p -> vmat p cell = v) ->
  NoDup (map ai_name (co_atoms c)) -> describes root c -> load_group X root = Ret s -> means X c s.
Proof.
  intros (UL & UE) Hrel ND (D1 & D2 & D3 & D4 & D5 & D6 & D7) L. unfold load_group in L.
  apply obind_ret in L as (cell & Lc & L). apply obind_ret in L as (ka & La & L). apply obind_ret in L as (sites_ & Ls & L).
  apply obind_ret in L as (w1 & L1 & L). apply obind_ret in L as (w2 & L2 & L). apply obind_ret in L as (w3 & L3 & L).
  apply obind_ret in L as (sp & Lsp & L). apply obind_ret in L as (co & Lco & [= <-]).
  apply run_out_inv in L1, L2, L3.
  (* lattice *)
  assert (Ml : exists u, length_named X (co_length c) u /\ mscale (c_angstrom X) cell = mscale u (co_rows c)).
  { destruct D1 as (n & Hn & Hl). assert (W : with_member is_lattice root "cell" (co_length c, co_rows c)) by (exists n; auto).
    destruct (starts_with "bohr" (str_lower (co_length c))) eqn:Eb.
    - assert (K : length_named X (co_length c) (c_bohr_radius X)) by (left; split; [apply starts_iff, Eb|reflexivity]).
      exists (c_bohr_radius X). split; [exact K|]. rewrite (load_cell_unit X root _ _ _ W K) in Lc. injection Lc as <-. apply unit_cancel, UL.
    - destruct (starts_with "angstrom" (str_lower (co_length c))) eqn:Ea.
      + assert (K : length_named X (co_length c) (c_angstrom X)) by (right; split; [apply starts_iff, Ea|reflexivity]).
        exists (c_angstrom X). split; [exact K|]. rewrite (load_cell_unit X root _ _ _ W K) in Lc. injection Lc as <-. apply unit_cancel, UL.
      + exfalso. rewrite (load_cell_iff X root _ _ W), Eb, Ea in Lc. apply obind_ret in Lc as (? & _ & Lc). apply obind_ret in Lc as (? & _ & [=]). }
  (* atoms *)
  assert (Ms : sites_ = as_sites 0 (co_atoms c)).
  { destruct D2 as (n & Hn & a & k & -> & Hk). apply kid_member in Hn. rewrite Hn in La. cbn in La. injection La as <-. eapply load_atoms_named; eauto. }
  subst sites_. set (st := as_sites 0 (co_atoms c)) in *.
  assert (Na : NoDup (map a_name (map st_atom st))) by (unfold st; rewrite as_sites_names; exact ND).
  (* notation *)
  unfold crystal in L1. rewrite (notation_read root c [] (new_ham (map st_atom st) (flat_map (length_of_spin X) st)) D7 (optional_has _ _ _ _ D3) (optional_has _ _ _ _ D4) eq_refl eq_refl) in L1. injection L1 as <-.
  set (h0 := new_ham (map st_atom st) (flat_map (length_of_spin X) st)) in *.
  destruct (said_values c h0 eq_refl eq_refl eq_refl eq_refl) as (V1 & V2 & V3 & V4). destruct (noted_rest (said c) h0) as (R1 & R2 & R3 & R4).
  set (w1 := mkW [] (noted (said c) h0)) in *.
  assert (A1 : h_atoms (w_ham w1) = map st_atom st) by exact R3.
  assert (I1 : Inv w1) by (apply Inv_start; [exact R1|exact R2]).
  assert (N1 : names_ok w1) by (unfold names_ok; rewrite A1; exact Na).
  destruct (exchange_stage root _ w1 w2 I1 N1 (proj2 (bonds_nil w1) R1) D3 L2) as (I2 & F2 & S2 & O2 & X2).
  pose proof F2 as (Fa2 & _). assert (N2 : names_ok w2) by (unfold names_ok; rewrite Fa2; exact N1).
  assert (S2' : sites w2 = []) by (rewrite S2; apply sites_nil, R2).
  destruct (on_site_stage root _ w2 w3 I2 N2 S2' D4 L3) as (I3 & F3 & B3 & E3 & X3).
  pose proof (same_frame_trans _ _ _ F2 F3) as (G1 & G2 & G3 & G4 & G5 & G6).
  split; [exact Ml|]. split; [split; cbn [sh_sites]; [apply as_sites_facts|unfold numbered_from_one, st; rewrite as_sites_index, as_sites_length; reflexivity]|].
  split; [split; [cbn [sh_ham sh_sites]; unfold Hdf5Spec.atoms_of; cbn [sh_sites]; rewrite G1; exact A1|exact I3]|].
  split; [unfold notation_means; cbn [sh_ham]; rewrite G3, G4, G5, G6; cbn [w1 w_ham]; auto|].
  split; [|split; [|split]].
  - unfold exchange_means. cbn [sh_ham]. destruct (co_exchange c) as [[u l]|]; [|congruence]. destruct X2 as (v & Hv & K). exists v. split; [exact Hv|].
    intros k Ik1 Ik2. apply in_meV_of; [exact UE|]. rewrite E3. unfold Hdf5Spec.atoms_of in Ik1, Ik2. cbn [sh_sites] in Ik1, Ik2. rewrite K by (rewrite A1; assumption). cbn [w1 w_ham]. rewrite V1. reflexivity.
  - unfold on_site_means. cbn [sh_ham]. destruct (co_on_site c) as [[u l]|]; [|exact X3]. destruct X3 as (v & Hv & K). exists v. split; [exact Hv|].
    intros a Ia. apply in_meV_of; [exact UE|]. apply K. rewrite Fa2, A1. exact Ia.
  - unfold spiral_means. cbn [sh_spiral sh_cell]. destruct (co_spiral c) as [[u q]|].
    + rewrite (spiral_open root cell u q D5) in Lsp. destruct (String.eqb_spec (str_lower u) "absolute") as [Ea|_].
      * apply obind_ret in Lsp as (r & Hr & Lsp). apply obind_ret in Lsp as (q' & Hq & [= <-]). exists q'. split; [reflexivity|]. right. split; [exact Ea|]. exists r.
        destruct (x_reciprocal X cell); [|discriminate]. injection Hr as ->. split; [reflexivity|]. destruct (x_abs_to_rel X r q) eqn:Eq; [|discriminate]. injection Hq as ->. apply Hrel, Eq.
      * destruct (String.eqb_spec (str_lower u) "relative") as [Er|_]; [|discriminate]. injection Lsp as <-. exists q. auto.
    + unfold load_spiral in Lsp. rewrite (optional_has _ _ _ _ D5) in Lsp. cbn in Lsp. congruence.
  - unfold cone_means. cbn [sh_cone sh_cell]. destruct (co_cone c) as [[u v]|].
    + rewrite (cone_open root cell u v D6) in Lco. apply obind_ret in Lco as (v' & Hv & Lco). apply obind_ret in Lco as (n & Hn & [= <-]). destruct (cone_value v' n Hn) as [C1 C2].
      exists n, v'. split; [reflexivity|]. split; [exact C1|]. split; [exact C2|].
      destruct (String.eqb_spec (str_lower u) "relative") as [Er|_]; [injection Hv as <-; auto|]. destruct (String.eqb_spec (str_lower u) "absolute") as [Ea|_]; [injection Hv as <-; auto|discriminate].
    + unfold load_cone in Lco. rewrite (optional_has _ _ _ _ D6) in Lco. cbn in Lco. congruence.
Qed.

(** ** Every accepted group is of the format *)
Lemma exchange_read (root : node) a k (w w' : world) : root = Grp a k -> load_exchange X root w = (w', Ret tt) ->
  exists o, optional (in_units (all_members is_bond)) root "exchange" o.
Proof.
  intros Er L. unfold load_exchange in L. destruct (Hdf5.has root "exchange") eqn:E; [|exists None; subst root; apply has_absent, E].
  apply bind_inv in L as (w1 & g & H1 & L). apply lift_inv in H1 as [-> H1]. apply bind_inv in L as (w2 & conv & H2 & L). apply lift_inv in H2 as [-> H2].
  apply obind_ret in H2 as (u & H2 & _). apply bind_inv in L as (w3 & l & H3 & L). apply lift_inv in H3 as [-> H3].
  destruct g as [|ga gk]; [discriminate|]. injection H3 as <-. destruct (load_bonds_inv _ _ _ _ L) as [items Hi].
  exists (Some (u, items)). exists (Grp ga gk). split; [apply kid_member, H1|]. split; [apply unit_iff, H2|]. exists ga, gk. auto.
Qed.
Lemma on_site_read (root : node) a k (w w' : world) : root = Grp a k -> load_on_site X root w = (w', Ret tt) ->
  exists o, optional (in_units (all_members is_site)) root "on-site" o.
Proof.
  intros Er L. unfold load_on_site in L. destruct (Hdf5.has root "on-site") eqn:E; [|exists None; subst root; apply has_absent, E].
  apply bind_inv in L as (w1 & g & H1 & L). apply lift_inv in H1 as [-> H1]. apply bind_inv in L as (w2 & conv & H2 & L). apply lift_inv in H2 as [-> H2].
  apply obind_ret in H2 as (u & H2 & _). apply bind_inv in L as (w3 & l & H3 & L). apply lift_inv in H3 as [-> H3].
  destruct g as [|ga gk]; [discriminate|]. injection H3 as <-. destruct (load_sites_inv _ _ _ _ L) as [items Hi].
  exists (Some (u, items)). exists (Grp ga gk). split; [apply kid_member, H1|]. split; [apply unit_iff, H2|]. exists ga, gk. auto.
Qed.
Lemma described (root : node) (s : spinham) : load_group X root = Ret s -> exists c, describes root c.
Proof.
  intros L. unfold load_group in L.
  apply obind_ret in L as (cell & Lc & L). apply obind_ret in L as (ka & La & L). apply obind_ret in L as (sites_ & Ls & L).
  apply obind_ret in L as (w1 & L1 & L). apply obind_ret in L as (w2 & L2 & L). apply obind_ret in L as (w3 & L3 & L).
  apply obind_ret in L as (sp & Lsp & L). apply obind_ret in L as (co & Lco & _). apply run_out_inv in L1, L2, L3.
  destruct (load_cell_inv X root cell Lc) as (lu & m & Hl & _).
  assert (Er : exists a k, root = Grp a k) by (destruct Hl as (n & (a & k & -> & _) & _); eauto). destruct Er as (ra & rk & Er).
  apply obind_ret in La as (an & Ka & Ma). destruct an as [|aa ak]; [discriminate|]. injection Ma as <-. destruct (load_atoms_inv _ _ _ Ls) as (al & Ha & _).
  destruct (exchange_read root ra rk _ _ Er L2) as [oe He]. destruct (on_site_read root ra rk _ _ Er L3) as [oo Ho].
  assert (Hs : exists o, optional (in_units is_vector) root "spiral-vector" o).
  { unfold load_spiral in Lsp. destruct (Hdf5.has root "spiral-vector") eqn:E; [|exists None; rewrite Er in *; apply has_absent, E].
    apply obind_ret in Lsp as (n & Kn & Lsp). apply obind_ret in Lsp as (q & Kq & Lsp). apply obind_ret in Lsp as (u & Ku & _).
    exists (Some (u, q)), n. split; [apply kid_member, Kn|]. split; [apply unit_iff, Ku|apply vector_iff, Kq]. } destruct Hs as [os Hs].
  assert (Hc : exists o, optional (in_units is_vector) root "cone-axis" o).
  { unfold load_cone in Lco. destruct (Hdf5.has root "cone-axis") eqn:E; [|exists None; rewrite Er in *; apply has_absent, E].
    apply obind_ret in Lco as (n & Kn & Lco). apply obind_ret in Lco as (q & Kq & Lco). apply obind_ret in Lco as (u & Ku & _).
    exists (Some (u, q)), n. split; [apply kid_member, Kn|]. split; [apply unit_iff, Ku|apply vector_iff, Kq]. } destruct Hc as [oc Hc].
  assert (Hn : exists sn dc ef of_, is_notation root (mkContents lu m al sn dc ef of_ oe oo os oc)).
  { pose proof (setter_notation root _ _ L1) as K. rewrite (optional_has _ _ _ _ He), (optional_has _ _ _ _ Ho) in K. unfold is_notation. cbn [co_exchange co_on_site co_sn co_dc co_ef co_of].
    destruct oe as [xe|], oo as [xo|]; cbn [is_some orb] in *.
    - destruct K as (n & Kn & (sn & Ks) & Ke & Ko). destruct (Ke eq_refl) as ((dc & Kd) & (ef & Kf)). destruct (Ko eq_refl) as (of_ & Kof).
      exists (Some sn), (Some dc), (Some ef), (Some of_), n. split; [exact Kn|]. repeat split; eauto.
    - destruct K as (n & Kn & (sn & Ks) & Ke & Ko). destruct (Ke eq_refl) as ((dc & Kd) & (ef & Kf)).
      exists (Some sn), (Some dc), (Some ef), None, n. split; [exact Kn|]. repeat split; eauto.
    - destruct K as (n & Kn & (sn & Ks) & Ke & Ko). destruct (Ko eq_refl) as (of_ & Kof).
      exists (Some sn), None, None, (Some of_), n. split; [exact Kn|]. repeat split; eauto.
    - exists None, None, None, None. auto. }
  destruct Hn as (sn & dc & ef & of_ & Hn). exists (mkContents lu m al sn dc ef of_ oe oo os oc).
  split; [exact Hl|]. split; [exists (Grp aa ak); split; [apply kid_member, Ka|exists aa, ak; auto]|]. auto 10.
Qed.

(** ** Good contents are accepted, bad units are not *)
Lemma named_atoms (st : list (@site F)) (l : list (@atom_item F)) n : st = as_sites 0 l -> In n (map ai_name l) -> exists a, In a (map st_atom st) /\ a_name a = n.
Proof. intros -> H. rewrite <- (as_sites_names l 0) in H. apply in_map_iff in H. destruct H as (a & E & I). eauto. Qed.
Lemma group_start (root : node) (c : contents) v : describes root c -> names_told_apart c -> length_named X (co_length c) v ->
  exists w1, Inv w1 /\ names_ok w1 /\ bonds w1 = [] /\ sites w1 = [] /\ h_atoms (w_ham w1) = map st_atom (as_sites 0 (co_atoms c))
  /\ load_group X root = obind (run_out (load_exchange X root) w1) (fun w2 => obind (run_out (load_on_site X root) w2) (fun w3 =>
       obind (load_spiral X (mscale (v / LENGTH X) (co_rows c)) root) (fun spiral => obind (load_cone X (mscale (v / LENGTH X) (co_rows c)) root) (fun cone =>
       Ret (mkSH (mscale (v / LENGTH X) (co_rows c)) (as_sites 0 (co_atoms c)) w3 spiral cone))))).
Proof.
  intros (D1 & D2 & D3 & D4 & D5 & D6 & D7) (ND & NE) Hv. unfold load_group. rewrite (load_cell_unit X root _ _ _ D1 Hv). cbn [obind].
  destruct D2 as (n & Hn & a & k & -> & Hk). apply kid_member in Hn. rewrite Hn. cbn [obind members]. rewrite (load_atoms_items _ _ _ Hk NE). cbn [obind].
  set (st := as_sites 0 (co_atoms c)). unfold crystal. set (h0 := new_ham (map st_atom st) (flat_map (length_of_spin X) st)).
  pose proof (notation_read root c [] h0 D7 (optional_has _ _ _ _ D3) (optional_has _ _ _ _ D4) eq_refl eq_refl) as L1.
  destruct (noted_rest (said c) h0) as (R1 & R2 & R3 & R4). set (w1 := mkW [] (noted (said c) h0)) in *.
  exists w1. split; [apply Inv_start; [exact R1|exact R2]|]. split; [unfold names_ok, w1; cbn [w_ham]; rewrite R3; cbn; unfold st; rewrite as_sites_names; exact ND|].
  split; [apply bonds_nil, R1|]. split; [apply sites_nil, R2|]. split; [exact R3|]. rewrite (run_out_ret _ _ _ _ L1). reflexivity.
Qed.
Lemma exchange_total (root : node) (c : contents) (w : world) : Inv w -> names_ok w -> h_atoms (w_ham w) = map st_atom (as_sites 0 (co_atoms c)) ->
  optional (in_units (all_members is_bond)) root "exchange" (co_exchange c) -> names_known c -> (forall u l, co_exchange c = Some (u, l) -> known_energy X u) ->
  exists w2, load_exchange X root w = (w2, Ret tt).
Proof.
  intros I N A D (K & _) U. destruct (co_exchange c) as [[u l]|] eqn:E.
  - destruct (exchange_open root u l w D) as (k & Hk & ->). destruct (U u l eq_refl) as (v & Hv). rewrite (proj2 (energy_iff X u (v / ENERGY X)) (ex_intro _ v (conj Hv eq_refl))).
    destruct (calls_total w I N (map (item_call (v / ENERGY X)) l)) as [w2 E2].
    { rewrite Forall_map. eapply Forall_impl; [|exact (K u l eq_refl)]. intros x [H1 H2]. cbn. rewrite A. repeat split; [| |discriminate]; eapply named_atoms; eauto. }
    exists w2. apply (load_bonds_items _ k l w w2 Hk), E2.
  - exists w. unfold load_exchange. rewrite (optional_has _ _ _ _ D). reflexivity.
Qed.
Lemma on_site_total (root : node) (c : contents) (w : world) : Inv w -> names_ok w -> h_atoms (w_ham w) = map st_atom (as_sites 0 (co_atoms c)) ->
  optional (in_units (all_members is_site)) root "on-site" (co_on_site c) -> names_known c -> (forall u l, co_on_site c = Some (u, l) -> known_energy X u) ->
  exists w2, load_on_site X root w = (w2, Ret tt).
Proof.
  intros I N A D (_ & K) U. destruct (co_on_site c) as [[u l]|] eqn:E.
  - destruct (on_site_open root u l w D) as (k & Hk & ->). destruct (U u l eq_refl) as (v & Hv). rewrite (proj2 (energy_iff X u (v / ENERGY X)) (ex_intro _ v (conj Hv eq_refl))).
    destruct (os_calls_total (v / ENERGY X) w I N l) as [w2 E2].
    { eapply Forall_impl; [|exact (K u l eq_refl)]. intros x H. rewrite A. eapply named_atoms; eauto. }
    exists w2. apply (load_sites_items _ k l w w2 Hk), E2.
  - exists w. unfold load_on_site. rewrite (optional_has _ _ _ _ D). reflexivity.
Qed.
Lemma accepted (root : node) (c : contents) : sane X -> units_defined X -> describes root c -> names_told_apart c -> names_known c -> units_known X c ->
  proper_axis X c -> proper_spiral X c -> exists s, load_group X root = Ret s.
Proof.
  intros SX (UL & _) D NT NK ((v & Hv) & Ue & Uo & Us & Uc) PA PS. destruct (group_start root c v D NT Hv) as (w1 & I1 & N1 & B1 & S1 & A1 & E). rewrite E.
  destruct D as (D1 & D2 & D3 & D4 & D5 & D6 & D7). set (cell := mscale (v / LENGTH X) (co_rows c)).
  assert (Ec : mscale (c_angstrom X) cell = mscale v (co_rows c)) by (apply unit_cancel, UL).
  destruct (exchange_total root c w1 I1 N1 A1 D3 NK Ue) as [w2 E2]. destruct (exchange_stage root _ w1 w2 I1 N1 B1 D3 E2) as (I2 & (Fa & _) & _).
  destruct (on_site_total root c w2 I2) as [w3 E3]; [unfold names_ok; rewrite Fa; exact N1|congruence|exact D4|exact NK|exact Uo|].
  rewrite (run_out_ret _ _ _ _ E2). cbn [obind]. rewrite (run_out_ret _ _ _ _ E3). cbn [obind].
  assert (Es : exists o, load_spiral X cell root = Ret o).
  { destruct (co_spiral c) as [[u q]|] eqn:Eq; [|exists None; unfold load_spiral; rewrite (optional_has _ _ _ _ D5); reflexivity]. rewrite (spiral_open root cell u q D5).
    destruct (String.eqb_spec (str_lower u) "absolute") as [Ea|Na].
    - destruct (PS u q Eq Ea cell v Hv Ec) as (r & q' & -> & K). cbn [obind of_option]. rewrite K. cbn. eauto.
    - destruct (Us u q eq_refl) as [Er|Ea]; [|contradiction]. rewrite Er. cbn. eauto. }
  destruct Es as [sp ->]. cbn [obind].
  assert (Ek : exists o, load_cone X cell root = Ret o).
  { destruct (co_cone c) as [[u q]|] eqn:Eq; [|exists None; unfold load_cone; rewrite (optional_has _ _ _ _ D6); reflexivity]. rewrite (cone_open root cell u q D6).
    assert (Set_ : forall y, x_close0 X y = false -> exists z, set_cone_axis X (vlist y) = Ret z).
    { intros [y1 y2 y3] Hy. unfold set_cone_axis, vlist. cbn [vx vy vz]. rewrite Hy. destruct (feq_dec _ _) as [Z|]; [|eauto]. apply (sane_norm X SX) in Z. rewrite Z, (sane_zero X SX) in Hy. discriminate. }
    destruct (PA u q Eq) as [P1 P2].
    destruct (String.eqb_spec (str_lower u) "relative") as [Er|Nr].
    - destruct (Set_ _ (P2 Er cell v Hv Ec)) as [z Hz]. cbn [obind]. rewrite Hz. cbn. eauto.
    - destruct (Uc u q eq_refl) as [Er|Ea]; [contradiction|]. rewrite Ea. cbn [String.eqb Ascii.eqb Bool.eqb obind]. destruct (Set_ _ (P1 Ea)) as [z Hz]. rewrite Hz. cbn. eauto. }
  destruct Ek as [ck ->]. cbn. eauto.
Qed.
Lemma bad_length (root : node) (c : contents) n : describes root c -> ~ known_length X (co_length c) -> member root "cell" n ->
  (Hdf5Units.absent n "units" -> load_group X root = Raise KeyError) /\ (forall m, member n "units" m -> load_group X root = Raise UnboundLocalError).
Proof.
  intros (D1 & _) K Hn. unfold load_group. rewrite (load_cell_unknown X root _ _ n D1 K Hn). split.
  - intros (a & l & -> & E). unfold kid. rewrite E. reflexivity.
  - intros m H. apply kid_member in H. rewrite H. reflexivity.
Qed.
Lemma bad_exchange (root : node) (c : contents) u l : describes root c -> names_told_apart c -> known_length X (co_length c) ->
  co_exchange c = Some (u, l) -> ~ known_energy X u -> load_group X root = Raise ValueError.
Proof.
  intros D NT (v & Hv) E K. destruct (group_start root c v D NT Hv) as (w1 & _ & _ & _ & _ & _ & ->). destruct D as (_ & _ & D3 & _). rewrite E in D3.
  destruct (exchange_open root u l w1 D3) as (k & _ & Eq). unfold run_out at 1. rewrite Eq, (energy_error X u K). reflexivity.
Qed.
Lemma bad_on_site (root : node) (c : contents) u l : describes root c -> names_told_apart c -> names_known c -> known_length X (co_length c) ->
  (forall u' l', co_exchange c = Some (u', l') -> known_energy X u') ->
  co_on_site c = Some (u, l) -> ~ known_energy X u -> load_group X root = Raise ValueError.
Proof.
  intros D NT NK (v & Hv) Ue E K. destruct (group_start root c v D NT Hv) as (w1 & I1 & N1 & _ & _ & A1 & ->). destruct D as (_ & _ & D3 & D4 & _). rewrite E in D4.
  destruct (exchange_total root c w1 I1 N1 A1 D3 NK Ue) as [w2 E2]. rewrite (run_out_ret _ _ _ _ E2). cbn [obind].
  destruct (on_site_open root u l w2 D4) as (k & _ & Eq). unfold run_out at 1. rewrite Eq, (energy_error X u K). reflexivity.
Qed.

(** ** Of files *)
Lemma load_at (file root : node) p : lookup file p = Some root -> load X (Some p) file = load_group X root.
Proof. intros E. unfold load. cbn [obind]. rewrite E. reflexivity. Qed.
Lemma file_described (file root : node) p (s : spinham) : lookup file p = Some root -> load X (Some p) file = Ret s -> exists c, describes root c.
Proof. intros E L. rewrite (load_at _ _ _ E) in L. exact (described root s L). Qed.
Lemma file_means (file root : node) p (c : contents) (s : spinham) : units_defined X -> (forall cell v q, x_abs_to_rel X cell v = Some q -> vmat q cell = v) ->
  NoDup (map ai_name (co_atoms c)) -> lookup file p = Some root -> describes root c -> load X (Some p) file = Ret s -> means X c s.
Proof. intros U H N E D L. rewrite (load_at _ _ _ E) in L. exact (meaning root c s U H N D L). Qed.
Lemma file_accepted (file root : node) p (c : contents) : sane X -> units_defined X -> lookup file p = Some root -> describes root c ->
  names_told_apart c -> names_known c -> units_known X c -> proper_axis X c -> proper_spiral X c -> exists s, load X (Some p) file = Ret s.
Proof. intros. rewrite (load_at _ _ _ H1). eapply accepted; eauto. Qed.
Lemma file_bad_length (file root : node) p (c : contents) n : lookup file p = Some root -> describes root c -> ~ known_length X (co_length c) -> member root "cell" n ->
  (Hdf5Units.absent n "units" -> load X (Some p) file = Raise KeyError) /\ (forall m, member n "units" m -> load X (Some p) file = Raise UnboundLocalError).
Proof. intros E. rewrite (load_at _ _ _ E). apply bad_length. Qed.
Lemma file_bad_exchange (file root : node) p (c : contents) u l : lookup file p = Some root -> describes root c -> names_told_apart c -> known_length X (co_length c) ->
  co_exchange c = Some (u, l) -> ~ known_energy X u -> load X (Some p) file = Raise ValueError.
Proof. intros E. rewrite (load_at _ _ _ E). apply bad_exchange. Qed.
Lemma file_bad_on_site (file root : node) p (c : contents) u l : lookup file p = Some root -> describes root c -> names_told_apart c -> names_known c ->
  known_length X (co_length c) -> (forall u' l', co_exchange c = Some (u', l') -> known_energy X u') ->
  co_on_site c = Some (u, l) -> ~ known_energy X u -> load X (Some p) file = Raise ValueError.
Proof. intros E. rewrite (load_at _ _ _ E). apply bad_on_site. Qed.
End Group.
