(** C46: dump and load. *)
From Coq Require Import String Ascii List Bool ZArith Arith Lia Permutation Sorting.Sorted Ring Field Field_theory Ring_theory.
From Verif.Base Require Import Scalar Linear3 PyDict PyString PyText.
From Verif.Model Require Import MatrixParam Hamiltonian TxtVerify TxtRead Hdf5.
From Verif.Spec Require Import HamSpec TxtFormat Hdf5Spec.
From Verif.Proofs Require Import DictProofs HamBasics HamSetters HamDouble HistoryProofs CallProofs TextBasics SectionProofs TxtReadProofs LoadProofs Tb2jProofs Hdf5Files Hdf5Write Hdf5Read.
Import ListNotations.

Section Main.
Context {F : Type} {SF : Scalar F}.
Variable X : externals F.
Add Field F_field : (@f_field F SF).
Notation node := (@node F).
Notation world := (@world F).
Notation site := (@site F).
Notation spinham := (@spinham F).
Local Open Scope fld_scope.
Notation atoms_of := Hdf5Spec.atoms_of.

Lemma one_nz : (1 : F) <> 0.
Proof. apply (@F_1_neq_0 _ _ _ _ _ _ _ _ _ _ (@f_field F SF)). Qed.
Lemma scale_one m : mscale 1 m = m.
Proof. destruct m. unfold mscale, mmap. cbn. f_equal; ring. Qed.
Lemma load_cell_ok s L : units_defined X -> load_cell X (written s L) = Ret (sh_cell s).
Proof.
  intros [U _]. unfold load_cell. rewrite kid_cell. destruct (sh_cell s) as [a b c d e f g h i].
  transitivity (Ret (mscale (c_angstrom X / LENGTH X) (mkM a b c d e f g h i))); [reflexivity|].
  assert (E : c_angstrom X / LENGTH X = 1) by (unfold LENGTH; field; exact U). rewrite E, scale_one. reflexivity.
Qed.
Lemma units_ok : units_defined X -> energy_units X "milli-electron-Volt" = Ret 1.
Proof.
  intros [_ U]. transitivity (Ret (c_milli X * c_electron_volt X / ENERGY X)); [reflexivity|]. f_equal. unfold ENERGY. revert U. generalize (c_milli X * c_electron_volt X). intros x U. field. exact U.
Qed.
Lemma spiral_ok s L : load_spiral X (sh_cell s) (written s L) = Ret (sh_spiral s).
Proof.
  unfold load_spiral. rewrite has_spiral. destruct (sh_spiral s) as [q|] eqn:E; [|reflexivity]. rewrite (kid_spiral s L q E). destruct q. reflexivity.
Qed.
Lemma cone_ok s L : unit_axis X s -> load_cone X (sh_cell s) (written s L) = Ret (sh_cone s).
Proof.
  intros U. unfold load_cone. rewrite has_cone. destruct (sh_cone s) as [n|] eqn:E; [|reflexivity]. rewrite (kid_cone s L n E). destruct (U n E) as [U1 U2].
  destruct n as [a b c].
  transitivity (obind (set_cone_axis X [a; b; c]) (fun c => Ret (Some c))); [reflexivity|]. unfold set_cone_axis. rewrite U2, U1.
  destruct (feq_dec 1 0) as [E1|_]; [exfalso; exact (one_nz E1)|]. cbn. f_equal. f_equal. unfold vscale, vmap. cbn. f_equal; field; exact one_nz.
Qed.


(** ** The loaded Hamiltonian *)
Lemma run_out_ret {A} (m : M A) (w w' : world) a : m w = (w', Ret a) -> run_out m w = Ret w'.
Proof. unfold run_out. intros ->. reflexivity. Qed.
Lemma crystal_atoms l : h_atoms (w_ham (crystal X l)) = map st_atom l.
Proof. reflexivity. Qed.
Lemma Inv_start st (h : @ham F) : h_exch h = [] -> h_ons h = [] -> Inv (mkW st h).
Proof.
  intros E O. unfold Inv, wf, mirror_closed, bonds, sites. cbn [w_ham w_store]. rewrite E, O. cbn.
  split; [|intros _ k []]. repeat split; try constructor; intros; contradiction.
Qed.
Lemma matrix_at (w : world) l : (l < List.length (w_store w))%nat -> nth_error (w_store w) l = Some (matrix_of w l).
Proof. intros H. unfold matrix_of. apply nth_error_nth'. exact H. Qed.
Lemma dget_some_In {K V} `{EqDec K} (d : dict K V) k v : dget d k = Some v -> In (k, v) d.
Proof. induction d as [|[k' v'] d IH]; cbn; [discriminate|]. destruct (eq_dec k k') as [->|]; [intros E; left; congruence|right; auto]. Qed.
Lemma dget_none_In {K V} `{EqDec K} (d : dict K V) k : dget d k = None -> forall v, ~ In (k, v) d.
Proof. induction d as [|[k' v'] d IH]; cbn; intros E v; [tauto|]. destruct (eq_dec k k') as [->|Ne]; [discriminate|]. intros [I|I]; [congruence|exact (IH E v I)]. Qed.
Lemma dget_In_nodup {K V} `{EqDec K} (d : dict K V) k v : NoDup (dkeys d) -> In (k, v) d -> dget d k = Some v.
Proof.
  induction d as [|[k' v'] d IH]; cbn; intros N I; [contradiction|]. inversion N as [|? ? N1 N2]; subst. destruct I as [I|I].
  - injection I as -> ->. destruct (eq_dec k k); [reflexivity|congruence].
  - destruct (eq_dec k k') as [->|]; [exfalso; apply N1; apply in_map_iff; exists (k', v); auto|auto].
Qed.

Section Values.
Variable s : spinham.
Hypothesis O : one_object s.
Variable names : list atom.                       (* the loaded atoms *)
Hypothesis Nn : NoDup (map a_name names).
Hypothesis No : NoDup (map a_name (atoms_of s)).
Hypothesis Pn : forall a, In a (atoms_of s) -> exists a', In a' names /\ a_name a' = a_name a.
Let w0 := sh_ham s.
Variable le : list (string * (bkey * loc)).
Hypothesis Pe : Permutation (h_exch (w_ham w0)) (map snd le).

Lemma key_atoms k l : In (k, l) (h_exch (w_ham w0)) -> In (b_from k) (atoms_of s) /\ In (b_to k) (atoms_of s).
Proof.
  intros H. destruct O as (Ea & (_ & _ & _ & _ & W & _) & _). rewrite <- Ea. apply W. unfold bonds, dkeys. apply in_map_iff. exists (k, l). auto.
Qed.
Lemma values dc ks : Forall2 key_of (map (bond_call w0 1) le) ks ->
  Forall (fun kc => In (b_from (fst kc)) names /\ In (b_to (fst kc)) names) ks ->
  (dc = Some true -> h_dc (w_ham w0) = Some true) ->
  forall a a' b b' R, In a (atoms_of s) -> In a' names -> a_name a = a_name a' -> In b (atoms_of s) -> In b' names -> a_name b = a_name b' ->
  calls_value dc ks (mkB a' b' R) = bond_value w0 (mkB a b R).
Proof.
  intros H2 HA HD a a' b b' R Ia Ia' Ea Ib Ib' Eb. rewrite Forall_forall in HA.
  (* a key of [ks] comes from a stored bond *)
  assert (C1 : forall kc, In kc ks -> exists k l, In (k, l) (h_exch (w_ham w0)) /\ a_name (b_from k) = a_name (b_from (fst kc)) /\ a_name (b_to k) = a_name (b_to (fst kc))
             /\ b_cell k = b_cell (fst kc) /\ snd kc = matrix_of w0 l).
  { intros kc I. destruct (Forall2_In_r _ _ _ _ H2 I) as (c & Ic & [K1 K2]). apply in_map_iff in Ic. destruct Ic as ([lbl [k l]] & <- & Ip).
    exists k, l. split; [apply (Permutation_in _ (Permutation_sym Pe)); apply in_map_iff; exists (lbl, (k, l)); auto|].
    cbn in K1, K2. rewrite scale_one in K2. destruct K1 as (K1 & K3 & K4). repeat split; congruence. }
  assert (C2 : forall k l, In (k, l) (h_exch (w_ham w0)) -> exists kc, In kc ks /\ a_name (b_from k) = a_name (b_from (fst kc)) /\ a_name (b_to k) = a_name (b_to (fst kc))
             /\ b_cell k = b_cell (fst kc)).
  { intros k l I. apply (Permutation_in _ Pe) in I. apply in_map_iff in I. destruct I as ([lbl p] & E & I). cbn in E. subst p.
    destruct (Forall2_In_l _ _ _ _ H2 (in_map (bond_call w0 1) _ _ I)) as (kc & Ik & [K1 K2]). exists kc. split; [exact Ik|]. cbn in K1. intuition congruence. }
  (* equality of keys is equality of names and cells, on both sides *)
  assert (U1 : forall x y, In x names -> In y names -> a_name x = a_name y -> x = y) by (intros x y Ix Iy Exy; exact (LoadProofs.name_inj names x y Nn Ix Iy Exy)).
  assert (U2 : forall x y, In x (atoms_of s) -> In y (atoms_of s) -> a_name x = a_name y -> x = y) by (intros x y Ix Iy Exy; exact (LoadProofs.name_inj _ x y No Ix Iy Exy)).
  destruct O as (Eat & W & MC). destruct W as (Nd & _ & Ls & _).
  assert (Absent : forall x x' y y' Q, In x (atoms_of s) -> In x' names -> a_name x = a_name x' -> In y (atoms_of s) -> In y' names -> a_name y = a_name y' ->
     dget (h_exch (w_ham w0)) (mkB x y Q) = None -> forall kc, In kc ks -> fst kc <> mkB x' y' Q).
  { intros x x' y y' Q Ix Ix' Ex Iy Iy' Ey D kc Ik E. destruct (C1 kc Ik) as (k & l & Ikl & E1 & E2 & E3 & _). rewrite E in E1, E2, E3. cbn in E1, E2, E3.
    destruct (key_atoms _ _ Ikl) as [J1 J2]. apply (dget_none_In _ _ D l). destruct k as [x0 y0 Q0]. cbn in *.
    rewrite (U2 x x0), (U2 y y0) by (assumption || congruence). rewrite <- E3. exact Ikl. }
  unfold calls_value, bond_value. destruct (dget (h_exch (w_ham w0)) (mkB a b R)) as [l|] eqn:D.
  - pose proof (dget_some_In _ _ _ D) as Ikl. rewrite (last_key_unique _ ks (matrix_of w0 l)).
    + rewrite matrix_at; [reflexivity|]. eapply Ls. exact Ikl.
    + destruct (C2 _ _ Ikl) as (kc & Ik & E1 & E2 & E3). exists kc. split; [exact Ik|]. destruct (HA kc Ik) as [J1 J2]. destruct kc as [[x y Q] m]. cbn in *.
      rewrite (U1 x a'), (U1 y b') by (assumption || congruence). congruence.
    + intros kc Ik E. destruct (C1 kc Ik) as (k & l' & Ikl' & E1 & E2 & E3 & ->). rewrite E in E1, E2, E3. cbn in E1, E2, E3. f_equal.
      destruct (key_atoms _ _ Ikl') as [J1 J2]. destruct k as [x y Q]. cbn in *. assert (x = a) by (apply U2; try assumption; congruence). assert (y = b) by (apply U2; try assumption; congruence). subst.
      pose proof (dget_In_nodup _ _ _ Nd Ikl') as G'. fold w0 in G'. match type of D with ?l = _ => match type of G' with ?r = _ => change r with l in G' end end. rewrite D in G'. injection G'. intros ->. reflexivity.
  - pose proof (last_key_none (mkB a' b' R) ks) as L. rewrite Forall_forall in L. specialize (L (Absent _ _ _ _ _ Ia Ia' Ea Ib Ib' Eb D) []). cbn [app] in L. rewrite L.
    change (last_key (mkB a' b' R) []) with (@None (M3 F)). cbn [option_map].
    destruct dc as [[]|]; try reflexivity. specialize (MC (HD eq_refl)).
    assert (Dm : dget (h_exch (w_ham w0)) (mkB b a (cneg R)) = None).
    { destruct (dget (h_exch (w_ham w0)) (mkB b a (cneg R))) as [l|] eqn:E; [|reflexivity]. exfalso. apply dget_some_In in E.
      assert (I : In (mirror (mkB b a (cneg R))) (bonds w0)) by (apply MC; apply in_map_iff; exists (mkB b a (cneg R), l); auto).
      assert (Em : mirror (mkB b a (cneg R)) = mkB a b R) by (unfold mirror; cbn; f_equal; destruct R as [[i j] k]; cbn; f_equal; [f_equal|]; lia).
      rewrite Em in I. unfold bonds, dkeys in I. apply in_map_iff in I. destruct I as ([k l'] & E' & I). cbn in E'. subst k. exact (dget_none_In _ _ D _ I). }
    pose proof (first_key_none (mirror (mkB a' b' R)) ks []) as L1. rewrite Forall_forall in L1. rewrite app_nil_r in L1.
    rewrite L1; [reflexivity|]. apply (Absent b b' a a' (cneg R)); assumption.
Qed.

Variable lo : list (string * (atom * loc)).
Hypothesis Po : Permutation (h_ons (w_ham w0)) (map snd lo).
Lemma site_values a : In a (atoms_of s) -> match last_entry (a_name a) (map (site_entry w0) lo) with Some m => Some (mscale 1 m) | None => None end = onsite_value w0 a.
Proof.
  intros Ia. destruct O as (Eat & W & _). destruct W as (_ & Nd & _ & Ls & _ & Wa).
  assert (U2 : forall x y, In x (atoms_of s) -> In y (atoms_of s) -> a_name x = a_name y -> x = y) by (intros x y Ix Iy Exy; exact (LoadProofs.name_inj _ x y No Ix Iy Exy)).
  assert (Sa : forall x l, In (x, l) (h_ons (w_ham w0)) -> In x (atoms_of s)).
  { intros x l I. rewrite <- Eat. apply Wa. unfold sites, dkeys. apply in_map_iff. exists (x, l). auto. }
  assert (C : forall e, In e (map (site_entry w0) lo) -> exists x l, In (x, l) (h_ons (w_ham w0)) /\ fst e = a_name x /\ snd e = matrix_of w0 l).
  { intros e I. apply in_map_iff in I. destruct I as ([lbl [x l]] & <- & I). exists x, l. split; [|split; reflexivity].
    apply (Permutation_in _ (Permutation_sym Po)). apply in_map_iff. exists (lbl, (x, l)). auto. }
  unfold onsite_value. destruct (dget (h_ons (w_ham w0)) a) as [l|] eqn:D.
  - pose proof (dget_some_In _ _ _ D) as Il. rewrite (last_entry_unique _ _ (matrix_of w0 l)).
    + rewrite scale_one, matrix_at; [reflexivity|]. eapply Ls, Il.
    + pose proof (Permutation_in _ Po Il) as I. apply in_map_iff in I. destruct I as ([lbl p] & E & I). cbn in E. subst p.
      exists (site_entry w0 (lbl, (a, l))). split; [apply in_map, I|reflexivity].
    + intros e I E. destruct (C e I) as (x & l' & Ix & E1 & ->). assert (x = a) by (apply U2; eauto; congruence). subst x.
      pose proof (dget_In_nodup _ _ _ Nd Ix) as G'. match type of D with ?l = _ => match type of G' with ?r = _ => change r with l in G' end end. rewrite D in G'. injection G'. intros ->. reflexivity.
  - rewrite last_entry_none; [reflexivity|]. intros e I E. destruct (C e I) as (x & l' & Ix & E1 & _).
    assert (x = a) by (apply U2; eauto; congruence). subst x. exact (dget_none_In _ _ D _ Ix).
Qed.
End Values.

Lemma run_notation_values (h : @ham F) ps : h_dc h = None -> h_sn h = None -> h_ef h = None -> h_of h = None ->
  h_dc (noted ps h) = last_some (fun p => match p with PDouble b => Some b | _ => None end) ps
  /\ h_sn (noted ps h) = last_some (fun p => match p with PSpin b => Some b | _ => None end) ps
  /\ h_ef (noted ps h) = last_some (fun p => match p with PExchange b => Some b | _ => None end) ps
  /\ h_of (noted ps h) = last_some (fun p => match p with POnSite b => Some b | _ => None end) ps.
Proof.
  intros E1 E2 E3 E4. destruct (noted_values ps h) as (A & B & C & D). rewrite A, B, C, D, E1, E2, E3, E4. repeat split;
    match goal with |- match ?x with _ => _ end = _ => destruct x; reflexivity end.
Qed.

Lemma load_written s L : units_defined X -> one_object s -> well_named s -> unit_axis X s -> complete s -> listing_ok s L ->
  exists s', load_group X (written s L) = Ret s' /\ restored X s s' /\ sh_sites s' = renumber 0 (map snd (li_atoms s L)).
Proof.
  intros U O [Nn Ne] UA C (_ & Pa & Pe & Po & _). set (la := map snd (li_atoms s L)) in *. set (st' := renumber 0 la).
  assert (Fla : Forall (fun x => st_spin x <> None /\ st_g x <> None /\ name_of x <> ""%string) la).
  { apply Forall_forall. intros x Ix. apply (Permutation_in _ (Permutation_sym Pa)) in Ix. rewrite Forall_forall in Ne. pose proof (proj1 C) as CA. rewrite Forall_forall in CA.
    destruct (CA x Ix). repeat split; auto. }
  assert (Nla : NoDup (map name_of la)) by (eapply Permutation_NoDup; [apply Permutation_map, Pa|exact Nn]).
  assert (Nst : NoDup (map name_of st')) by (unfold st'; rewrite renumber_names; exact Nla).
  set (c0 := crystal X st').
  assert (Eat0 : h_atoms (w_ham c0) = map st_atom st') by reflexivity.
  assert (Enames : map a_name (map st_atom st') = map name_of st') by (rewrite map_map; reflexivity).
  assert (Enames0 : map a_name (atoms_of s) = map name_of (sh_sites s)) by (unfold atoms_of; rewrite map_map; reflexivity).
  assert (Pnames : Permutation (map name_of (sh_sites s)) (map name_of st')) by (unfold st'; rewrite renumber_names; apply Permutation_map, Pa).
  assert (Hn : forall a, In a (atoms_of s) -> exists a', In a' (map st_atom st') /\ a_name a' = a_name a).
  { intros a I. apply (in_map a_name) in I. rewrite Enames0 in I. apply (Permutation_in _ Pnames) in I. rewrite <- Enames in I. apply in_map_iff in I.
    destruct I as (a' & E & I). exists a'. auto. }
  set (h1 := noted (saved (w_ham (sh_ham s))) (w_ham c0)).
  destruct (noted_rest (saved (w_ham (sh_ham s))) (w_ham c0)) as (R1 & R2 & R3 & R4). fold h1 in R1, R2, R3, R4.
  set (w1 := mkW (w_store c0) h1).
  assert (L1 : load_notation (written s L) c0 = (w1, Ret tt)) by (apply load_notation_ok; [exact C|reflexivity|reflexivity]).
  assert (I1 : Inv w1) by (apply Inv_start; [exact R1|exact R2]).
  assert (N1 : names_ok w1) by (unfold names_ok, w1; cbn [w_ham]; rewrite R3, Eat0, Enames; exact Nst).
  assert (A1 : h_atoms (w_ham w1) = map st_atom st') by (unfold w1; cbn [w_ham]; rewrite R3; reflexivity).
  pose proof O as (Oat & W & MC). destruct W as (_ & _ & _ & _ & Wb & Ws).
  (* exchange *)
  assert (FE : Forall (fun p => named w1 (a_name (b_from (fst (snd p)))) /\ named w1 (a_name (b_to (fst (snd p))))) (li_bonds s L)).
  { apply Forall_forall. intros [lbl [k l]] Ip. cbn. assert (Ik : In k (bonds (sh_ham s))).
    { unfold bonds, dkeys. apply in_map_iff. exists (k, l). split; [reflexivity|]. apply (Permutation_in _ (Permutation_sym Pe)). apply in_map_iff. exists (lbl, (k, l)). auto. }
    destruct (Wb k Ik) as [B1 B2]. rewrite Oat in B1, B2. unfold named. rewrite A1. split; apply Hn; assumption. }
  assert (dcv : h_dc h1 = match bonds (sh_ham s) with [] => None | _ => h_dc (w_ham (sh_ham s)) end
     /\ h_sn h1 = (match bonds (sh_ham s), sites (sh_ham s) with [], [] => None | _, _ => h_sn (w_ham (sh_ham s)) end)
     /\ h_ef h1 = (match bonds (sh_ham s) with [] => None | _ => h_ef (w_ham (sh_ham s)) end)
     /\ h_of h1 = (match sites (sh_ham s) with [] => None | _ => h_of (w_ham (sh_ham s)) end)).
  { destruct (run_notation_values (w_ham c0) (saved (w_ham (sh_ham s))) eq_refl eq_refl eq_refl eq_refl) as (V1 & V2 & V3 & V4). fold h1 in V1, V2, V3, V4. rewrite V1, V2, V3, V4.
    unfold saved, bonds, sites, dkeys, nonempty. destruct (h_sn (w_ham (sh_ham s))); destruct (h_dc (w_ham (sh_ham s))); destruct (h_ef (w_ham (sh_ham s))); destruct (h_of (w_ham (sh_ham s)));
      destruct (h_exch (w_ham (sh_ham s))); destruct (h_ons (w_ham (sh_ham s))); cbn; repeat split; reflexivity. }
  assert (X2 : exists w2, load_exchange X (written s L) w1 = (w2, Ret tt) /\ Inv w2 /\ same_frame w1 w2
     /\ (forall a a' b b' R, In a (atoms_of s) -> In a' (map st_atom st') -> a_name a = a_name a' -> In b (atoms_of s) -> In b' (map st_atom st') -> a_name b = a_name b' ->
           bond_value w2 (mkB a' b' R) = bond_value (sh_ham s) (mkB a b R))
     /\ (forall a, onsite_value w2 a = None)).
  { unfold load_exchange. rewrite has_exchange. destruct (nonempty (h_exch (w_ham (sh_ham s)))) eqn:E.
    - rewrite (bind_val (lift (kid (written s L) "exchange")) _ _ _ _ (f_equal (pair _) (kid_exchange s L E))).
      rewrite (bind_val (lift _) _ w1 w1 1) by (unfold lift; f_equal; exact (units_ok U)).
      rewrite (bind_val (lift _) _ w1 w1 (map (fun p => (fst p, filled (bond_body (sh_ham s) (snd p)))) (li_bonds s L))) by reflexivity.
      rewrite (load_bonds_calls (sh_ham s) 1 (li_bonds s L) w1 I1 N1 FE).
      destruct (calls_total w1 I1 N1 (map (bond_call (sh_ham s) 1) (li_bonds s L))) as [w2 E2].
      { rewrite Forall_map. eapply Forall_impl; [|exact FE]. intros p [H1 H2]. cbn. repeat split; [exact H1|exact H2|discriminate]. }
      exists w2. split; [exact E2|].
      destruct (calls_effect w1 I1 (proj2 (bonds_nil w1) R1) (map (bond_call (sh_ham s) 1) (li_bonds s L)) w2 E2) as (ks & K1 & K2 & K3 & K4 & K5 & K6 & K7).
      { rewrite Forall_map. apply Forall_forall. intros p _. discriminate. }
      split; [exact K3|]. split; [exact K4|]. split.
      + intros a a' b b' R Ia Ia' Ea Ib Ib' Eb. rewrite K5. rewrite A1 in K2.
        apply (values s O (map st_atom st')) with (le := li_bonds s L); try assumption; [rewrite Enames; exact Nst|rewrite Enames0; exact Nn|].
        change (h_dc (w_ham w1)) with (h_dc h1). rewrite (proj1 dcv). destruct (bonds (sh_ham s)); [discriminate|auto].
      + intros a. rewrite K6. unfold onsite_value, w1. cbn [w_ham]. rewrite R2. reflexivity.
    - exists w1. split; [reflexivity|]. split; [exact I1|]. split; [apply same_frame_refl|]. apply nonempty_false in E. split.
      + intros. unfold bond_value, w1. cbn [w_ham]. rewrite R1, E. reflexivity.
      + intros a. unfold onsite_value, w1. cbn [w_ham]. rewrite R2. reflexivity. }
  destruct X2 as (w2 & L2 & I2 & F2 & V2 & O2).
  pose proof F2 as (Fa2 & _).
  assert (A2 : h_atoms (w_ham w2) = map st_atom st') by congruence.
  assert (N2 : names_ok w2) by (unfold names_ok; rewrite A2, Enames; exact Nst).
  assert (FO : Forall (fun p => named w2 (a_name (fst (snd p)))) (li_sites s L)).
  { apply Forall_forall. intros [lbl [k l]] Ip. cbn. assert (Ik : In k (sites (sh_ham s))).
    { unfold sites, dkeys. apply in_map_iff. exists (k, l). split; [reflexivity|]. apply (Permutation_in _ (Permutation_sym Po)). apply in_map_iff. exists (lbl, (k, l)). auto. }
    pose proof (Ws k Ik) as B. rewrite Oat in B. unfold named. rewrite A2. apply Hn; assumption. }
  assert (X3 : exists w3, load_on_site X (written s L) w2 = (w3, Ret tt) /\ Inv w3 /\ same_frame w2 w3
     /\ (forall k, bond_value w3 k = bond_value w2 k)
     /\ (forall a a', In a (atoms_of s) -> In a' (map st_atom st') -> a_name a = a_name a' -> onsite_value w3 a' = onsite_value (sh_ham s) a)).
  { unfold load_on_site. rewrite has_on_site. destruct (nonempty (h_ons (w_ham (sh_ham s)))) eqn:E.
    - rewrite (bind_val (lift (kid (written s L) "on-site")) _ _ _ _ (f_equal (pair _) (kid_on_site s L E))).
      rewrite (bind_val (lift _) _ w2 w2 1) by (unfold lift; f_equal; exact (units_ok U)).
      rewrite (bind_val (lift _) _ w2 w2 (map (fun p => (fst p, filled (on_site_body (sh_ham s) (snd p)))) (li_sites s L))) by reflexivity.
      rewrite (load_sites_calls (sh_ham s) 1 (li_sites s L) w2 I2 N2 FO).
      destruct (os_calls_total 1 w2 I2 N2 (map (site_entry (sh_ham s)) (li_sites s L))) as [w3 E3].
      { rewrite Forall_map. exact FO. }
      exists w3. split; [exact E3|]. destruct (os_effect 1 w2 I2 N2 _ _ E3) as (K1 & K2 & K3 & K4 & K5). split; [exact K1|]. split; [exact K2|]. split; [exact K3|].
      intros a a' Ia Ia' Ea. rewrite K5 by (rewrite A2; exact Ia'). rewrite <- Ea. rewrite O2.
      apply site_values; try assumption. rewrite Enames0. exact Nn.
    - exists w2. split; [reflexivity|]. split; [exact I2|]. split; [apply same_frame_refl|]. apply nonempty_false in E. split; [reflexivity|].
      intros a a' _ _ _. rewrite O2. unfold onsite_value. rewrite E. reflexivity. }
  destruct X3 as (w3 & L3 & I3 & F3 & V3 & O3).
  exists (mkSH (sh_cell s) st' w3 (sh_spiral s) (sh_cone s)). split; [|split; [|reflexivity]].
  - unfold load_group. rewrite (load_cell_ok s L U). cbn [obind]. rewrite kid_atoms. cbn [obind members].
    rewrite load_atoms_ok by (rewrite Forall_map in Fla || idtac; unfold la in Fla; rewrite Forall_map in Fla; exact Fla).
    cbn [obind]. fold la. fold st'. fold c0. rewrite (run_out_ret _ _ _ _ L1). cbn [obind]. rewrite (run_out_ret _ _ _ _ L2). cbn [obind]. rewrite (run_out_ret _ _ _ _ L3). cbn [obind].
    rewrite spiral_ok, (cone_ok s L UA). reflexivity.
  - pose proof (same_frame_trans _ _ _ F2 F3) as (G1 & G2 & G3 & G4 & G5 & G6). destruct dcv as (D1 & D2 & D3 & D4).
    unfold restored, one_object, same_notation, twin, Hdf5Spec.atoms_of. cbn [sh_cell sh_spiral sh_cone sh_sites sh_ham].
    split; [reflexivity|]. split; [reflexivity|]. split; [reflexivity|]. split; [|split; [|split; [|split; [|split]]]].
    + unfold st'. rewrite renumber_facts. apply Permutation_map, Pa.
    + split; [congruence|]. exact I3.
    + rewrite G3, G4, G5, G6. change (w_ham w1) with h1. tauto.
    + intros a a' b b' R (T1 & T2 & T3) (T4 & T5 & T6). rewrite V3. apply V2; assumption.
    + intros a a' (T1 & T2 & T3). apply O3; assumption.
    + intros x v Ix Ev. unfold spin_of. rewrite G2. change (h_spins (w_ham w1)) with (h_spins h1). rewrite R4. exact (crystal_spins X st' Nst x v Ix Ev).
Qed.
End Main.
