(** A dumped file is loaded, and what the loaded Hamiltonian is. *)
From Coq Require Import String Ascii List Bool ZArith Arith Lia DecimalString.
From Coq Require Import Ring Field Field_theory Ring_theory.
From Verif.Base Require Import Scalar Linear3 PyDict PyString PyText.
From Verif.Spec Require Import HamSpec HistorySpec ParameterSpec TxtSpec TxtFormat Hdf5Spec TxtDumpSpec.
From Verif.Model Require Import MatrixParam Hamiltonian TxtVerify TxtRead Hdf5 TxtDump.
From Verif.Proofs Require Import DictProofs HamBasics HistoryProofs ParameterProofs TextBasics SectionProofs TxtReadProofs TextGlue VerifyProofs LoadProofs FileProofs TotalProofs TextMore Hdf5Read DumpText DumpWords DumpVerify DumpLoad DumpRead.
Import ListNotations.
Local Open Scope string_scope.

Section Back.
Context {F : Type} {SF : Scalar F}.
Add Field F_field : (@f_field F SF).
Variable X : externals F.
Variable P : printer F.
Variable rnd : nat -> F -> F.
Hypothesis HX : sane X.
Hypothesis HP : prints X P rnd.
Hypothesis HU : units_defined X.
Notation spinham := (@spinham F).
Notation site := (@site F).
Notation world := (@world F).
Notation w8 := (w8 P). Notation w4 := (w4 P). Notation w8v := (w8v P). Notation w4v := (w4v P).
Notation atoms_of := Hdf5Spec.atoms_of.

(** ** General *)
Lemma last_some_none {A B} (g : A -> option B) l : (forall x, In x l -> g x = None) -> last_some g l = None.
Proof.
  induction l as [|x l IH] using rev_ind; intros H; [reflexivity|]. rewrite last_some_snoc, (H x) by (apply in_or_app; right; left; reflexivity).
  apply IH. intros y I. apply H, in_or_app. left. exact I.
Qed.
Lemma plain_not_dash t : plain_number t -> t <> "-".
Proof. intros (c & r & [E|E] & D & _) ->; [|discriminate]. injection E as <- <-. unfold digit_char in D. cbn in D. lia. Qed.
Lemma good_not_dash t : good_name t -> t <> "-".
Proof. intros (_ & (c & r & E & D) & _) ->. injection E as <- <-. unfold letter_or_digit in D. cbn in D. lia. Qed.

(** ** On-site parameters *)
Definition site_of (w : world) (p : atom * loc) : string * M3 F := (a_name (fst p), rm rnd 4 (upper (matrix_of w (snd p)))).
Lemma sites_read w l : Forall (fun p => good_name (a_name (fst p))) l -> forall lines, Forall clean lines -> map py_split lines = w_sites P w l ->
  on_site_text X lines (map (site_of w) l).
Proof.
  induction 1 as [|p l G _ IH]; intros lines C E.
  - apply map_eq_nil in E. subst. constructor.
  - unfold w_sites in E. cbn [flat_map app] in E. cbv zeta in E. destruct lines as [|l1 [|l2 [|l3 lines]]]; try discriminate. cbn [map] in E. injection E as E1 E2 E3 E.
    inversion C as [|? ? C1 C']; subst. inversion C' as [|? ? C2 C'']; subst. inversion C'' as [|? ? C3 C4]; subst. clear C C' C''.
    assert (l3 = SUBSEPARATOR) by (apply sub_line; [apply C3|exact E3]). subst l3. cbn [map].
    apply (os_entry X l1 l2 (a_name (fst p))); [exact E1| | |].
    + destruct (led_line l1 C1) as [S1 S2]; [rewrite E1; apply good_solid, G|]. intros D. apply is_subsep_spec in D. congruence.
    + rewrite E2. set (m := matrix_of w (snd p)). apply (numbers_fixed X P rnd HP 4 [mxx m; myy m; mzz m; mxy m; mxz m; myz m]).
    + apply os_sep; [apply is_subsep_spec, sub_is_sub|]. apply IH; [exact C4|exact E].
Qed.

(** ** Notation *)
Definition props_of (h : @ham F) : list (@property F) :=
  ((match h_sn h with Some b => [PSpin b] | None => [] end)
   ++ (if Hdf5.nonempty (h_exch h) then (match h_dc h with Some b => [PDouble b] | None => [] end) ++ (match h_ef h with Some x => [PExchange x] | None => [] end) else [])
   ++ (if Hdf5.nonempty (h_ons h) then (match h_of h with Some x => [POnSite x] | None => [] end) else []))%list.
Lemma forall2_map {A B C} (f : A -> B) (Q : A -> C -> Prop) (l : list B) (r : list C) : (Forall2 (fun b c => forall a, f a = b -> Q a c) l r) ->
  forall lines, map f lines = l -> Forall2 Q lines r.
Proof.
  induction 1 as [|b c l r H _ IH]; intros lines E; [apply map_eq_nil in E; subst; constructor|]. destruct lines as [|a lines]; [discriminate|].
  cbn [map] in E. injection E as E1 E2. constructor; auto.
Qed.
Lemma props_read h lines : map py_split lines = w_props P h -> Forall2 (property_text X) lines (props_of h).
Proof.
  apply forall2_map.
  assert (I : forall c k, str_lower k = String c (match str_lower k with String _ t => t | _ => "" end) -> initial c k) by (intros c k H; eexists; exact H).
  assert (Bs : forall b, says (str_bool b) b) by (intros [|]; left; reflexivity).
  assert (S : forall b l, py_split l = ["Spin-normalized"; str_bool b] -> property_text X l (PSpin b)) by (intros b l E; eapply pt_spin; [exact E|apply I; reflexivity|apply Bs]).
  assert (D : forall b l, py_split l = ["Double-counting"; str_bool b] -> property_text X l (PDouble b)) by (intros b l E; eapply pt_double; [exact E|apply I; reflexivity|apply Bs]).
  assert (Ex : forall x l, py_split l = ["Exchange-factor"; pr_str P x] -> property_text X l (PExchange x)) by (intros b l E; eapply pt_exchange; [exact E|apply I; reflexivity|apply (pn_str _ _ _ HP)]).
  assert (O : forall x l, py_split l = ["On-site-factor"; pr_str P x] -> property_text X l (POnSite x)) by (intros b l E; eapply pt_on_site; [exact E|apply I; reflexivity|apply (pn_str _ _ _ HP)]).
  unfold w_props, props_of. destruct (h_sn h), (Hdf5.nonempty (h_exch h)), (h_dc h), (h_ef h), (Hdf5.nonempty (h_ons h)), (h_of h); cbn [opt app]; repeat (constructor; [auto|]); constructor.
Qed.

Section File.
Variables (fl : flags) (s : spinham) (content : string).
Hypothesis Ho : one_object s.
Hypothesis Hp : printable rnd s.
Hypothesis Hw : something_written fl.
Hypothesis Hd : dump_txt P fl s = Ret content.
Let w := sh_ham s.
Let h := w_ham w.
Let ex := Hdf5.nonempty (h_exch h).
Let os := Hdf5.nonempty (h_ons h).
Variables (secs : list (list string)) (ts : list string).
Hypothesis La : layout P fl s content secs ts.
Notation nodup := (ly_names _ _ _ _ _ _ La).

Lemma angstrom_defined : c_angstrom X <> f0.
Proof. apply HU. Qed.
Lemma read_back_exists : exists L, load_txt X (readlines content) = Ret L.
Proof.
  apply (accepted_loads_file X HX secs).
  - exists ts. destruct La. auto.
  - exists (dict_of secs). rewrite (filter_of _ _ (ly_file _ _ _ _ _ _ La)). apply (file_verified X P rnd HX HP fl s content); try assumption. exact (printable_good rnd s Hp).
  - intros [sec [H|H]]; apply (has_notation P fl s content secs ts La); [apply (exchange_is P fl s content secs ts La) in H|apply (on_site_is P fl s content secs ts La) in H]; destruct H as [-> _]; [reflexivity|apply orb_true_r].
  - intros sec l H I. apply (atoms_is P fl s content secs ts La) in H. apply (in_map py_split) in I. rewrite H in I. unfold w_atoms, w_header in I.
    rewrite (no_angles P rnd fl s content Hp Hd) in I. destruct I as [<-|[<-|I]]; [intros [Q|[]]; discriminate|intros Q; cbn in Q; intuition discriminate|].
    apply in_map_iff in I. destruct I as (x & <- & I). pose proof (all_spun rnd s Hp) as Sp. rewrite Forall_forall in Sp. destruct (Sp x I) as [G Sx]. unfold w_atom.
    destruct (st_spin x) as [v|]; [|congruence]. assert (Pl : forall p y, pr_fixed P p y <> "-") by (intros; apply plain_not_dash, (pn_plain _ _ _ HP)).
    intros Q. destruct Q as [Q|Q]; [exact (good_not_dash _ G Q)|]. unfold DumpWords.w8v, DumpWords.w4v, DumpWords.w8, DumpWords.w4 in Q. cbn [app In] in Q.
    repeat (destruct Q as [Q|Q]; [exact (Pl _ _ Q)|]). exact Q.
  - intros sec k u H E. apply (exchange_is P fl s content secs ts La) in H. destruct H as (_ & H & _). unfold w_exchange in H. destruct sec as [|hdr sec]; [discriminate|].
    cbn [map] in H. pose proof (f_equal (@hd _ []) H) as E'. cbn [hd] in E'. cbn [hd] in E. rewrite E' in E. injection E as <- <-. intros [r Q]. discriminate Q.
  - intros sec p l1 l2 l3 a b c d e f g i j H -> N1 N2 N3. apply (cell_is P fl s content secs ts La) in H. unfold w_cell in H. rewrite map_app in H. cbn [map] in H.
    destruct (map py_split p) as [|q1 [|q2 p']]; [discriminate| |].
    + cbn [app] in H. injection H as _ E1 E2 E3. rewrite E1 in N1. rewrite E2 in N2. rewrite E3 in N3.
      pose proof (numbers_fun X _ _ _ N1 (num8 X P rnd HP (row1 (sh_cell s)))) as Q1. pose proof (numbers_fun X _ _ _ N2 (num8 X P rnd HP (row2 (sh_cell s)))) as Q2.
      pose proof (numbers_fun X _ _ _ N3 (num8 X P rnd HP (row3 (sh_cell s)))) as Q3. injection Q1 as -> -> ->. injection Q2 as -> -> ->. injection Q3 as -> -> ->.
      destruct Hp as (_ & _ & _ & Hdet & _). exact Hdet.
    + apply (f_equal (@List.length _)) in H. cbn in H. rewrite app_length in H. cbn in H. lia.
  - intros sec hdr l a b c H -> N1. apply (cone_is P fl s content secs ts La) in H. destruct H as (n & En & H). unfold w_cone in H. cbn [map] in H. injection H as _ E1.
    rewrite E1 in N1. pose proof (numbers_fun X _ _ _ N1 (num8 X P rnd HP n)) as Q1. injection Q1 as -> -> ->. destruct Hp as (_ & _ & _ & _ & Hn & _). apply Hn, En.
Qed.

Variable L : @loaded F.
Hypothesis HL : load_txt X (readlines content) = Ret L.
Lemma back_contents : contents X secs L.
Proof. exact (loaded_contents X (sane_case X HX) secs ts _ L (ly_file _ _ _ _ _ _ La) (ly_laid _ _ _ _ _ _ La) nodup HL). Qed.
Lemma back_stages : exists w1 w2, stages X secs L (mkV f1 f1 f1) w1 w2 /\ ld_cell L = rm rnd 8 (sh_cell s).
Proof.
  destruct (load_inv X secs ts _ L (ly_file _ _ _ _ _ _ La) (ly_laid _ _ _ _ _ _ La) nodup HL) as (_ & scale & w1 & w2 & St). exists w1, w2.
  pose proof St as ((sc & Hsc & Rc) & _). rewrite (cell_read X P rnd HP (sh_cell s) sc angstrom_defined (cell_is P fl s content secs ts La sc Hsc)) in Rc.
  injection Rc as E1 E2. rewrite <- E2 in St. auto.
Qed.
Lemma back_cell : ld_cell L = rm rnd 8 (sh_cell s).
Proof. destruct back_stages as (? & ? & _ & E). exact E. Qed.
Lemma back_atoms : ld_atoms L = map (read_site rnd) (sh_sites s).
Proof.
  destruct back_stages as (w1 & w2 & (_ & (sa & Hsa & Ra) & _) & _).
  assert (Sp : Forall (fun x => st_spin x <> None) (sh_sites s)) by (eapply Forall_impl; [|exact (all_spun rnd s Hp)]; intros x [_ Hx]; exact Hx).
  rewrite (atoms_read X P rnd HP fl (sh_sites s) _ _ sa (no_angles P rnd fl s content Hp Hd) Sp (atoms_is P fl s content secs ts La sa Hsa)) in Ra. injection Ra as <-. reflexivity.
Qed.
Lemma back_atom_data : map (fun a => (ad_name a, ad_position a, Some (ad_spin a))) (ld_atoms L)
     = map (fun x => (name_of x, rv rnd 8 (st_position x), option_map (rv rnd 4) (st_spin x))) (sh_sites s).
Proof.
  rewrite back_atoms, map_map. pose proof (all_spun rnd s Hp) as Sp. induction Sp as [|x l [_ Sx] _ IH]; [reflexivity|]. cbn [map]. f_equal; [|exact IH].
  unfold read_site. cbn. destruct (st_spin x); [reflexivity|congruence].
Qed.
Lemma back_names : map a_name (h_atoms (w_ham (ld_ham L))) = map name_of (sh_sites s).
Proof.
  rewrite (co_atoms _ _ _ back_contents), number_names, back_atoms, map_map. reflexivity.
Qed.
Lemma back_lost : lost L.
Proof. unfold lost. rewrite back_atoms, Forall_map. apply Forall_forall. intros x _. split; reflexivity. Qed.
Lemma no_section n : (forall sec, ~ has_section secs n sec) \/ exists sec, has_section secs n sec.
Proof. destruct (section_dec secs n nodup); auto. Qed.
Lemma back_cone : ld_cone L = option_map (fun n => unit_vector X (rv rnd 8 n)) (sh_cone s).
Proof.
  destruct back_stages as (w1 & w2 & (_ & _ & _ & _ & _ & _ & (S1 & S2) & _) & _). destruct (no_section "cone-axis") as [N|[sec H]].
  - rewrite (S2 N). destruct (sh_cone s) as [n|] eqn:E; [|reflexivity]. destruct (has_cone P fl s content secs ts La n E) as [sec H]. destruct (N sec H).
  - specialize (S1 sec H). destruct (cone_is P fl s content secs ts La sec H) as (n & En & Ws). destruct Hp as (_ & _ & _ & _ & Hn & _).
    rewrite (cone_read X P rnd HX HP _ n sec (Hn n En) Ws) in S1. cbn [obind] in S1. injection S1 as <-. rewrite En. reflexivity.
Qed.
Lemma back_spiral : spiral_read X rnd s L.
Proof.
  unfold spiral_read. destruct back_stages as (w1 & w2 & (_ & _ & _ & _ & _ & _ & _ & (S1 & S2)) & Ec). destruct (no_section "spiral-vector") as [N|[sec H]].
  - destruct (sh_spiral s) as [n|] eqn:E; [|exact (S2 N)]. destruct (has_spiral P fl s content secs ts La n E) as [sec H]. destruct (N sec H).
  - specialize (S1 sec H). destruct (spiral_is P fl s content secs ts La sec H) as (q & Eq & Ws). rewrite Eq. rewrite Ec in S1.
    destruct Hp as (_ & _ & _ & Hdet & _). pose proof (sane_reciprocal X HX _ Hdet) as R. destruct (x_reciprocal X (rm rnd 8 (sh_cell s))) as [r|] eqn:Er; [|congruence].
    exists r. split; [reflexivity|]. rewrite (spiral_read_ X P rnd HP _ q r sec Er Ws) in S1. cbn [obind] in S1. injection S1 as <-. reflexivity.
Qed.
Lemma ex_spec : ex = true <-> bonds w <> [].
Proof. unfold ex, bonds, h, dkeys. destruct (h_exch (w_ham w)); cbn; split; congruence. Qed.
Lemma os_spec : os = true <-> sites w <> [].
Proof. unfold os, sites, h, dkeys. destruct (h_ons (w_ham w)); cbn; split; congruence. Qed.
Lemma back_notation : seen_notation s L.
Proof.
  unfold seen_notation. cbv zeta. fold w. fold h.
  assert (Eb : forall {A} (a b : A), (match bonds w with [] => a | _ => b end) = if ex then b else a) by (intros; unfold ex, bonds, h, dkeys; destruct (h_exch (w_ham w)); reflexivity).
  assert (Es : forall {A} (a b : A), (match sites w with [] => a | _ => b end) = if os then b else a) by (intros; unfold os, sites, h, dkeys; destruct (h_ons (w_ham w)); reflexivity).
  rewrite !Eb, !Es. destruct (ex || os)%bool eqn:Q.
  - destruct (has_notation P fl s content secs ts La Q) as [sec H]. destruct (notation_is_ P fl s content secs ts La sec H) as [_ Ws]. destruct sec as [|hdr lines]; [discriminate|].
    cbn [map] in Ws. apply (f_equal (@tl _)) in Ws. cbn [tl] in Ws. apply props_read in Ws.
    assert (Hpar : exists s', has_section secs "exchange" s' \/ has_section secs "on-site" s').
    { destruct ex eqn:E; [destruct (has_exchange P fl s content secs ts La E) as [s' Hs']; eauto|]. cbn in Q. destruct (has_on_site P fl s content secs ts La Q) as [s' Hs']; eauto. }
    destruct (co_notation _ _ _ back_contents lines _ _ Hpar H eq_refl Ws) as (N1 & N2 & N3 & N4). rewrite N1, N2, N3, N4.
    destruct (notation_set X P rnd HP fl s content Hd) as (M1 & M2 & M3). fold w h ex os in M1, M2, M3. unfold props_of. fold w h ex os.
    destruct ex, os, (h_sn h), (h_dc h), (h_ef h), (h_of h); cbn in Q |- *; try (repeat split; reflexivity);
      try (destruct (M1 eq_refl); reflexivity); try (destruct (M2 eq_refl) as [A B]; first [destruct (A eq_refl)|destruct (B eq_refl)]); try (destruct (M3 eq_refl); reflexivity); discriminate Q.
  - apply orb_false_elim in Q. destruct Q as [Qe Qo]. rewrite Qe, Qo. destruct back_stages as (w1 & w2 & (_ & _ & _ & W1 & (_ & W2) & (_ & W3) & _) & _).
    assert (Ne : forall sec, ~ has_section secs "exchange" sec).
    { intros sec H. apply (exchange_is P fl s content secs ts La) in H. destruct H as [H _]. fold w h ex in H. congruence. }
    assert (No : forall sec, ~ has_section secs "on-site" sec).
    { intros sec H. apply (on_site_is P fl s content secs ts La) in H. destruct H as [H _]. fold w h os in H. congruence. }
    rewrite (W3 No), (W2 Ne), W1 by (intros sec; auto). repeat split; reflexivity.
Qed.

(** ** Names and atoms *)
Lemma name_inj a b : In a (atoms_of s) -> In b (atoms_of s) -> a_name a = a_name b -> a = b.
Proof.
  unfold atoms_of. destruct Hp as (_ & N & _). unfold name_of in N. induction (sh_sites s) as [|x l IH]; intros Ia Ib E; [destruct Ia|]. cbn [map] in *. inversion N as [|? ? Nx Nl]; subst.
  assert (K : forall c, In c (map st_atom l) -> a_name (st_atom x) = a_name c -> False).
  { intros c Ic Ec. apply Nx. rewrite Ec. apply in_map_iff in Ic. destruct Ic as (y & <- & Iy). apply (in_map (fun x0 => a_name (st_atom x0)) l y Iy). }
  destruct Ia as [<-|Ia], Ib as [<-|Ib]; auto; [destruct (K b Ib E)|destruct (K a Ia (eq_sym E))].
Qed.
Lemma bond_atoms k : In k (bonds w) -> In (b_from k) (atoms_of s) /\ In (b_to k) (atoms_of s).
Proof. intros I. destruct Ho as (Ea & (_ & _ & _ & _ & A & _) & _). rewrite <- Ea. apply (A k I). Qed.
Lemma site_atom a : In a (sites w) -> In a (atoms_of s).
Proof. intros I. destruct Ho as (Ea & (_ & _ & _ & _ & _ & A) & _). rewrite <- Ea. apply (A a I). Qed.
Lemma written_in p : In p (written w) <-> In p (h_exch h) /\ ~ within_cell (fst p).
Proof.
  unfold written. fold h. rewrite filter_In. pose proof (self_bond_spec (fst p)) as S. destruct (self_bond (fst p)); cbn; intuition congruence.
Qed.
Lemma entry_is a a' b b' R p : namesake s L a a' -> namesake s L b b' -> In (fst p) (bonds w) ->
  is_entry (mkB a' b' R) (bond_of rnd fl w p) = true <-> fst p = mkB a b R.
Proof.
  intros (Ia & _ & Ea) (Ib & _ & Eb) I. destruct (bond_atoms _ I) as [I1 I2]. unfold is_entry, bond_of. cbn [b_from b_to b_cell bn_from bn_to bn_cell].
  destruct p as [[x y c] l]. cbn [fst snd b_from b_to b_cell] in *. rewrite <- Ea, <- Eb.
  destruct (string_dec (a_name a) (a_name x)) as [E1|E1], (string_dec (a_name b) (a_name y)) as [E2|E2], (eq_dec R c) as [E3|E3]; cbn; split; intros H; try discriminate; try (injection H; congruence).
  rewrite (name_inj a x), (name_inj b y), E3; auto.
Qed.
Lemma exch_key p : In p (h_exch h) -> In (fst p) (bonds w).
Proof. intros I. unfold bonds, dkeys. apply in_map, I. Qed.
Lemma mirror_namesake a a' b b' R : mirror (mkB a' b' R) = mkB b' a' (cneg R) /\ mirror (mkB a b R) = mkB b a (cneg R).
Proof. split; reflexivity. Qed.
Lemma mirror_mirror k : mirror (mirror k) = k.
Proof. destruct k as [a b [[i j] l]]. unfold mirror, cneg. cbn. rewrite !Z.opp_involutive. reflexivity. Qed.
Lemma within_mirror k : within_cell k -> mirror k = k.
Proof. destruct k as [a b c]. intros [E1 E2]. cbn in E1, E2. subst. reflexivity. Qed.
Lemma first_for_none k' k : (forall p, In p (written w) -> is_entry k' (bond_of rnd fl w p) = true -> fst p = k) -> (forall p, In p (written w) -> fst p <> k) ->
  first_for k' (map (bond_of rnd fl w) (written w)) = None.
Proof.
  intros A B. unfold first_for. destruct (find _ _) as [b|] eqn:E; [|reflexivity]. apply find_some in E. destruct E as [I E]. apply in_map_iff in I. destruct I as (p & <- & I).
  destruct (B p I (A p I E)).
Qed.
Lemma no_bonds_read : ex = false -> forall k, bond_value (ld_ham L) k = None.
Proof.
  intros E k. apply (co_no_bonds _ _ _ back_contents). intros sec H. apply (exchange_is P fl s content secs ts La) in H. destruct H as [H _]. fold w h ex in H. congruence.
Qed.
Lemma back_bonds a a' b b' R : namesake s L a a' -> namesake s L b b' ->
  bond_kept rnd fl (mkB a b R) (bond_value (sh_ham s) (mkB a b R)) (bond_value (ld_ham L) (mkB a' b' R)).
Proof.
  intros Na Nb. destruct ex eqn:Ex.
  2:{ unfold bond_kept. fold w. rewrite (no_bonds_read Ex). unfold bond_value at 1. unfold ex, h in Ex. destruct (h_exch (w_ham w)); [reflexivity|discriminate]. }
  destruct (has_exchange P fl s content secs ts La Ex) as [sec H]. destruct (exchange_is P fl s content secs ts La sec H) as (_ & Ws & C).
  assert (G : good_bonds w) by (intros k I; apply (bond_good s Ho (printable_good rnd s Hp) k I)).
  pose proof (exchange_text_read X P rnd HP fl w sec G C Ws) as Et.
  rewrite (co_bonds _ _ _ back_contents sec _ (mkB a' b' R) H Et (proj1 (proj2 Na)) (proj1 (proj2 Nb))).
  assert (En : forall p, In p (written w) -> is_entry (mkB a' b' R) (bond_of rnd fl w p) = true <-> fst p = mkB a b R).
  { intros p I. apply entry_is; auto. apply exch_key, written_in, I. }
  assert (Em : forall p, In p (written w) -> is_entry (mirror (mkB a' b' R)) (bond_of rnd fl w p) = true <-> fst p = mirror (mkB a b R)).
  { intros p I. apply entry_is; auto. apply exch_key, written_in, I. }
  assert (Ln : (forall p, In p (written w) -> fst p <> mkB a b R) -> last_for (mkB a' b' R) (map (bond_of rnd fl w) (written w)) = None).
  { intros N. apply last_some_none. intros x I. apply in_map_iff in I. destruct I as (p & <- & I). destruct (is_entry _ _) eqn:E; [|reflexivity]. apply En in E; [|exact I]. destruct (N p I E). }
  destruct Ho as (_ & Wf & Mc). destruct Wf as (Nd & _ & Lt & _).
  unfold bond_value. fold w h. destruct (dget (h_exch h) (mkB a b R)) as [l|] eqn:Dg.
  - apply dget_Some_In in Dg. pose proof (Lt _ _ Dg) as Ll. destruct (nth_error (w_store w) l) as [m|] eqn:Em'; [|apply nth_error_None in Em'; unfold w in Em'; lia].
    assert (Mm : matrix_of w l = m) by (unfold matrix_of; apply nth_error_nth, Em'). cbn [bond_kept].
    destruct (self_bond (mkB a b R)) eqn:Sb.
    + left. apply self_bond_spec in Sb. split; [exact Sb|]. rewrite Ln by (intros p I Q; apply written_in in I; rewrite Q in I; tauto).
      destruct (h_dc (w_ham (ld_ham L))) as [[|]|]; auto. rewrite (first_for_none _ (mirror (mkB a b R))); [reflexivity|intros p I; apply Em, I|].
      intros p I Q. rewrite (within_mirror _ Sb) in Q. apply written_in in I. rewrite Q in I. tauto.
    + right. assert (Nw : ~ within_cell (mkB a b R)) by (intros Q; apply self_bond_spec in Q; congruence). split; [exact Nw|]. exists (described (data_of rnd fl m)). split; [|apply described_parts].
      assert (Iw : In (mkB a b R, l) (written w)) by (apply written_in; auto).
      replace (last_for (mkB a' b' R) (map (bond_of rnd fl w) (written w))) with (Some (bond_of rnd fl w (mkB a b R, l))); [unfold bond_of; cbn [bn_data snd]; rewrite Mm; reflexivity|].
      symmetry. apply last_some_unique.
      * exists (bond_of rnd fl w (mkB a b R, l)). split; [apply in_map, Iw|]. rewrite (proj2 (En _ Iw)); reflexivity.
      * intros x z I E. apply in_map_iff in I. destruct I as (p & <- & I). destruct (is_entry _ _) eqn:Q; [|discriminate]. injection E as <-. apply En in Q; [|exact I].
        destruct p as [k l']. cbn [fst] in Q. subst k. apply written_in in I. destruct I as [I _]. f_equal. f_equal.
        pose proof (SectionProofs.dget_In (h_exch h) _ _ Nd I) as D1. pose proof (SectionProofs.dget_In (h_exch h) _ _ Nd Dg) as D2. congruence.
  - cbn [bond_kept]. assert (Nk : ~ In (mkB a b R) (bonds w)).
    { intros I. unfold bonds, dkeys in I. apply in_map_iff in I. destruct I as ([k l] & Q & I). cbn in Q. subst k. rewrite (SectionProofs.dget_In (h_exch h) _ _ Nd I) in Dg. discriminate. }
    rewrite Ln by (intros p I Q; apply Nk; rewrite <- Q; apply exch_key, written_in, I).
    pose proof back_notation as (Dc & _). destruct (h_dc (w_ham (ld_ham L))) as [[|]|] eqn:Q; auto.
    rewrite (first_for_none _ (mirror (mkB a b R))); [reflexivity|intros p I; apply Em, I|]. intros p I E.
    assert (Dt : h_dc (w_ham (sh_ham s)) = Some true) by (destruct (bonds (sh_ham s)); [discriminate|congruence]).
    apply Nk. rewrite <- (mirror_mirror (mkB a b R)). apply (Mc Dt). rewrite <- E. apply exch_key, written_in, I.
Qed.
Lemma back_sites a a' : namesake s L a a' -> onsite_value (ld_ham L) a' = option_map (fun m => rm rnd 4 (upper m)) (onsite_value (sh_ham s) a).
Proof.
  intros Na. destruct os eqn:Eo.
  2:{ assert (No : forall sec, ~ has_section secs "on-site" sec).
      { intros sec H. apply (on_site_is P fl s content secs ts La) in H. destruct H as [H _]. fold w h os in H. congruence. }
      rewrite (co_no_on_site _ _ _ back_contents No a'). unfold onsite_value. fold w h. unfold os in Eo. destruct (h_ons h); [reflexivity|discriminate]. }
  destruct (has_on_site P fl s content secs ts La Eo) as [sec H]. destruct (on_site_is P fl s content secs ts La sec H) as (_ & Ws & C). fold w in Ws.
  unfold w_on_site in Ws. destruct sec as [|hdr [|l0 lines]]; try discriminate. cbn [map] in Ws. pose proof (f_equal (@hd _ []) Ws) as Eh. apply (f_equal (@tl _)) in Ws. cbn [hd tl] in Eh, Ws.
  pose proof (f_equal (@hd _ []) Ws) as E0. apply (f_equal (@tl _)) in Ws. cbn [hd tl] in E0, Ws. inversion C as [|? ? _ C']; subst. inversion C' as [|? ? C0 Cl]; subst.
  assert (l0 = SUBSEPARATOR) by (apply sub_line; [apply C0|exact E0]). subst l0.
  assert (Et : on_site_text X (tl (hdr :: SUBSEPARATOR :: lines)) (map (site_of w) (h_ons h))).
  { cbn [tl]. apply os_sep; [apply is_subsep_spec, sub_is_sub|]. apply sites_read; [|exact Cl|exact Ws]. apply Forall_forall. intros p I. apply (site_good s Ho (printable_good rnd s Hp)). unfold sites, dkeys. apply in_map, I. }
  assert (Eu : energy_unit X hdr (fmul (c_milli X) (c_electron_volt X))) by (eapply eu_milli; [exact Eh|eexists; reflexivity]).
  rewrite (co_on_site _ _ _ back_contents _ _ _ a' H Et (on_site_unit X hdr _ Eu) (proj1 (proj2 Na))). destruct Na as (Ia & _ & Ea). rewrite <- Ea.
  assert (Sc : forall m, mscale (fdiv (fmul (c_milli X) (c_electron_volt X)) (ENERGY X)) m = m).
  { intros m. destruct HU as [_ U]. unfold ENERGY. revert U. generalize (fmul (c_milli X) (c_electron_volt X)). intros e U. unfold mscale, mmap. destruct m. cbn. f_equal; field; exact U. }
  destruct Ho as (_ & Wf & _). destruct Wf as (_ & Nd & _ & Lt & _). unfold onsite_value. fold w h.
  destruct (dget (h_ons h) a) as [l|] eqn:Dg.
  - apply dget_Some_In in Dg. pose proof (Lt _ _ Dg) as Ll. destruct (nth_error (w_store w) l) as [m|] eqn:Em; [|apply nth_error_None in Em; unfold w in Em; lia].
    assert (Mm : matrix_of w l = m) by (unfold matrix_of; apply nth_error_nth, Em).
    rewrite (last_entry_unique (a_name a) _ (rm rnd 4 (upper m))); [cbn [option_map]; rewrite Sc; reflexivity| |].
    + exists (site_of w (a, l)). split; [apply in_map, Dg|reflexivity].
    + intros e I E. apply in_map_iff in I. destruct I as ([b l'] & <- & I). cbn [site_of fst snd] in E |- *.
      assert (b = a) by (apply name_inj; auto; apply site_atom; unfold sites, dkeys; apply (in_map fst _ _ I)). subst b.
      pose proof (SectionProofs.dget_In (h_ons h) _ _ Nd I) as D1. pose proof (SectionProofs.dget_In (h_ons h) _ _ Nd Dg) as D2. assert (l' = l) by congruence. subst l'. rewrite Mm. reflexivity.
  - rewrite last_entry_none; [reflexivity|]. intros e I E. apply in_map_iff in I. destruct I as ([b l'] & <- & I). cbn [site_of fst snd] in E.
    assert (b = a) by (apply name_inj; auto; apply site_atom; unfold sites, dkeys; apply (in_map fst _ _ I)). subst b. rewrite (SectionProofs.dget_In (h_ons h) _ _ Nd I) in Dg. discriminate.
Qed.
End File.

(** ** Together *)
Theorem dump_then_load fl s content : one_object s -> printable rnd s -> something_written fl -> dump_txt P fl s = Ret content ->
  exists L, load_txt X (readlines content) = Ret L /\ kept X rnd fl s L /\ spiral_read X rnd s L /\ lost L.
Proof.
  intros Ho Hp Hw Hd. destruct (file_layout X P rnd HP fl s content Ho (printable_good rnd s Hp) Hd) as (secs & ts & La).
  destruct (read_back_exists fl s content Ho Hp Hw Hd secs ts La) as [L HL]. exists L. split; [exact HL|]. split; [|split].
  - split; [eapply back_cell; eassumption|]. split; [eapply back_atom_data; eassumption|]. split; [eapply back_names; eassumption|]. split; [eapply back_notation; eassumption|].
    split; [intros; eapply back_bonds; eassumption|]. split; [intros; eapply back_sites; eassumption|]. eapply back_cone; eassumption.
  - eapply back_spiral; eassumption.
  - eapply back_lost; eassumption.
Qed.
End Back.
