(** Loading a whole text file: what verification and the stages of the reader give. *)
From Coq Require Import String Ascii List Bool ZArith Arith Lia Permutation.
From Verif.Base Require Import Scalar Linear3 PyDict PyString PyText.
From Verif.Spec Require Import HamSpec HistorySpec TxtSpec TxtFormat.
From Verif.Model Require Import MatrixParam Hamiltonian TxtVerify TxtRead.
From Verif.Proofs Require Import DictProofs HamBasics HamSetters HamDouble HistoryProofs CallProofs TextBasics SectionProofs TxtReadProofs TextGlue VerifyProofs LoadProofs.
Import ListNotations.
Local Open Scope string_scope.

Section File.
Context {F : Type} {SF : Scalar F}.
Variable X : externals F.
Notation world := (@world F).

Lemma has_section_fun secs n s s' : NoDup (map section_name secs) -> has_section secs n s -> has_section secs n s' -> s = s'.
Proof.
  intros N [I E] [I' E']. revert N I I'. induction secs as [|x secs IH]; simpl; intros N I I'; [contradiction|]. inversion N; subst.
  destruct I as [->|I], I' as [->|I']; auto; exfalso; apply H1; [rewrite <- E'|rewrite E']; apply in_map; assumption.
Qed.

(** ** What acceptance means *)
Definition dict_of (secs : list (list string)) : dict string (list string) := map (fun s => (section_name s, s)) secs.
Lemma dict_of_get secs n s : NoDup (map section_name secs) -> dget (dict_of secs) n = Some s <-> has_section secs n s.
Proof.
  intros N. assert (N' : NoDup (map fst (dict_of secs))) by (unfold dict_of; rewrite map_map; exact N). split.
  - intros H. apply dget_Some_In in H. unfold dict_of in H. apply in_map_iff in H. destruct H as (s' & E & I). inversion E; subst. split; auto.
  - intros [I <-]. apply SectionProofs.dget_In; [exact N'|]. unfold dict_of. apply in_map_iff. exists s. auto.
Qed.
Lemma dict_of_mem secs n : NoDup (map section_name secs) -> dmem (dict_of secs) n = true <-> exists s, has_section secs n s.
Proof.
  intros N. unfold dmem. split.
  - destruct (dget (dict_of secs) n) as [s|] eqn:E; [|discriminate]. intros _. exists s. apply dict_of_get; assumption.
  - intros [s H]. apply dict_of_get in H; [|exact N]. rewrite H. reflexivity.
Qed.

Lemma accepted_inv secs ts found : laid_out secs ts -> NoDup (map section_name secs) ->
  verify_model_file (isfloat X) (isint X) (x_float X) true ts = Ret found ->
  found = dict_of secs /\ existsb short_equal ts = false /\
  exists sc sa allowed, has_section secs "cell" sc /\ has_section secs "atoms" sa /\ verify_atoms (isfloat X) sa = Ret (allowed, false)
    /\ forall s, In s secs -> section_name s <> "atoms" -> verify_section (isfloat X) (isint X) (x_float X) found allowed (section_name s) s = false.
Proof.
  intros L N V. unfold verify_model_file, verify_file in V. cbv zeta in V.
  destruct (existsb short_equal ts) eqn:Es.
  { destruct (dget (found_sections ts) "atoms") as [a|]; [destruct (verify_atoms (isfloat X) a) as [[al e]|]|]; cbn in V; discriminate. }
  assert (Hs : Forall (fun s => short_equal (hd "" s) = false) secs).
  { pose proof (TextGlue.laid_out_nonempty _ _ L) as Ne. rewrite (laid_out_short _ _ L) in Es. rewrite Forall_forall in *. intros s I.
    destruct (short_equal (hd "" s)) eqn:E; [|reflexivity]. rewrite <- Es. symmetry. apply existsb_exists. exists (hd "" s).
    split; [|exact E]. apply in_concat. exists s. split; [exact I|]. specialize (Ne s I). destruct s; [congruence|left; reflexivity]. }
  rewrite (found_laid_out secs ts L Hs N) in V. fold (dict_of secs) in V.
  destruct (dget (dict_of secs) "atoms") as [sa|] eqn:Ea.
  2:{ unfold dmem in V at 2. rewrite Ea in V. rewrite orb_true_r in V. cbn in V. discriminate. }
  destruct (verify_atoms (isfloat X) sa) as [[allowed e3]|] eqn:Eat; [|discriminate].
  match type of V with (if ?b && true then _ else _) = _ => destruct b eqn:Eb; [discriminate|] end. cbn in V. inversion V; subst found.
  split; [reflexivity|]. split; [reflexivity|].
  apply orb_false_elim in Eb. destruct Eb as [Eb Esec]. apply orb_false_elim in Eb. destruct Eb as [Eb ->].
  cbn [orb] in Eb. apply orb_false_elim in Eb. destruct Eb as [Ec _]. apply negb_false_iff in Ec. apply dict_of_mem in Ec; [|exact N].
  destruct Ec as [sc Ec]. exists sc, sa, allowed. split; [exact Ec|]. split; [apply dict_of_get; assumption|]. split; [exact Eat|].
  intros s I Hn. destruct (verify_section _ _ _ _ _ _ s) eqn:E; [|reflexivity]. rewrite <- Esec. symmetry. apply existsb_exists.
  exists (section_name s, s). split; [unfold dict_of; apply in_map_iff; exists s; auto|]. cbn [fst snd]. destruct (string_dec (section_name s) "atoms"); [congruence|exact E].
Qed.

(** ** The stages of loading *)
Lemma obind_inv {A B} (m : out A) (k : A -> out B) b : obind m k = Ret b -> exists a, m = Ret a /\ k a = Ret b.
Proof. destruct m; cbn; [eauto|discriminate]. Qed.
Definition stage {A} secs n (f : list string -> out A) (dflt r : A) : Prop :=
  (forall s, has_section secs n s -> f s = Ret r) /\ ((forall s, ~ has_section secs n s) -> r = dflt).
Lemma stage_if {A} secs n (f : list string -> out A) dflt r : NoDup (map section_name secs) ->
  (if dmem (dict_of secs) n then obind (of_option KeyError (dget (dict_of secs) n)) f else Ret dflt) = Ret r <-> stage secs n f dflt r.
Proof.
  intros N. split.
  - intros H. split.
    + intros s Hs. rewrite (proj2 (dict_of_mem secs n N)) in H by eauto. rewrite (proj2 (dict_of_get secs n s N) Hs) in H. exact H.
    + intros Hn. destruct (dmem (dict_of secs) n) eqn:E; [|inversion H; reflexivity]. apply dict_of_mem in E; [|exact N]. destruct E as [s Hs]. destruct (Hn s Hs).
  - intros [H1 H2]. destruct (dmem (dict_of secs) n) eqn:E.
    + apply dict_of_mem in E; [|exact N]. destruct E as [s Hs]. rewrite (proj2 (dict_of_get secs n s N) Hs). apply H1. exact Hs.
    + rewrite H2; [reflexivity|]. intros s Hs. rewrite (proj2 (dict_of_mem secs n N)) in E by eauto. discriminate.
Qed.
Lemma section_dec secs n : NoDup (map section_name secs) -> (exists s, has_section secs n s) \/ (forall s, ~ has_section secs n s).
Proof.
  intros N. destruct (dmem (dict_of secs) n) eqn:E; [left; apply dict_of_mem; assumption|right]. intros s Hs.
  rewrite (proj2 (dict_of_mem secs n N)) in E by eauto. discriminate.
Qed.

Definition stages secs (L : loaded) (scale : V3 F) (w1 w2 : world) : Prop :=
  (exists sc, has_section secs "cell" sc /\ read_cell X sc = Ret (ld_cell L, scale))
  /\ (exists sa, has_section secs "atoms" sa /\ read_atoms X (ld_cell L) scale sa = Ret (ld_atoms L))
  /\ ((exists s, has_section secs "exchange" s \/ has_section secs "on-site" s) ->
       exists sn, has_section secs "notation" sn /\ run_out (read_notation X sn) (crystal_of X (ld_atoms L)) = Ret w1)
  /\ ((forall s, ~ has_section secs "exchange" s /\ ~ has_section secs "on-site" s) -> w1 = crystal_of X (ld_atoms L))
  /\ stage secs "exchange" (fun l => run_out (read_exchange X l) w1) w1 w2
  /\ stage secs "on-site" (fun l => run_out (read_on_site X l) w2) w2 (ld_ham L)
  /\ stage secs "cone-axis" (fun l => obind (read_cone_axis X (ld_cell L) l) (fun n => Ret (Some n))) None (ld_cone L)
  /\ stage secs "spiral-vector" (fun l => obind (read_spiral_vector X (ld_cell L) l) (fun n => Ret (Some n))) None (ld_spiral L).

Lemma load_sections_stages secs L : NoDup (map section_name secs) ->
  load_sections X (dict_of secs) = Ret L <-> exists scale w1 w2, stages secs L scale w1 w2.
Proof.
  intros N. unfold load_sections. cbv zeta. split.
  - intros H. apply obind_inv in H. destruct H as ([cell scale] & Hc & H). apply obind_inv in Hc. destruct Hc as (sc & Hsc & Hc).
    apply obind_inv in H. destruct H as (atoms & Ha & H). apply obind_inv in Ha. destruct Ha as (sa & Hsa & Ha).
    apply obind_inv in H. destruct H as (w1 & H1 & H). apply obind_inv in H. destruct H as (w2 & H2 & H).
    apply obind_inv in H. destruct H as (w3 & H3 & H). apply obind_inv in H. destruct H as (cone & H4 & H).
    apply obind_inv in H. destruct H as (spiral & H5 & H). inversion H; subst L. exists scale, w1, w2.
    assert (G : forall n s, of_option KeyError (dget (dict_of secs) n) = Ret s -> has_section secs n s).
    { intros n s E. apply dict_of_get; [exact N|]. destruct (dget _ n); [inversion E; reflexivity|discriminate]. }
    unfold stages. cbn [ld_cell ld_atoms ld_ham ld_cone ld_spiral].
    split; [exists sc; split; [apply G; exact Hsc|exact Hc]|]. split; [exists sa; split; [apply G; exact Hsa|exact Ha]|].
    split; [|split; [|split; [|split; [|split]]]].
    + intros [s Hs]. assert (E : (dmem (dict_of secs) "exchange" || dmem (dict_of secs) "on-site")%bool = true).
      { apply orb_true_intro. destruct Hs as [Hs|Hs]; [left|right]; apply dict_of_mem; eauto. }
      rewrite E in H1. apply obind_inv in H1. destruct H1 as (sn & Hsn & H1). exists sn. split; [apply G; exact Hsn|exact H1].
    + intros Hn. assert (E : (dmem (dict_of secs) "exchange" || dmem (dict_of secs) "on-site")%bool = false).
      { apply orb_false_intro; match goal with |- dmem ?d ?n = false => destruct (dmem d n) eqn:E; [|reflexivity] end;
          apply dict_of_mem in E; [destruct E as [s Hs]; destruct (Hn s); contradiction|exact N|destruct E as [s Hs]; destruct (Hn s); contradiction|exact N]. }
      rewrite E in H1. inversion H1. reflexivity.
    + apply stage_if; [exact N|exact H2].
    + apply stage_if; [exact N|exact H3].
    + apply stage_if; [exact N|exact H4].
    + apply stage_if; [exact N|exact H5].
  - intros (scale & w1 & w2 & (sc & Hsc & Hc) & (sa & Hsa & Ha) & Hn1 & Hn0 & S2 & S3 & S4 & S5).
    rewrite (proj2 (dict_of_get secs "cell" sc N) Hsc). cbn [of_option obind]. rewrite Hc. cbn [obind].
    rewrite (proj2 (dict_of_get secs "atoms" sa N) Hsa). cbn [of_option obind]. rewrite Ha. cbn [obind].
    apply (stage_if _ _ _ _ _ N) in S2. apply (stage_if _ _ _ _ _ N) in S3. apply (stage_if _ _ _ _ _ N) in S4. apply (stage_if _ _ _ _ _ N) in S5.
    assert (E1 : (if (dmem (dict_of secs) "exchange" || dmem (dict_of secs) "on-site")%bool
       then obind (of_option KeyError (dget (dict_of secs) "notation")) (fun l => run_out (read_notation X l) (crystal_of X (ld_atoms L)))
       else Ret (crystal_of X (ld_atoms L))) = Ret w1).
    { destruct ((dmem (dict_of secs) "exchange" || dmem (dict_of secs) "on-site")%bool) eqn:E.
      - destruct Hn1 as (sn & Hsn & H1).
        { apply orb_true_elim in E. destruct E as [E|E]; apply dict_of_mem in E; try exact N; destruct E as [s Hs]; exists s; tauto. }
        rewrite (proj2 (dict_of_get secs "notation" sn N) Hsn). exact H1.
      - rewrite Hn0; [reflexivity|]. apply orb_false_elim in E. destruct E as [E1 E2]. intros s. split; intros Hs.
        + rewrite (proj2 (dict_of_mem secs "exchange" N)) in E1 by eauto. discriminate.
        + rewrite (proj2 (dict_of_mem secs "on-site" N)) in E2 by eauto. discriminate. }
    rewrite E1. cbn [obind]. rewrite S2. cbn [obind]. rewrite S3. cbn [obind]. rewrite S4. cbn [obind]. rewrite S5. destruct L; reflexivity.
Qed.

Lemma load_inv secs ts f L : file_shows f ts -> laid_out secs ts -> NoDup (map section_name secs) -> load_txt X f = Ret L ->
  verify_model_file (isfloat X) (isint X) (x_float X) true ts = Ret (dict_of secs) /\ exists scale w1 w2, stages secs L scale w1 w2.
Proof.
  intros S La N H. unfold load_txt in H. cbn [filter_txt_file obind] in H. rewrite (filter_of f ts S) in H. cbn [fst] in H.
  apply obind_inv in H. destruct H as (found & V & H). destruct (accepted_inv _ _ _ La N V) as [-> _]. split; [exact V|].
  apply load_sections_stages; assumption.
Qed.

(** ** Names of atoms *)
Lemma verify_atom_lines_inv Nb ni lines : forall allowed e allowed', verify_atom_lines (isfloat X) Nb (Some ni) lines allowed e = Ret (allowed', false) ->
  e = false /\ exists names, allowed' = (allowed ++ names)%list
    /\ Forall2 (fun l n => List.length (py_split l) = Nb /\ nth_error (py_split l) ni = Some n /\ verify_blocks (isfloat X) (Some ni) (py_split l) = false) lines names.
Proof.
  induction lines as [|l lines IH]; intros allowed e allowed' H; cbn [verify_atom_lines] in H.
  - inversion H; subst. split; [reflexivity|]. exists []. rewrite app_nil_r. split; [reflexivity|constructor].
  - destruct (nth_error (py_split l) ni) as [n|] eqn:En; [|discriminate].
    destruct (IH _ _ _ H) as (E & names & -> & Hn). apply orb_false_elim in E. destruct E as [E Eb]. apply orb_false_elim in E. destruct E as [E _].
    apply orb_false_elim in E. destruct E as [-> E]. apply negb_false_iff in E. apply Nat.eqb_eq in E. split; [reflexivity|].
    exists (n :: names). split; [rewrite <- app_assoc; reflexivity|]. constructor; auto.
Qed.
Lemma nodup_len_NoDup (l : list string) : List.length (nodup string_dec l) = List.length l -> NoDup l.
Proof.
  induction l as [|x l IH]; simpl; intros H; [constructor|]. destruct (in_dec string_dec x l) as [I|I].
  - exfalso. assert (List.length (nodup string_dec l) <= List.length l)%nat; [|simpl in *; lia].
    clear. induction l as [|y l IH]; simpl; [lia|]. destruct (in_dec string_dec y l); simpl; lia.
  - simpl in H. constructor; [exact I|apply IH; lia].
Qed.
Lemma verify_atoms_inv sa allowed : verify_atoms (isfloat X) sa = Ret (allowed, false) -> exists l0 l1 lines ni,
  sa = l0 :: l1 :: lines /\ lines <> [] /\ verify_section_header l0 ["a"; "b"] = false /\ index_of "name" (py_split (str_lower l1)) = Some ni
  /\ snd (verify_atoms_data_header l1) = false /\ NoDup allowed
  /\ Forall2 (fun l n => List.length (py_split l) = List.length (py_split l1) /\ nth_error (py_split l) ni = Some n
        /\ verify_blocks (isfloat X) (Some ni) (py_split l) = false) lines allowed.
Proof.
  unfold verify_atoms, verify_size_at_least. intros H. destruct (Nat.ltb (List.length sa) 3) eqn:El; [discriminate|]. apply Nat.ltb_ge in El.
  destruct sa as [|l0 [|l1 [|l2 lines]]]; try (simpl in El; lia). cbn [hd nth skipn] in H.
  unfold verify_atoms_data_header in *. cbv zeta in *.
  destruct (index_of "name" (py_split (str_lower l1))) as [ni|] eqn:Ei.
  2:{ exfalso. rewrite orb_true_r in H. repeat rewrite orb_true_l in H. rewrite orb_true_r in H.
      assert (G : forall ls al, match verify_atom_lines (isfloat X) (List.length (py_split l1)) None ls al true with Ret (_, e) => e = true | Raise _ => True end).
      { induction ls as [|l ls IH]; intros al; cbn [verify_atom_lines]; [reflexivity|]. apply IH. }
      specialize (G (l2 :: lines) []). destruct (verify_atom_lines _ _ _ _ _ _) as [[al e]|]; [|discriminate]. subst e. discriminate. }
  destruct (verify_atom_lines _ _ _ _ _ _) as [[al e]|] eqn:Ev; [|discriminate]. injection H as Ea Ee. subst al.
  apply orb_false_elim in Ee. destruct Ee as [-> Ee]. apply negb_false_iff in Ee. apply Nat.eqb_eq in Ee.
  destruct (verify_atom_lines_inv _ _ _ _ _ _ Ev) as (E & names & -> & Hn). apply orb_false_elim in E. destruct E as [E1 E2].
  exists l0, l1, (l2 :: lines), ni. split; [reflexivity|]. split; [discriminate|]. split; [exact E1|]. split; [exact Ei|]. split; [cbn [snd]; rewrite Ei; exact E2|].
  cbn [app] in *. split; [|exact Hn]. apply nodup_len_NoDup. rewrite Ee. rewrite <- (Forall2_length_eq _ _ _ Hn). cbn. lia.
Qed.

Lemma read_atom_name cell scale conv header line a : read_atom X cell scale conv header line = Ret a ->
  exists ni, index_of "name" header = Some ni /\ nth_error (py_split line) ni = Some (ad_name a).
Proof.
  unfold read_atom. intros H. apply obind_inv in H. destruct H as (ni & Hi & H). destruct (index_of "name" header) as [ni'|]; [|discriminate].
  inversion Hi; subst ni'. apply obind_inv in H. destruct H as (n & Hn & H). unfold item in Hn. destruct (nth_error (py_split line) ni) eqn:E; [|discriminate].
  inversion Hn; subst. exists ni. split; [reflexivity|].
  repeat (apply obind_inv in H; destruct H as (? & _ & H)). inversion H. exact E.
Qed.
Lemma read_atom_lines_names cell scale conv header lines : forall atoms names ni, read_atom_lines X cell scale conv header lines = Ret atoms ->
  index_of "name" header = Some ni -> Forall2 (fun l n => nth_error (py_split l) ni = Some n) lines names -> map ad_name atoms = names.
Proof.
  induction lines as [|l lines IH]; intros atoms names ni H Hi Hn; cbn [read_atom_lines] in H; inversion Hn; subst.
  - inversion H. reflexivity.
  - apply obind_inv in H. destruct H as (a & Ha & H). apply obind_inv in H. destruct H as (r & Hr & H). inversion H; subst. cbn.
    destruct (read_atom_name _ _ _ _ _ _ Ha) as (ni' & Hi' & Ea). f_equal; [congruence|]. apply (IH r _ ni Hr Hi). assumption.
Qed.
Lemma read_atoms_names cell scale sa allowed atoms : verify_atoms (isfloat X) sa = Ret (allowed, false) ->
  read_atoms X cell scale sa = Ret atoms -> map ad_name atoms = allowed.
Proof.
  intros V H. destruct (verify_atoms_inv sa allowed V) as (l0 & l1 & lines & ni & -> & _ & _ & Hi & _ & _ & Hn).
  unfold read_atoms in H. apply obind_inv in H. destruct H as (x & Hx & H). cbn in Hx. inversion Hx; subst.
  apply obind_inv in H. destruct H as (conv & _ & H). cbn [item nth_error of_option obind skipn] in H.
  eapply read_atom_lines_names; eauto. clear - Hn. induction Hn; constructor; tauto.
Qed.
Lemma number_names n atoms : map a_name (map fst (number_atoms n atoms)) = map (@ad_name F) atoms.
Proof. revert n. induction atoms as [|a l IH]; intros n; [reflexivity|]. cbn. f_equal. apply IH. Qed.
Lemma crystal_names atoms : map a_name (h_atoms (w_ham (crystal_of X atoms))) = map (@ad_name F) atoms.
Proof. apply number_names. Qed.

Lemma Inv_empty (w : world) : h_exch (w_ham w) = [] -> h_ons (w_ham w) = [] -> Inv w.
Proof.
  intros E O. unfold Inv, wf, mirror_closed, bonds, sites. rewrite E, O. cbn. repeat split; try constructor; intros; try contradiction.
Qed.

(** ** Everything that a loaded file contains *)
Hypothesis Hlow : forall w, x_float X (str_lower w) = x_float X w.

Lemma run_out_inv {A} (m : @M F A) w w' : run_out m w = Ret w' -> exists a, m w = (w', Ret a).
Proof. unfold run_out. destruct (m w) as [w1 [a|e]]; [|discriminate]. intros H; inversion H; eauto. Qed.

Lemma section_clean secs ts f n s : file_shows f ts -> laid_out secs ts -> has_section secs n s -> exists hdr lines, s = hdr :: lines /\ clean hdr /\ Forall clean lines.
Proof.
  intros S L [I _]. pose proof (laid_out_clean _ _ L (file_shows_clean _ _ S)) as C. pose proof (TextGlue.laid_out_nonempty _ _ L) as Ne.
  rewrite Forall_forall in C, Ne. specialize (C s I). specialize (Ne s I). destruct s as [|h l]; [congruence|]. inversion C; subst. eauto.
Qed.

(** The notation stage. *)
Lemma notation_stage hdr lines ps atoms : Forall2 (property_text X) lines ps -> Forall clean lines ->
  run_out (read_notation X (hdr :: lines)) (crystal_of X atoms) = Ret (mkW [] (noted ps (w_ham (crystal_of X atoms)))).
Proof.
  intros P C. unfold run_out, read_notation. cbn [tl]. rewrite (read_properties X lines ps P C).
  unfold crystal_of. rewrite (set_properties_empty ps [] (new_ham _ _)); reflexivity.
Qed.

Record contents secs (L : @loaded F) : Prop := {
  co_names : NoDup (map (@ad_name F) (ld_atoms L));
  co_atoms : h_atoms (w_ham (ld_ham L)) = map fst (number_atoms 1 (ld_atoms L));
  co_spins : h_spins (w_ham (ld_ham L)) = map (fun p => (fst p, x_norm X (ad_spin (snd p)))) (number_atoms 1 (ld_atoms L));
  co_inv : Inv (ld_ham L);
  co_bonds : forall s bs k, has_section secs "exchange" s -> exchange_text X (tl s) bs ->
    In (b_from k) (h_atoms (w_ham (ld_ham L))) -> In (b_to k) (h_atoms (w_ham (ld_ham L))) ->
    bond_value (ld_ham L) k = match last_for k bs with
      | Some b => Some (described (bn_data b))
      | None => match h_dc (w_ham (ld_ham L)) with
                | Some true => option_map (fun b => mtrans (described (firstn 1 (bn_data b)))) (first_for (mirror k) bs)
                | _ => None
                end
      end;
  co_no_bonds : (forall s, ~ has_section secs "exchange" s) -> forall k, bond_value (ld_ham L) k = None;
  co_on_site : forall s es conv a, has_section secs "on-site" s -> on_site_text X (tl s) es -> on_site_units X (units_word (hd "" s)) = Ret conv ->
    In a (h_atoms (w_ham (ld_ham L))) -> onsite_value (ld_ham L) a = option_map (mscale conv) (last_entry (a_name a) es);
  co_no_on_site : (forall s, ~ has_section secs "on-site" s) -> forall a, onsite_value (ld_ham L) a = None;
  co_notation : forall s n ps, (exists s', has_section secs "exchange" s' \/ has_section secs "on-site" s') -> has_section secs "notation" n -> s = tl n ->
    Forall2 (property_text X) s ps ->
    h_dc (w_ham (ld_ham L)) = last_some (fun p => match p with PDouble b => Some b | _ => None end) ps
    /\ h_sn (w_ham (ld_ham L)) = last_some (fun p => match p with PSpin b => Some b | _ => None end) ps
    /\ h_ef (w_ham (ld_ham L)) = last_some (fun p => match p with PExchange b => Some b | _ => None end) ps
    /\ h_of (w_ham (ld_ham L)) = last_some (fun p => match p with POnSite b => Some b | _ => None end) ps
}.

Theorem loaded_contents secs ts f L : file_shows f ts -> laid_out secs ts -> NoDup (map section_name secs) -> load_txt X f = Ret L -> contents secs L.
Proof.
  intros S La N H. destruct (load_inv _ _ _ _ S La N H) as (V & scale & w1 & w2 & St).
  destruct (accepted_inv _ _ _ La N V) as (_ & _ & sc & sa & allowed & Hsc & Hsa & Va & Vs).
  destruct St as ((sc' & Hsc' & Rc) & (sa' & Hsa' & Ra) & Hn1 & Hn0 & S2 & S3 & _ & _).
  assert (Esa : sa' = sa) by (eapply has_section_fun; eauto). subst sa'. clear sc' Hsc' Rc.
  pose proof (read_atoms_names _ _ _ _ _ Va Ra) as En. destruct (verify_atoms_inv _ _ Va) as (_ & _ & _ & _ & _ & _ & _ & _ & _ & Nd & _).
  set (w0 := crystal_of X (ld_atoms L)) in *.
  (* notation *)
  assert (W1 : exists h, w1 = mkW [] h /\ h_exch h = [] /\ h_ons h = [] /\ h_atoms h = h_atoms (w_ham w0) /\ h_spins h = h_spins (w_ham w0)).
  { destruct (section_dec secs "exchange" N) as [[s Hs]|Hex]; [|destruct (section_dec secs "on-site" N) as [[s Hs]|Hos]].
    3:{ exists (w_ham w0). rewrite (Hn0 (fun s => conj (Hex s) (Hos s))). split; [reflexivity|]. repeat split. }
    all: (destruct Hn1 as (sn & Hsn & Hr); [exists s; tauto|]; destruct (section_clean _ _ _ _ _ S La Hsn) as (hdr & lines & -> & _ & C);
      assert (Vn : section_name (hdr :: lines) <> "atoms") by (destruct Hsn as [_ ->]; discriminate);
      pose proof (Vs _ (proj1 Hsn) Vn) as Vv; rewrite (proj2 Hsn) in Vv; cbn in Vv;
      destruct (notation_ok X Hlow _ _ _ _ _ _ Vv) as (ps & P & _);
      unfold w0 in Hr; rewrite (notation_stage hdr lines ps (ld_atoms L) P C) in Hr; inversion Hr; eexists; split; [reflexivity|];
      destruct (noted_rest ps (w_ham (crystal_of X (ld_atoms L)))) as (A & B & Cc & D); split; [exact A|split; [exact B|split; [exact Cc|exact D]]]). }
  destruct W1 as (h1 & -> & He1 & Ho1 & Ha1 & Hs1).
  assert (I1 : Inv (mkW [] h1)) by (apply Inv_empty; assumption).
  assert (Nw1 : names_ok (mkW [] h1)).
  { unfold names_ok. cbn [w_ham]. rewrite Ha1. unfold w0. rewrite crystal_names, En. exact Nd. }
  (* exchange *)
  assert (W2 : Inv w2 /\ same_frame (mkW [] h1) w2 /\ (forall a, onsite_value w2 a = None)
    /\ (forall s bs k, has_section secs "exchange" s -> exchange_text X (tl s) bs -> In (b_from k) (h_atoms h1) -> In (b_to k) (h_atoms h1) ->
         bond_value w2 k = match last_for k bs with
           | Some b => Some (described (bn_data b))
           | None => match h_dc h1 with Some true => option_map (fun b => mtrans (described (firstn 1 (bn_data b)))) (first_for (mirror k) bs) | _ => None end
           end)
    /\ ((forall s, ~ has_section secs "exchange" s) -> forall k, bond_value w2 k = None)).
  { assert (On1 : forall a, onsite_value (mkW [] h1) a = None) by (intros a; unfold onsite_value; cbn; rewrite Ho1; reflexivity).
    assert (Bn1 : forall k, bond_value (mkW [] h1) k = None) by (intros k; unfold bond_value; cbn; rewrite He1; reflexivity).
    destruct S2 as [S2 S2']. destruct (section_dec secs "exchange" N) as [[s Hs]|Hex].
    2:{ rewrite (S2' Hex). split; [exact I1|]. split; [apply same_frame_refl|]. split; [exact On1|]. split; [intros s bs k Hs; destruct (Hex s Hs)|intros _; exact Bn1]. }
    pose proof (S2 s Hs) as Hr. destruct (section_clean _ _ _ _ _ S La Hs) as (hdr & lines & -> & _ & C).
    assert (Vn : section_name (hdr :: lines) <> "atoms") by (destruct Hs as [_ ->]; discriminate).
    pose proof (Vs _ (proj1 Hs) Vn) as Vv. rewrite (proj2 Hs) in Vv. cbn [string_dec] in Vv. unfold verify_section in Vv. cbn in Vv.
    destruct (exchange_ok X Hlow _ _ _ Vv C) as (bs & Hbs & _ & Hall).
    apply run_out_inv in Hr. destruct Hr as [u Hr].
    assert (Hconv : exists conv, exchange_units X (units_word hdr) = Ret conv).
    { unfold read_exchange in Hr. cbn [item nth_error of_option] in Hr. unfold bind, lift in Hr. cbn in Hr.
      destruct (exchange_units X (units_word hdr)); [eauto|discriminate]. }
    destruct Hconv as [conv Hconv]. rewrite (read_exchange_calls X hdr lines bs conv Hbs C Hconv) in Hr. destruct u.
    destruct (calls_effect _ I1 ltac:(unfold bonds; cbn; rewrite He1; reflexivity) _ _ Hr) as (ks & K & At & I2 & F2 & V2 & O2 & _).
    { apply Forall_flat_map. rewrite Forall_forall. intros b _. apply bond_calls_some. }
    split; [exact I2|]. split; [exact F2|]. split; [intros a; rewrite O2; apply On1|]. split; [|intros Hn; destruct (Hn _ Hs)].
    intros s' bs' k Hs' Hbs' Ik1 Ik2. assert (s' = hdr :: lines) by (eapply has_section_fun; eauto). subst s'. cbn [tl] in Hbs'.
    rewrite (exchange_text_fun X lines bs' bs C Hbs' Hbs). rewrite V2. apply (calls_value_entries (h_atoms h1)); auto.
    eapply Forall_impl; [|exact Hall]. cbn. tauto. }
  destruct W2 as (I2 & F2 & O2 & V2 & Vn2).
  assert (Nw2 : names_ok w2) by (unfold names_ok; rewrite (proj1 F2); exact Nw1).
  (* on-site *)
  assert (W3 : Inv (ld_ham L) /\ same_frame w2 (ld_ham L) /\ (forall k, bond_value (ld_ham L) k = bond_value w2 k)
    /\ (forall s es conv a, has_section secs "on-site" s -> on_site_text X (tl s) es -> on_site_units X (units_word (hd "" s)) = Ret conv ->
          In a (h_atoms (w_ham w2)) -> onsite_value (ld_ham L) a = option_map (mscale conv) (last_entry (a_name a) es))
    /\ ((forall s, ~ has_section secs "on-site" s) -> forall a, onsite_value (ld_ham L) a = None)).
  { destruct S3 as [S3 S3']. destruct (section_dec secs "on-site" N) as [[s Hs]|Hos].
    2:{ rewrite (S3' Hos). split; [exact I2|]. split; [apply same_frame_refl|]. split; [reflexivity|]. split; [intros s es conv a Hs; destruct (Hos s Hs)|intros _; exact O2]. }
    pose proof (S3 s Hs) as Hr. destruct (section_clean _ _ _ _ _ S La Hs) as (hdr & lines & -> & _ & C).
    assert (Vn : section_name (hdr :: lines) <> "atoms") by (destruct Hs as [_ ->]; discriminate).
    pose proof (Vs _ (proj1 Hs) Vn) as Vv. rewrite (proj2 Hs) in Vv. unfold verify_section in Vv. cbn in Vv. unfold verify_on_site in Vv. cbn [tl hd] in Vv.
    destruct (verify_on_site_lines (isfloat X) allowed false lines) as [e c] eqn:Ev.
    apply orb_false_elim in Vv. destruct Vv as [Vv _]. apply orb_false_elim in Vv. destruct Vv as [Vh ->].
    destruct (on_site_ok X Hlow allowed (List.length lines) lines c (le_n _) Ev C) as (es & Hes & _).
    apply run_out_inv in Hr. destruct Hr as [u Hr].
    assert (Hconv : exists conv, on_site_units X (units_word hdr) = Ret conv).
    { unfold read_on_site in Hr. cbn [item nth_error of_option] in Hr. unfold bind, lift in Hr. cbn in Hr.
      destruct (on_site_units X (units_word hdr)); [eauto|discriminate]. }
    destruct Hconv as [conv Hconv].
    assert (Eq : forall es', on_site_text X lines es' -> for_each es' (os_call conv) w2 = (ld_ham L, Ret tt)).
    { intros es' Hes'. unfold read_on_site in Hr. cbn [item nth_error of_option tl] in Hr. unfold bind at 1 2, lift in Hr. rewrite Hconv in Hr.
      rewrite (read_on_site_calls X conv lines es' Hes' C) in Hr. destruct u. exact Hr. }
    destruct (os_effect conv w2 I2 Nw2 es (ld_ham L) (Eq es Hes)) as (I3 & F3 & V3 & _ & O3).
    split; [exact I3|]. split; [exact F3|]. split; [exact V3|]. split; [|intros Hn; destruct (Hn _ Hs)].
    intros s' es' conv' a Hs' Hes' Hconv' Ia. assert (s' = hdr :: lines) by (eapply has_section_fun; eauto). subst s'. cbn [tl hd] in *.
    rewrite Hconv in Hconv'. inversion Hconv'; subst conv'.
    destruct (os_effect conv w2 I2 Nw2 es' (ld_ham L) (Eq es' Hes')) as (_ & _ & _ & _ & O3').
    rewrite (O3' a Ia). rewrite O2. destruct (last_entry (a_name a) es'); reflexivity. }
  destruct W3 as (I3 & F3 & V3 & O3 & On3).
  assert (F13 : same_frame (mkW [] h1) (ld_ham L)) by (eapply same_frame_trans; eauto). destruct F13 as (Fa & Fs & Fdc & Fsn & Fef & Fof). cbn [w_ham] in *.
  assert (Fa2 : h_atoms (w_ham w2) = h_atoms h1) by apply F2.
  split.
  - rewrite En. exact Nd.
  - rewrite Fa, Ha1. reflexivity.
  - rewrite Fs, Hs1. reflexivity.
  - exact I3.
  - intros s bs k Hs Hbs J1 J2. rewrite Fa in J1, J2. rewrite V3, Fdc. eapply V2; eauto.
  - intros Hn k. rewrite V3. apply Vn2, Hn.
  - intros s es conv a Hs Hes Hc Ia. rewrite Fa in Ia. eapply O3; eauto. rewrite Fa2. exact Ia.
  - exact On3.
  - intros s n ps Hex Hn -> P. destruct (Hn1 Hex) as (sn & Hsn & Hr). assert (sn = n) by (eapply has_section_fun; eauto). subst sn.
    destruct (section_clean _ _ _ _ _ S La Hn) as (hdr & lines & -> & _ & C). cbn [tl] in P.
    unfold w0 in Hr. rewrite (notation_stage hdr lines ps (ld_atoms L) P C) in Hr. injection Hr as Eh.
    change (new_ham (map fst (number_atoms 1 (ld_atoms L))) (map (fun p => (fst p, x_norm X (ad_spin (snd p)))) (number_atoms 1 (ld_atoms L))))
      with (w_ham (crystal_of X (ld_atoms L))) in Eh.
    destruct (noted_values ps (w_ham (crystal_of X (ld_atoms L)))) as (A & B & Cc & D).
    rewrite Fdc, Fsn, Fef, Fof, <- Eh. rewrite A, B, Cc, D. cbn [h_dc h_sn h_ef h_of w_ham crystal_of new_ham].
    split; [|split; [|split]]; match goal with |- match ?x with _ => _ end = _ => destruct x; reflexivity end.
Qed.

End File.
