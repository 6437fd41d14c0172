(** Sample files for units, mirrors, scale factors and verification. *)
From Coq Require Import String Ascii List Bool ZArith Arith Lia Permutation QArith Qcanon.
From Verif.Base Require Import Scalar Linear3 QcLit PyDict PyString PyText.
From Verif.Spec Require Import HamSpec TxtSpec TxtFormat.
From Verif.Model Require Import MatrixParam Hamiltonian TxtVerify TxtRead.
From Verif.Proofs Require Import TextBasics SectionProofs TextGlue TextWitness TextSane TextCases FileProofs.
Import ListNotations.
Local Open Scope string_scope.

Lemma is_file_by secs : lay secs = true -> distinct (map section_name secs) = true -> fst (filter_lines 0 (join secs)) = join secs ->
  is_file secs (join secs).
Proof. intros H1 H2 H3. exists (join secs). split; [apply file_shows_by; exact H3|]. split; [apply laid_out_by; exact H1|apply distinct_NoDup; exact H2]. Qed.

Definition accepted (f : list string) : bool :=
  returns (verify_model_file (isfloat QX) (isint QX) (x_float QX) true (fst (filter_lines 0 f))).
Lemma accepts_by f : accepted f = true -> accepts QX f.
Proof. unfold accepts. intros H. apply returns_accepts. exact H. Qed.

(** ** Verified and loaded *)
Lemma full_file : is_file full_sections full.
Proof. apply is_file_by; reflexivity. Qed.
Ltac sect H := destruct H as [H _]; unfold full_sections in H; simpl in H;
  repeat (destruct H as [H|H]; [try (subst; discriminate)|]); [| contradiction].
Lemma full_section n s : has_section full_sections n s -> forall s', In s' full_sections -> section_name s' = n -> s = s'.
Proof. intros H s' I E. eapply (has_section_fun full_sections n); [apply distinct_NoDup; reflexivity|exact H|split; assumption]. Qed.

Lemma numbers_det ws xs : numbers QX ws xs -> map (fun w => match decimal w with Some x => x | None => f0 end) ws = xs.
Proof. intros H. induction H as [|w x ws xs E _ IH]; [reflexivity|]. cbn [map]. change (x_float QX w) with (decimal w) in E. rewrite E. f_equal. exact IH. Qed.

Lemma full_hyps : accepts QX full /\ (has_parameters full_sections -> exists n, has_section full_sections "notation" n)
  /\ undashed full_sections /\ not_joule full_sections /\ true_cell QX full_sections /\ true_axis QX full_sections.
Proof.
  split; [apply accepts_by; vm_compute; reflexivity|]. split; [|split; [|split; [|split]]].
  - intros _. exists s_notation. split; [simpl; tauto|reflexivity].
  - intros s l Hs. rewrite (full_section _ _ Hs s_atoms); [|simpl; tauto|reflexivity]. intros I.
    repeat (destruct I as [<-|I]; [vm_compute; intuition discriminate|]). destruct I.
  - intros s k u Hs. rewrite (full_section _ _ Hs s_exchange); [|simpl; tauto|reflexivity]. intros E. vm_compute in E. inversion E; subst.
    intros [w H]. vm_compute in H. discriminate.
  - intros s p l1 l2 l3 a b c d e f g h i Hs. rewrite (full_section _ _ Hs s_cell); [|simpl; tauto|reflexivity]. intros E N1 N2 N3.
    assert (E' : [l1; l2; l3] = skipn (List.length p) s_cell) by (rewrite E, skipn_app, skipn_all, Nat.sub_diag; reflexivity).
    assert (Lp : List.length p = 1%nat) by (apply (f_equal (@List.length string)) in E; rewrite app_length in E; simpl in E; lia).
    rewrite Lp in E'. unfold s_cell in E'. cbn [skipn] in E'. injection E' as -> -> ->.
    apply numbers_det in N1, N2, N3. vm_compute in N1, N2, N3. injection N1 as <- <- <-. injection N2 as <- <- <-. injection N3 as <- <- <-.
    intros Hd. vm_compute in Hd. discriminate.
  - intros s hdr l a b c Hs. rewrite (full_section _ _ Hs s_cone); [|simpl; tauto|reflexivity]. intros E N. unfold s_cone in E. injection E as <- <-.
    apply numbers_det in N. vm_compute in N. injection N as <- <- <-. intros Hd. vm_compute in Hd. discriminate.
Qed.

(** Parameters without notation. *)
Definition no_notation := join [s_cell; s_atoms; s_exchange].
Lemma no_notation_crashes : accepts QX no_notation /\ load_txt QX no_notation = Raise KeyError.
Proof. split; [apply accepts_by; vm_compute; reflexivity|vm_compute; reflexivity]. Qed.
(** A spin that is not defined. *)
Definition s_atoms_dash : list string := ["Atoms"; "name r1 r2 r3 Sx Sy Sz"; "Cr1 0 0 0 - - -"; "Cr2 0.5 0.5 0 0 0 -1"].
Definition dash_file := join [s_cell; s_atoms_dash].
Lemma dash_crashes : accepts QX dash_file /\ load_txt QX dash_file = Raise ValueError.
Proof. split; [apply accepts_by; vm_compute; reflexivity|vm_compute; reflexivity]. Qed.
(** Exchange in joule. *)
Definition s_bond (unit : string) : list string := ["Exchange " ++ unit; "Cr1 Cr2 0 0 0"; "Isotropic 2"].
Definition s_joule := s_bond "Joule".
Definition joule_file := join [s_cell; s_atoms; s_notation; s_joule].
Lemma joule_crashes : accepts QX joule_file /\ load_txt QX joule_file = Raise NameError.
Proof. split; [apply accepts_by; vm_compute; reflexivity|vm_compute; reflexivity]. Qed.

(** ** Units *)
Definition atom1 := mkAtom "Cr1" 1. Definition atom2 := mkAtom "Cr2" 2.
Definition bond12 := mkB atom1 atom2 (0, 0, 0)%Z.
Definition entry12 (ds : list datum) : @bond Qc := mkBond "Cr1" "Cr2" (0, 0, 0)%Z ds.

Definition ev_sections := [s_cell; s_atoms; s_notation; s_bond "eV"].
Lemma iso_line : bond_text QX ["Cr1 Cr2 0 0 0"; "Isotropic 2"] (entry12 [DIso (q 2)]).
Proof.
  do 8 eexists. split; [reflexivity|]. split; [vm_compute; reflexivity|]. split; [vm_compute; reflexivity|]. split; [vm_compute; reflexivity|].
  split; [vm_compute; reflexivity|]. split; [reflexivity|]. eapply dt_iso; [vm_compute; reflexivity| |vm_compute; reflexivity|constructor].
  eexists. vm_compute. reflexivity.
Qed.
Lemma not_dash_by l : is_subsep l = false -> ~ dash_separator l.
Proof. apply TxtReadProofs.is_subsep_false. Qed.
Lemma ev_text : exchange_text QX (tl (s_bond "eV")) [entry12 [DIso (q 2)]].
Proof. apply et_last; [exact iso_line|]. repeat constructor; apply not_dash_by; reflexivity. Qed.

Definition result (f : list string) : loaded := match load_txt QX f with Ret l => l | Raise _ => mkL (mkM f0 f0 f0 f0 f0 f0 f0 f0 f0) [] (mkW [] (new_ham [] [])) None None end.
Lemma result_loads f : returns (load_txt QX f) = true -> load_txt QX f = Ret (result f).
Proof. unfold result. destruct (load_txt QX f); [reflexivity|discriminate]. Qed.

Definition entry1 (m : option (M3 Qc)) : option Q := option_map (fun m => this (mxx m)) m.
Lemma ev_ignored : is_file ev_sections (join ev_sections) /\ load_txt QX (join ev_sections) = Ret (result (join ev_sections))
  /\ has_section ev_sections "exchange" (s_bond "eV") /\ energy_unit QX (hd "" (s_bond "eV")) (c_electron_volt QX)
  /\ last_for bond12 [entry12 [DIso (q 2)]] = Some (entry12 [DIso (q 2)])
  /\ In (b_from bond12) (h_atoms (w_ham (ld_ham (result (join ev_sections)))))
  /\ In (b_to bond12) (h_atoms (w_ham (ld_ham (result (join ev_sections)))))
  /\ exists m, bond_value (ld_ham (result (join ev_sections))) bond12 = Some m
     /\ mscale (fmul (c_milli QX) (c_electron_volt QX)) m <> mscale (c_electron_volt QX) (described [DIso (q 2)]).
Proof.
  split; [apply is_file_by; reflexivity|]. split; [apply result_loads; vm_compute; reflexivity|].
  split; [split; [simpl; tauto|reflexivity]|]. split; [eapply eu_electron_volt; [reflexivity|eexists; reflexivity]|].
  split; [vm_compute; reflexivity|]. split; [vm_compute; tauto|]. split; [vm_compute; tauto|].
  destruct (bond_value (ld_ham (result (join ev_sections))) bond12) as [m|] eqn:E.
  - exists m. split; [reflexivity|]. intros H. apply (f_equal (fun m => this (mxx m))) in H.
    apply (f_equal (option_map (fun m => this (mxx m)))) in E. vm_compute in E. cbn [option_map] in E. injection E as E.
    unfold mscale, mmap in H. cbn [mxx] in H. destruct m as [[x Hx] a2 a3 a4 a5 a6 a7 a8 a9]. cbn in E. subst x. vm_compute in H. discriminate.
  - apply (f_equal (option_map (fun m => this (mxx m)))) in E. vm_compute in E. discriminate.
Qed.

Lemma full_on_site : has_section full_sections "on-site" s_on_site /\ on_site_text QX (tl s_on_site) [("Cr2", qm 1 4 5 4 2 6 5 6 3)]
  /\ energy_unit QX (hd "" s_on_site) (fmul (c_milli QX) (c_electron_volt QX)) /\ last_entry "Cr2" [("Cr2", qm 1 4 5 4 2 6 5 6 3)] = Some (qm 1 4 5 4 2 6 5 6 3)
  /\ In atom2 (h_atoms (w_ham (ld_ham (result full)))) /\ fmul (c_milli QX) (c_electron_volt QX) <> f0.
Proof.
  split; [split; [simpl; tauto|reflexivity]|]. split.
  { eapply os_entry; [reflexivity|apply not_dash_by; reflexivity| |].
    - unfold numbers. repeat constructor.
    - apply os_sep; [apply TxtReadProofs.is_subsep_spec; reflexivity|constructor]. }
  split; [eapply eu_milli; [reflexivity|eexists; reflexivity]|]. split; [reflexivity|]. split; [vm_compute; tauto|intros H; apply (f_equal this) in H; vm_compute in H; discriminate].
Qed.

(** ** Mirrors *)
Definition s_two : list string := ["Exchange meV"; "Cr1 Cr2 0 0 0"; "Isotropic 2"; "DMI 0 0 1"].
Definition two_sections := [s_cell; s_atoms; s_notation; s_two].
Definition two_entry := entry12 [DIso (q 2); DDmi (qv 0 0 1)].
Lemma two_text : exchange_text QX (tl s_two) [two_entry].
Proof.
  apply et_last.
  - do 8 eexists. split; [reflexivity|]. split; [vm_compute; reflexivity|]. split; [vm_compute; reflexivity|]. split; [vm_compute; reflexivity|].
    split; [vm_compute; reflexivity|]. split; [reflexivity|]. eapply dt_iso; [vm_compute; reflexivity| |vm_compute; reflexivity|].
    { eexists. vm_compute. reflexivity. }
    eapply dt_dmi; [vm_compute; reflexivity| | |constructor]; [eexists; vm_compute; reflexivity|unfold numbers; repeat constructor].
  - repeat constructor; apply not_dash_by; reflexivity.
Qed.
Definition entry12of (m : option (M3 Qc)) : option (Q * Q) := option_map (fun m => (this (mxy m), this (myx m))) m.
Lemma two_lines : is_file two_sections (join two_sections) /\ load_txt QX (join two_sections) = Ret (result (join two_sections))
  /\ has_section two_sections "exchange" s_two /\ exchange_text QX (tl s_two) [two_entry]
  /\ h_dc (w_ham (ld_ham (result (join two_sections)))) = Some true
  /\ filter (is_entry bond12) [two_entry] = [two_entry] /\ filter (is_entry (mirror bond12)) [two_entry] = []
  /\ In (b_from bond12) (h_atoms (w_ham (ld_ham (result (join two_sections)))))
  /\ In (b_to bond12) (h_atoms (w_ham (ld_ham (result (join two_sections)))))
  /\ exists J J', bond_value (ld_ham (result (join two_sections))) bond12 = Some J
     /\ bond_value (ld_ham (result (join two_sections))) (mirror bond12) = Some J' /\ J' <> mtrans J.
Proof.
  split; [apply is_file_by; reflexivity|]. split; [apply result_loads; vm_compute; reflexivity|].
  split; [split; [simpl; tauto|reflexivity]|]. split; [exact two_text|].
  split; [vm_compute; reflexivity|]. split; [vm_compute; reflexivity|]. split; [vm_compute; reflexivity|]. split; [vm_compute; tauto|]. split; [vm_compute; tauto|].
  destruct (bond_value (ld_ham (result (join two_sections))) bond12) as [J|] eqn:E1;
    [|apply (f_equal entry12of) in E1; vm_compute in E1; discriminate].
  destruct (bond_value (ld_ham (result (join two_sections))) (mirror bond12)) as [J'|] eqn:E2;
    [|apply (f_equal entry12of) in E2; vm_compute in E2; discriminate].
  exists J, J'. split; [reflexivity|]. split; [reflexivity|]. intros H.
  apply (f_equal entry12of) in E1, E2. vm_compute in E1, E2. rewrite H in E2. destruct J as [a1 a2 a3 a4 a5 a6 a7 a8 a9]. cbn in E1, E2.
  injection E1 as F1 F2. injection E2 as F3 F4. congruence.
Qed.
Lemma one_line : is_file ev_sections (join ev_sections) /\ load_txt QX (join ev_sections) = Ret (result (join ev_sections))
  /\ has_section ev_sections "exchange" (s_bond "eV") /\ exchange_text QX (tl (s_bond "eV")) [entry12 [DIso (q 2)]]
  /\ h_dc (w_ham (ld_ham (result (join ev_sections)))) = Some true
  /\ filter (is_entry bond12) [entry12 [DIso (q 2)]] = [entry12 [DIso (q 2)]] /\ filter (is_entry (mirror bond12)) [entry12 [DIso (q 2)]] = []
  /\ In (b_from bond12) (h_atoms (w_ham (ld_ham (result (join ev_sections)))))
  /\ In (b_to bond12) (h_atoms (w_ham (ld_ham (result (join ev_sections))))) /\ mirror bond12 <> bond12.
Proof.
  split; [apply is_file_by; reflexivity|]. split; [apply result_loads; vm_compute; reflexivity|].
  split; [split; [simpl; tauto|reflexivity]|]. split; [exact ev_text|]. split; [vm_compute; reflexivity|].
  split; [vm_compute; reflexivity|]. split; [vm_compute; reflexivity|]. split; [vm_compute; tauto|]. split; [vm_compute; tauto|discriminate].
Qed.

(** ** Scale *)
Definition s_scaled (scale : string) : list string := ["Cell Bohr"; scale; "2.0 0.0 0.0"; "0.0 3.0 0.0"; "0.0 0.0 5.0"].
Definition s_scaled_a (scale : string) : list string := ["Cell"; scale; "2.0 0.0 0.0"; "0.0 3.0 0.0"; "0.0 0.0 5.0"].
Definition scaled_sections := [s_scaled "2 3 0.5"; s_atoms].
Definition negative_sections := [s_scaled_a "-2"; s_atoms].
Lemma scaled_case : is_file scaled_sections (join scaled_sections)
  /\ load_txt QX (join scaled_sections) = Ret (result (join scaled_sections))
  /\ has_section scaled_sections "cell" ("Cell Bohr" :: ["2 3 0.5"] ++ ["2.0 0.0 0.0"; "0.0 3.0 0.0"; "0.0 0.0 5.0"])%list
  /\ length_unit QX "Cell Bohr" (c_bohr_radius QX) /\ scale_text QX ["2 3 0.5"] (mkV (q 2) (q 3) (qq 1 2))
  /\ numbers QX (py_split "2.0 0.0 0.0") [q 2; q 0; q 0].
Proof.
  split; [apply is_file_by; reflexivity|]. split; [apply result_loads; vm_compute; reflexivity|]. split; [split; [simpl; tauto|reflexivity]|].
  split; [eapply lu_bohr; [reflexivity|eexists; reflexivity]|]. split.
  - apply st_three. unfold numbers. constructor; [reflexivity|]. constructor; [reflexivity|]. constructor; [|constructor]. cbn. unfold decimal. f_equal. apply Qc_is_canon. reflexivity.
  - unfold numbers. repeat (constructor; [cbn; f_equal; apply Qc_is_canon; reflexivity|]). constructor.
Qed.
Lemma negative_case : is_file negative_sections (join negative_sections)
  /\ load_txt QX (join negative_sections) = Ret (result (join negative_sections))
  /\ has_section negative_sections "cell" (s_scaled_a "-2") /\ numbers QX (py_split "-2") [q (-2)] /\ fltb (q (-2)) f0 = true
  /\ mdet (ld_cell (result (join negative_sections))) <> q 2 /\ mdet (ld_cell (result (join negative_sections))) <> q (-2).
Proof.
  split; [apply is_file_by; reflexivity|]. split; [apply result_loads; vm_compute; reflexivity|]. split; [split; [simpl; tauto|reflexivity]|].
  split; [unfold numbers; repeat constructor|]. split; [reflexivity|]. split; intros H; apply (f_equal this) in H; vm_compute in H; discriminate.
Qed.
Lemma full_result : load_txt QX full = Ret (result full).
Proof. apply result_loads. vm_compute. reflexivity. Qed.
Lemma full_notation : has_parameters full_sections /\ has_section full_sections "notation" s_notation /\ In "Double-counting True" (tl s_notation)
  /\ py_split "Double-counting True" = ["Double-counting"; "True"] /\ initial "d" "Double-counting" /\ says "True" true
  /\ h_dc (w_ham (ld_ham (result full))) = Some true /\ h_sn (w_ham (ld_ham (result full))) = Some false.
Proof.
  split; [exists s_exchange; left; split; [simpl; tauto|reflexivity]|]. split; [split; [simpl; tauto|reflexivity]|]. split; [simpl; tauto|].
  split; [reflexivity|]. split; [eexists; reflexivity|]. split; [vm_compute; tauto|]. split; vm_compute; reflexivity.
Qed.

Lemma ev_refuted : exists secs f L s u b, is_file secs f /\ load_txt QX f = Ret L /\ has_section secs "exchange" s
  /\ exchange_text QX (tl s) [b] /\ energy_unit QX (hd "" s) u /\ last_for bond12 [b] = Some b
  /\ exists m, bond_value (ld_ham L) bond12 = Some m
     /\ mscale (fmul (c_milli QX) (c_electron_volt QX)) m <> mscale u (described (bn_data b)).
Proof.
  destruct ev_ignored as (A & B & C & D & E & _ & _ & G). exists ev_sections, (join ev_sections), (result (join ev_sections)), (s_bond "eV"), (c_electron_volt QX), (entry12 [DIso (q 2)]).
  do 3 (split; [assumption|]). split; [exact ev_text|]. do 2 (split; [assumption|]). exact G.
Qed.
Lemma two_refuted : exists secs f L s b, is_file secs f /\ load_txt QX f = Ret L /\ has_section secs "exchange" s
  /\ exchange_text QX (tl s) [b] /\ h_dc (w_ham (ld_ham L)) = Some true /\ filter (is_entry bond12) [b] = [b]
  /\ filter (is_entry (mirror bond12)) [b] = []
  /\ exists J J', bond_value (ld_ham L) bond12 = Some J /\ bond_value (ld_ham L) (mirror bond12) = Some J' /\ J' <> mtrans J.
Proof.
  destruct two_lines as (A & B & C & D & E & G1 & G2 & _ & _ & G). exists two_sections, (join two_sections), (result (join two_sections)), s_two, two_entry.
  do 7 (split; [assumption|]). exact G.
Qed.
Lemma negative_refuted : exists secs f L hdr l r1 r2 r3, is_file secs f /\ load_txt QX f = Ret L
  /\ has_section secs "cell" [hdr; l; r1; r2; r3] /\ numbers QX (py_split l) [q (-2)]
  /\ mdet (ld_cell L) <> q 2 /\ mdet (ld_cell L) <> q (-2).
Proof.
  destruct negative_case as (A & B & C & D & _ & E & G). exists negative_sections, (join negative_sections), (result (join negative_sections)). unfold s_scaled_a in C.
  do 5 eexists. do 3 (split; [eassumption|]). split; [exact D|]. split; assumption.
Qed.
