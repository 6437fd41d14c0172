(** C39-C45, C51: reading text model files. Vocabulary: Spec/TxtSpec.v, Spec/TxtFormat.v; loader and
    verifier: Model/TxtRead.v, Model/TxtVerify.v. *)
From Coq Require Import List String Ascii QArith Qcanon ZArith Permutation Sorted.
From Verif.Base Require Import Scalar Linear3 QcLit PyDict PyString PyText.
From Verif.Model Require Import MatrixParam Hamiltonian TxtVerify TxtRead.
From Verif.Spec Require Import HamSpec TxtSpec TxtFormat.
From Verif.Proofs Require Import TextGlue TextWitness TextCases TextMore TextSane TextCases2.
Import ListNotations.
Local Open Scope string_scope.

(** ** C39 *)
Theorem C39_same : forall (F : Type) (SF : Scalar F) (X : externals F) (f g : list string),
  cosmetic f g -> load_txt X f = load_txt X g /\ (accepts X f <-> accepts X g).
Proof. exact @comments_irrelevant. Qed.
Print Assumptions C39_same.

(** The filter keeps exactly the texts shown, in order, with the numbers of the lines they stand on. *)
Theorem C39_line_numbers : forall (content fs : list string) (numbers : list nat),
  filter_txt_file (Some content) None = Ret (fs, numbers) ->
  List.length fs = List.length numbers /\ StronglySorted lt numbers /\
  (forall i t, In (i, t) (combine numbers fs) <->
     (1 <= i)%nat /\ exists l, nth_error content (i - 1) = Some l /\ shows l t /\ t <> "").
Proof. exact filter_file. Qed.
Print Assumptions C39_line_numbers.

Example C39_case : cosmetic full commented /\ full <> commented /\ exists l, load_txt QX full = Ret l.
Proof. split; [exact commented_cosmetic|]. split; [discriminate|exact full_loads]. Qed.

(** ** C40 *)
Theorem C40_order : forall (F : Type) (SF : Scalar F) (X : externals F) secs1 secs2 t1 t2 f1 f2,
  file_shows f1 t1 -> file_shows f2 t2 -> laid_out secs1 t1 -> laid_out secs2 t2 -> Permutation secs1 secs2 ->
  Forall (fun s => ~ short_separator (hd "" s)) secs1 -> NoDup (map section_name secs1) ->
  load_txt X f1 = load_txt X f2 /\ (accepts X f1 <-> accepts X f2).
Proof. exact @order_irrelevant. Qed.
Print Assumptions C40_order.

Example C40_case : file_shows full full /\ file_shows (join shuffled_sections) (join shuffled_sections)
  /\ laid_out full_sections full /\ laid_out shuffled_sections (join shuffled_sections)
  /\ Permutation full_sections shuffled_sections
  /\ Forall (fun s => ~ short_separator (hd "" s)) full_sections /\ NoDup (map section_name full_sections).
Proof. exact full_shuffled. Qed.

(** ** C41 *)
(** What the verifier misses: parameters without notation, spins written "-", exchange in joule; a flat cell and
    a zero cone axis. *)
Theorem C41_loads_partial : forall (F : Type) (SF : Scalar F) (X : externals F), sane X -> forall secs f, is_file secs f -> accepts X f ->
  (has_parameters secs -> exists n, has_section secs "notation" n) -> undashed secs -> not_joule secs ->
  true_cell X secs -> true_axis X secs -> exists L, load_txt X f = Ret L.
Proof. exact @accepted_loads_file. Qed.
Print Assumptions C41_loads_partial.

Example C41_case : sane QX /\ is_file full_sections full /\ accepts QX full
  /\ (has_parameters full_sections -> exists n, has_section full_sections "notation" n)
  /\ undashed full_sections /\ not_joule full_sections /\ true_cell QX full_sections /\ true_axis QX full_sections.
Proof. split; [exact QX_sane|]. split; [exact full_file|exact full_hyps]. Qed.

Theorem C41_notation_refuted : exists f, accepts QX f /\ load_txt QX f = Raise KeyError.
Proof. exact (ex_intro _ no_notation no_notation_crashes). Qed.
Print Assumptions C41_notation_refuted.
Theorem C41_spin_refuted : exists f, accepts QX f /\ load_txt QX f = Raise ValueError.
Proof. exact (ex_intro _ dash_file dash_crashes). Qed.
Print Assumptions C41_spin_refuted.
Theorem C41_joule_refuted : exists f, accepts QX f /\ load_txt QX f = Raise NameError.
Proof. exact (ex_intro _ joule_file joule_crashes). Qed.
Print Assumptions C41_joule_refuted.

(** ** C43 *)
(** Loaded value times the internal unit (meV) = written value times the declared unit. *)
Theorem C43_on_site : forall (F : Type) (SF : Scalar F) (X : externals F), sane X -> forall secs f L s es u a,
  is_file secs f -> load_txt X f = Ret L -> fmul (c_milli X) (c_electron_volt X) <> f0 ->
  has_section secs "on-site" s -> on_site_text X (tl s) es -> energy_unit X (hd "" s) u -> In a (h_atoms (w_ham (ld_ham L))) ->
  match last_entry (a_name a) es with
  | Some A => exists m, onsite_value (ld_ham L) a = Some m /\ mscale (fmul (c_milli X) (c_electron_volt X)) m = mscale u A
  | None => onsite_value (ld_ham L) a = None
  end.
Proof. exact @on_site_converted_file. Qed.
Print Assumptions C43_on_site.

Example C43_on_site_case : is_file full_sections full /\ load_txt QX full = Ret (result full) /\
  has_section full_sections "on-site" s_on_site /\ on_site_text QX (tl s_on_site) [("Cr2", qm 1 4 5 4 2 6 5 6 3)]
  /\ energy_unit QX (hd "" s_on_site) (fmul (c_milli QX) (c_electron_volt QX)) /\ last_entry "Cr2" [("Cr2", qm 1 4 5 4 2 6 5 6 3)] = Some (qm 1 4 5 4 2 6 5 6 3)
  /\ In atom2 (h_atoms (w_ham (ld_ham (result full)))) /\ fmul (c_milli QX) (c_electron_volt QX) <> f0.
Proof. split; [exact full_file|]. split; [exact full_result|exact full_on_site]. Qed.

(** Exchange: only when the declared unit is the internal one. *)
Theorem C43_exchange_partial : forall (F : Type) (SF : Scalar F) (X : externals F), sane X -> forall secs f L s bs k b,
  is_file secs f -> load_txt X f = Ret L ->
  has_section secs "exchange" s -> exchange_text X (tl s) bs -> energy_unit X (hd "" s) (fmul (c_milli X) (c_electron_volt X)) ->
  In (b_from k) (h_atoms (w_ham (ld_ham L))) -> In (b_to k) (h_atoms (w_ham (ld_ham L))) -> last_for k bs = Some b ->
  exists m, bond_value (ld_ham L) k = Some m
    /\ mscale (fmul (c_milli X) (c_electron_volt X)) m = mscale (fmul (c_milli X) (c_electron_volt X)) (described (bn_data b)).
Proof. exact @exchange_converted_file. Qed.
Print Assumptions C43_exchange_partial.

Example C43_exchange_case : is_file two_sections (join two_sections) /\ load_txt QX (join two_sections) = Ret (result (join two_sections))
  /\ has_section two_sections "exchange" s_two /\ exchange_text QX (tl s_two) [two_entry]
  /\ energy_unit QX (hd "" s_two) (fmul (c_milli QX) (c_electron_volt QX)) /\ last_for bond12 [two_entry] = Some two_entry.
Proof.
  destruct two_lines as (A & B & C & D & _). do 4 (split; [assumption|]).
  split; [eapply eu_milli; [reflexivity|eexists; reflexivity]|vm_compute; reflexivity].
Qed.

(** What is read instead: the written numbers, whatever the unit. *)
Theorem C43_exchange_exact : forall (F : Type) (SF : Scalar F) (X : externals F), sane X -> forall secs f L s bs k,
  is_file secs f -> load_txt X f = Ret L -> has_section secs "exchange" s -> exchange_text X (tl s) bs ->
  In (b_from k) (h_atoms (w_ham (ld_ham L))) -> In (b_to k) (h_atoms (w_ham (ld_ham L))) ->
  bond_value (ld_ham L) k = match last_for k bs with
    | Some b => Some (described (bn_data b))
    | None => match h_dc (w_ham (ld_ham L)) with
              | Some true => option_map (fun b => mtrans (described (firstn 1 (bn_data b)))) (first_for (mirror k) bs)
              | _ => None
              end
    end.
Proof. exact @exchange_as_written_file. Qed.
Print Assumptions C43_exchange_exact.

Theorem C43_exchange_refuted : exists secs f L s u b, is_file secs f /\ load_txt QX f = Ret L /\ has_section secs "exchange" s
  /\ exchange_text QX (tl s) [b] /\ energy_unit QX (hd "" s) u /\ last_for bond12 [b] = Some b
  /\ exists m, bond_value (ld_ham L) bond12 = Some m
     /\ mscale (fmul (c_milli QX) (c_electron_volt QX)) m <> mscale u (described (bn_data b)).
Proof. exact ev_refuted. Qed.
Print Assumptions C43_exchange_refuted.

(** ** C44 *)
Theorem C44_mirror_partial : forall (F : Type) (SF : Scalar F) (X : externals F), sane X -> forall secs f L s bs b d k,
  is_file secs f -> load_txt X f = Ret L -> has_section secs "exchange" s -> exchange_text X (tl s) bs ->
  In (b_from k) (h_atoms (w_ham (ld_ham L))) -> In (b_to k) (h_atoms (w_ham (ld_ham L))) ->
  h_dc (w_ham (ld_ham L)) = Some true -> filter (is_entry k) bs = [b] -> filter (is_entry (mirror k)) bs = [] -> mirror k <> k ->
  bn_data b = [d] ->
  exists J, bond_value (ld_ham L) k = Some J /\ bond_value (ld_ham L) (mirror k) = Some (mtrans J) /\ J = described [d].
Proof. exact @mirror_one_line_file. Qed.
Print Assumptions C44_mirror_partial.

Example C44_case : is_file ev_sections (join ev_sections) /\ load_txt QX (join ev_sections) = Ret (result (join ev_sections))
  /\ has_section ev_sections "exchange" (s_bond "eV") /\ exchange_text QX (tl (s_bond "eV")) [entry12 [DIso (q 2)]]
  /\ h_dc (w_ham (ld_ham (result (join ev_sections)))) = Some true
  /\ filter (is_entry bond12) [entry12 [DIso (q 2)]] = [entry12 [DIso (q 2)]] /\ filter (is_entry (mirror bond12)) [entry12 [DIso (q 2)]] = []
  /\ In (b_from bond12) (h_atoms (w_ham (ld_ham (result (join ev_sections)))))
  /\ In (b_to bond12) (h_atoms (w_ham (ld_ham (result (join ev_sections))))) /\ mirror bond12 <> bond12.
Proof. exact one_line. Qed.

(** With several data lines the mirror keeps the transpose of the first line only. *)
Theorem C44_mirror_exact : forall (F : Type) (SF : Scalar F) (X : externals F), sane X -> forall secs f L s bs b k,
  is_file secs f -> load_txt X f = Ret L -> has_section secs "exchange" s -> exchange_text X (tl s) bs ->
  In (b_from k) (h_atoms (w_ham (ld_ham L))) -> In (b_to k) (h_atoms (w_ham (ld_ham L))) ->
  h_dc (w_ham (ld_ham L)) = Some true -> filter (is_entry k) bs = [b] -> filter (is_entry (mirror k)) bs = [] -> mirror k <> k ->
  bond_value (ld_ham L) k = Some (described (bn_data b))
  /\ bond_value (ld_ham L) (mirror k) = Some (mtrans (described (firstn 1 (bn_data b)))).
Proof. exact @mirror_of_single_file. Qed.
Print Assumptions C44_mirror_exact.

Theorem C44_mirror_refuted : exists secs f L s b, is_file secs f /\ load_txt QX f = Ret L /\ has_section secs "exchange" s
  /\ exchange_text QX (tl s) [b] /\ h_dc (w_ham (ld_ham L)) = Some true /\ filter (is_entry bond12) [b] = [b]
  /\ filter (is_entry (mirror bond12)) [b] = []
  /\ exists J J', bond_value (ld_ham L) bond12 = Some J /\ bond_value (ld_ham L) (mirror bond12) = Some J' /\ J' <> mtrans J.
Proof. exact two_refuted. Qed.
Print Assumptions C44_mirror_refuted.

(** ** C45 *)
Theorem C45_positive : forall (F : Type) (SF : Scalar F) (X : externals F), sane X ->
  forall secs f L hdr sl r1 r2 r3 u s a b c d e g h i j, is_file secs f -> load_txt X f = Ret L ->
  has_section secs "cell" (hdr :: sl ++ [r1; r2; r3])%list -> length_unit X hdr u -> scale_text X sl s ->
  numbers X (py_split r1) [a; b; c] -> numbers X (py_split r2) [d; e; g] -> numbers X (py_split r3) [h; i; j] ->
  vscale (c_angstrom X) (mrow1 (ld_cell L)) = scaled_row u s a b c
  /\ vscale (c_angstrom X) (mrow2 (ld_cell L)) = scaled_row u s d e g
  /\ vscale (c_angstrom X) (mrow3 (ld_cell L)) = scaled_row u s h i j.
Proof. exact @cell_scaled_file. Qed.
Print Assumptions C45_positive.

Example C45_positive_case : is_file scaled_sections (join scaled_sections)
  /\ load_txt QX (join scaled_sections) = Ret (result (join scaled_sections))
  /\ has_section scaled_sections "cell" ("Cell Bohr" :: ["2 3 0.5"] ++ ["2.0 0.0 0.0"; "0.0 3.0 0.0"; "0.0 0.0 5.0"])%list
  /\ length_unit QX "Cell Bohr" (c_bohr_radius QX) /\ scale_text QX ["2 3 0.5"] (mkV (q 2) (q 3) (qq 1 2))
  /\ numbers QX (py_split "2.0 0.0 0.0") [q 2; q 0; q 0].
Proof. exact scaled_case. Qed.

(** A negative factor: the volume is r^3 V with r = |s| / |V| instead of |s|. *)
Theorem C45_negative_exact : forall (F : Type) (SF : Scalar F) (X : externals F), sane X ->
  forall secs f L hdr l r1 r2 r3 u s a b c d e g h i j, is_file secs f -> load_txt X f = Ret L ->
  has_section secs "cell" [hdr; l; r1; r2; r3] -> length_unit X hdr u -> numbers X (py_split l) [s] -> fltb s f0 = true ->
  numbers X (py_split r1) [a; b; c] -> numbers X (py_split r2) [d; e; g] -> numbers X (py_split r3) [h; i; j] ->
  let V := fmul (fmul (fdiv u (c_angstrom X)) (fmul (fdiv u (c_angstrom X)) (fdiv u (c_angstrom X)))) (mdet (mkM a b c d e g h i j)) in
  let r := fdiv (fopp s) (if fltb V f0 then fopp V else V) in
  mdet (ld_cell L) = fmul (fmul r (fmul r r)) V.
Proof. exact @cell_negative_file. Qed.
Print Assumptions C45_negative_exact.

Theorem C45_negative_refuted : exists secs f L hdr l r1 r2 r3, is_file secs f /\ load_txt QX f = Ret L
  /\ has_section secs "cell" [hdr; l; r1; r2; r3] /\ numbers QX (py_split l) [q (-2)]
  /\ mdet (ld_cell L) <> q 2 /\ mdet (ld_cell L) <> q (-2).
Proof. exact negative_refuted. Qed.
Print Assumptions C45_negative_refuted.

(** ** C51 *)
Theorem C51_words : forall w, is_bool w = true <-> exists b, says w b.
Proof. exact bool_words. Qed.
Print Assumptions C51_words.
Theorem C51_unambiguous : forall w b b', says w b -> says w b' -> b = b'.
Proof. exact bool_unambiguous. Qed.
Print Assumptions C51_unambiguous.
Theorem C51_letter_case : forall w w' b, str_lower w = str_lower w' -> says w b -> says w' b.
Proof. exact bool_case. Qed.
Print Assumptions C51_letter_case.
Theorem C51_value : forall (F : Type) (l k w : string) (b : bool) (wd : @world F),
  py_split l = [k; w] -> says w b -> read_bool l wd = (wd, Ret b).
Proof. exact @bool_value. Qed.
Print Assumptions C51_value.
Theorem C51_loaded : forall (F : Type) (SF : Scalar F) (X : externals F), sane X -> forall secs f L n l k w,
  is_file secs f -> load_txt X f = Ret L -> has_parameters secs -> has_section secs "notation" n -> In l (tl n) -> py_split l = [k; w] ->
  (initial "d" k -> exists b, says w b /\ h_dc (w_ham (ld_ham L)) = Some b)
  /\ (initial "s" k -> exists b, says w b /\ h_sn (w_ham (ld_ham L)) = Some b).
Proof. exact @boolean_read_file. Qed.
Print Assumptions C51_loaded.

Example C51_case : has_parameters full_sections /\ has_section full_sections "notation" s_notation /\ In "Double-counting True" (tl s_notation)
  /\ py_split "Double-counting True" = ["Double-counting"; "True"] /\ initial "d" "Double-counting" /\ says "True" true
  /\ h_dc (w_ham (ld_ham (result full))) = Some true /\ h_sn (w_ham (ld_ham (result full))) = Some false.
Proof. exact full_notation. Qed.
