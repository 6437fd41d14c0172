(** The conversion of TB2J files. *)
From Coq Require Import String Ascii List Bool ZArith Arith Lia QArith Qcanon.
From Verif.Base Require Import Scalar Linear3 QcLit PyDict PyString PyText.
From Verif.Spec Require Import HamSpec TxtSpec TxtFormat Hdf5Spec TxtDumpSpec Tb2jSpec ConvertSpec.
From Verif.Model Require Import MatrixParam Hamiltonian TxtVerify TxtRead Hdf5 TxtDump Tb2j Convert.
From Verif.Proofs Require Import HistoryProofs ParameterProofs TextGlue TxtReadProofs LoadProofs TextWitness TextCases Hdf5Write Hdf5Dump Tb2jProofs Tb2jCases DispatchProofs DumpPrinter DumpSpinless DumpWitness.
Import ListNotations.
Local Open Scope string_scope.

Lemma ends_in_spec p s : ends_with p s = true <-> ends_in p s.
Proof. apply suffix_spec. Qed.
Lemma writer_hdf5 format name : choose_writer format name = Ret ToHdf5 <-> asks_hdf5 format name.
Proof.
  unfold choose_writer, asks_hdf5. cbv zeta. destruct format as [f|].
  - destruct (String.eqb_spec (str_lower f) "txt") as [E|N]; [|destruct (String.eqb_spec (str_lower f) "hdf5") as [E|N']]; split; intros H; try discriminate.
    + destruct H as [(g & H & H')|[H _]]; congruence.
    + left. eauto.
    + reflexivity.
    + destruct H as [(g & H & H')|[H _]]; congruence.
  - destruct (ends_with ".hdf5" name) eqn:E; cbn; split; intros H; try discriminate; auto.
    + right. split; [reflexivity|]. apply ends_in_spec, E.
    + destruct H as [(g & H & _)|[_ H]]; [discriminate|]. apply ends_in_spec in H. congruence.
Qed.
Lemma writer_text format name : choose_writer format name = Ret ToText <-> asks_text format name.
Proof.
  unfold choose_writer, asks_text. cbv zeta. destruct format as [f|].
  - destruct (String.eqb_spec (str_lower f) "txt") as [E|N]; [|destruct (String.eqb_spec (str_lower f) "hdf5") as [E|N']]; split; intros H; try discriminate.
    + left. eauto.
    + reflexivity.
    + destruct H as [(g & H & H')|[H _]]; congruence.
    + destruct H as [(g & H & H')|[H _]]; congruence.
  - destruct (ends_with ".hdf5" name) eqn:E; cbn; split; intros H; try discriminate; auto.
    + destruct H as [(g & H & _)|[_ H]]; [discriminate|]. destruct H. apply ends_in_spec, E.
    + right. split; [reflexivity|]. intros H'. apply ends_in_spec in H'. congruence.
Qed.
Lemma writer_cases format name : choose_writer format name = Ret ToText \/ choose_writer format name = Ret ToHdf5 \/ choose_writer format name = Raise RuntimeError.
Proof. unfold choose_writer. cbv zeta. destruct (String.eqb _ "txt"); auto. destruct (String.eqb _ "hdf5"); auto. Qed.

Section Convert.
Context {F : Type} {SF : Scalar F}.
Variable X : externals F.
Variable P : printer F.
Variable pos : @tb_atom F -> V3 F.
Variable g : option F.
Variable dflt : M3 F.
Notation spinham_of := (spinham_of pos g dflt).
Notation convert := (convert X P pos g dflt).

Lemma other_format old lines name format r : load_tb2j X lines = Ret r -> ~ asks_hdf5 format name -> ~ asks_text format name ->
  convert old lines name format = Raise RuntimeError.
Proof.
  intros Hl H1 H2. unfold Convert.convert. rewrite Hl. cbn [obind].
  destruct (writer_cases format name) as [E|[E|E]]; [apply writer_text in E; contradiction|apply writer_hdf5 in E; contradiction|rewrite E; reflexivity].
Qed.
Lemma hdf5_fails old lines name format r : load_tb2j X lines = Ret r -> tl_atoms r <> [] -> asks_hdf5 format name ->
  exists e, convert old lines name format = Raise e.
Proof.
  intros Hl Ha Hf. unfold Convert.convert. rewrite Hl. cbn [obind]. apply writer_hdf5 in Hf. rewrite Hf. cbn [obind].
  destruct (dump (spinham_of r) ["spinham"] false (old (hdf5_name name))) as [f [u|e]] eqn:E; [|eauto]. exfalso.
  assert (C : outcome (write_spinham (spinham_of r)) = Ret tt).
  { destruct u. apply dump_cases in E. destruct E as [(_ & E)|[(_ & _ & _ & E)|[(_ & _ & _ & _ & E)|(_ & E & _)]]]; try discriminate. symmetry. exact E. }
  apply complete_outcome in C. destruct C as [C _]. unfold spinham_of in C. cbn [sh_sites] in C. rewrite Forall_map in C. destruct (tl_atoms r) as [|a l]; [congruence|].
  inversion C as [|? ? [H _] _]; subst. apply H. reflexivity.
Qed.

Lemma loaded_Inv f cell rs es r : tb_loads X f cell rs es r -> Inv (tl_ham r).
Proof.
  intros (Hf & [N C] & Hl). rewrite (file_calls X _ _ _ _ Hf) in Hl. unfold run_out in Hl.
  destruct (for_each (map call_of es) do_call (after_atoms rs)) as [w [[]|ex]] eqn:Hw; [|discriminate]. cbn in Hl. injection Hl as <-. cbn.
  destruct (calls_effect (after_atoms rs) (tb_Inv _) eq_refl _ _ Hw) as (ks & K & A & I & _); [|exact I]. rewrite Forall_map. apply Forall_forall. discriminate.
Qed.
Lemma loaded_object f cell rs es r : tb_loads X f cell rs es r -> one_object (spinham_of r).
Proof.
  intros H. split; [|destruct (loaded_Inv _ _ _ _ _ H) as [V1 V2]; split; [exact V1|exact V2]]. destruct (tb_effect X _ _ _ _ _ H) as (_ & Ea & ks & _ & _ & (F1 & _) & _).
  unfold spinham_of. cbn [sh_ham]. rewrite F1. cbn [after_atoms w_ham tb_ham h_atoms]. unfold Hdf5Spec.atoms_of. cbn [sh_sites]. rewrite map_map, Ea.
  change (numbered 1 (map tr_name rs) = Tb2jProofs.atoms_of (table_atoms 1 rs)). symmetry. apply atoms_of_table.
Qed.
Lemma site_names f cell rs es r : tb_loads X f cell rs es r -> map (fun x => a_name (st_atom x)) (sh_sites (spinham_of r)) = map tr_name rs.
Proof. intros H. destruct (tb_frame X _ _ _ _ _ H) as (_ & E & _). unfold spinham_of. cbn [sh_sites]. rewrite map_map. exact E. Qed.
Lemma text_written old f cell rs es name format : is_tb2j_file X f cell rs es -> consistent rs es -> asks_text format name ->
  exists content, convert old f name format = Ret (WText name content).
Proof.
  intros Hf Hc Ha. destruct (tb_total X _ _ _ _ Hf Hc) as [r Hl]. assert (HL : tb_loads X f cell rs es r) by (repeat split; try assumption; apply Hc).
  unfold Convert.convert. rewrite Hl. cbn [obind]. apply writer_text in Ha. rewrite Ha. cbn [obind]. unfold dump_txt, dump_text.
  assert (A : exists t, atom_texts P default_flags (sh_sites (spinham_of r)) = Ret t).
  { unfold spinham_of. cbn [sh_sites]. induction (tl_atoms r) as [|a l [t IH]]; [eexists; reflexivity|]. cbn [map atom_texts]. unfold atom_text at 1, site_of at 1. cbn [st_spin].
    cbn [obind]. rewrite IH. eexists; reflexivity. }
  destruct A as [t ->]. cbn [obind]. destruct (tb_frame X _ _ _ _ _ HL) as (_ & _ & _ & _ & _ & _ & _ & (N1 & N2 & N3 & N4) & _).
  assert (B : exists n, notation_text P (w_ham (sh_ham (spinham_of r))) = Ret n).
  { unfold notation_text, spinham_of. cbn [sh_ham]. rewrite N1, N2, N3, N4. cbn [of_option obind]. destruct (Hdf5.nonempty _), (Hdf5.nonempty _); cbn; eauto. }
  destruct B as [n ->]. eexists. reflexivity.
Qed.
Variable rnd : nat -> F -> F.
Hypothesis HP : prints X P rnd.
Hypothesis Hdash : x_float X "-" = None.
Lemma text_useless old f cell rs es name format name' content L : is_tb2j_file X f cell rs es -> consistent rs es -> rs <> [] ->
  Forall (fun row => good_name (tr_name row)) rs -> convert old f name format = Ret (WText name' content) -> load_txt X (readlines content) <> Ret L.
Proof.
  intros Hf Hc Hn Hg Hv. destruct (tb_total X _ _ _ _ Hf Hc) as [r Hl]. assert (HL : tb_loads X f cell rs es r) by (repeat split; try assumption; apply Hc).
  unfold Convert.convert in Hv. rewrite Hl in Hv. cbn [obind] in Hv. destruct (choose_writer format name) as [[|]|]; cbn [obind] in Hv; try discriminate.
  - destruct (dump_txt P default_flags (spinham_of r)) as [c|] eqn:Hd; [|discriminate]. cbn [obind] in Hv. assert (c = content) by congruence. subst c.
    apply (spinless_not_loaded X P rnd HP Hdash default_flags (spinham_of r) content L (loaded_object _ _ _ _ _ HL)); [| |exact Hd].
    + rewrite <- Forall_map with (P := good_name). change (Forall good_name (map (fun x => a_name (st_atom x)) (sh_sites (spinham_of r)))).
      rewrite (site_names _ _ _ _ _ HL), Forall_map. exact Hg.
    + pose proof (site_names _ _ _ _ _ HL) as E. unfold spinham_of in *. cbn [sh_sites] in *. destruct (tl_atoms r) as [|a l].
      * destruct rs; [congruence|discriminate].
      * exists (site_of pos g a). split; [left; reflexivity|reflexivity].
  - destruct (dump _ _ _ _) as [? [|]]; discriminate.
Qed.
End Convert.

(** ** The sample, with the number conversions that fit the printer *)
Lemma tb_rows_y : Forall2 (Tb2jSpec.row_text QY) tb_table [row1; row2].
Proof.
  constructor; [|constructor; [|constructor]].
  - split; [apply not_in_by; vm_compute; reflexivity|]. exists ["0.0"; "0.0"; "0.0"], ["5.5"; "0.0"; "0.0"; "3.0"]. do 3 eexists.
    split; [vm_compute; reflexivity|]. split; [nums|]. split; [vm_compute; reflexivity|]. right. right. exists "5.5". eexists. exists ["0.0"; "0.0"; "3.0"], []. do 3 eexists.
    split; [reflexivity|]. split; [vm_compute; reflexivity|]. split; [nums|]. split; vm_compute; reflexivity.
  - split; [apply not_in_by; vm_compute; reflexivity|]. exists ["1.75"; "1.75"; "0.0"], ["5.5"]. do 3 eexists.
    split; [vm_compute; reflexivity|]. split; [nums|]. split; [vm_compute; reflexivity|]. right. left. exists "5.5". eexists. exists [].
    split; [reflexivity|]. split; [cbn; lia|]. split; [vm_compute; reflexivity|]. split; vm_compute; reflexivity.
Qed.
Lemma tb_data1_y : data_lines QY (tl tb_e1) (e_iso ent1) (e_ani ent1) (e_dmi ent1).
Proof.
  change (e_iso ent1) with (otherwise None (Q2Qc 3.5)). eapply dl_iso; [ct|lk|lk|lk|vm_compute; reflexivity|].
  change (e_dmi ent1) with (otherwise None (mkV (Q2Qc 0.5) (Q2Qc (-1.0)) (Q2Qc 0.25))). eapply (dl_dmi _ _ ["Testing!"; "DMI:"] ["0.5"; "-1.0"; "0.25"]); [ct|lk|lk|lk|vm_compute; reflexivity|nums|].
  change (e_ani ent1) with (otherwise None (mkM (Q2Qc 1.0) (Q2Qc 0.5) (Q2Qc 0.0) (Q2Qc 0.5) (Q2Qc 0.0) (Q2Qc 0.0) (Q2Qc 0.0) (Q2Qc 0.0) (Q2Qc 2.0))).
  eapply dl_ani; [ct|lk|lk|lk|nums|nums|nums|constructor].
Qed.
Lemma tb_data2_y : data_lines QY (tl tb_e2) (e_iso ent2) (e_ani ent2) (e_dmi ent2).
Proof.
  change (e_iso ent2) with (otherwise None (Q2Qc 2.0)). eapply dl_iso; [ct|lk|lk|lk|vm_compute; reflexivity|].
  eapply dl_other; [apply flagless_by; vm_compute; reflexivity|lk|constructor].
Qed.
Lemma tb_entry1_y : entry_text QY tb_e1 ent1.
Proof.
  do 10 eexists. split; [reflexivity|]. split; [vm_compute; reflexivity|]. do 3 (split; [vm_compute; reflexivity|]). split; [reflexivity|].
  split; [vm_compute; reflexivity|]. split; [apply not_in_by; vm_compute; reflexivity|exact tb_data1_y].
Qed.
Lemma tb_entry2_y : entry_text QY tb_e2 ent2.
Proof.
  do 10 eexists. split; [reflexivity|]. split; [vm_compute; reflexivity|]. do 3 (split; [vm_compute; reflexivity|]). split; [reflexivity|].
  split; [vm_compute; reflexivity|]. split; [apply not_in_by; vm_compute; reflexivity|exact tb_data2_y].
Qed.
Lemma tb_file_ok_y : is_tb2j_file QY tb_file tb_cell [row1; row2] [ent1; ent2].
Proof.
  exists tb_pre, "Cell (Angstrom):", " 3.5 0.0 0.0", " 0.0 3.5 0.0", " 0.0 0.0 20.0". do 9 eexists.
  exists tb_mid, "Atoms:", "(Note: charge and magmoms)", "Atom_number x y z w_charge M(x) M(y) M(z)", tb_table, tb_sum, tb_mid, "Exchange:", [tb_head], tb_bonds.
  split; [reflexivity|]. do 3 (split; [repeat (constructor; [apply plain_by; vm_compute; reflexivity|]); constructor|]).
  split; [ct|]. split; [lk|]. split; [lk|]. do 3 (split; [nums|]). split; [vm_compute; reflexivity|].
  split; [ct|]. split; [lk|]. split; [exact tb_rows_y|]. split; [apply in_by; vm_compute; reflexivity|]. split; [apply not_in_by; vm_compute; reflexivity|].
  split; [ct|]. split; [lk|]. split; [lk|]. split; [lk|]. split; [constructor; [lk|constructor]|].
  apply en_cons; [exact tb_sep_ok|exact tb_entry1_y|]. apply en_last; [exact tb_sep_ok|exact tb_entry2_y].
Qed.
Lemma tb_names : Forall (fun row => good_name (tr_name row)) [row1; row2].
Proof.
  assert (G : forall w, w = "Cr1" \/ w = "Cr2" -> good_name w).
  { intros w H. split; [|split].
    - destruct H as [-> | ->]; (split; [discriminate|]); cbn; repeat split; discriminate.
    - destruct H as [-> | ->]; eexists _, _; (split; [reflexivity|unfold letter_or_digit; cbn; lia]).
    - intros [u E]. destruct H as [-> | ->]; destruct u as [|x [|y [|z u]]]; try discriminate; destruct u; discriminate. }
  constructor; [apply G; left; reflexivity|]. constructor; [apply G; right; reflexivity|constructor].
Qed.
Definition at0 (a : @tb_atom Qc) : V3 Qc := ta_position a.
Definition no_file (n : string) : @node Qc := Grp [] [].
Lemma sample_text : exists content, convert QY QP at0 (Some f2) tb_cell no_file tb_file "spinham.txt" None = Ret (WText "spinham.txt" content)
  /\ load_txt QY (readlines content) = Raise ValueError.
Proof. eexists. split; [vm_compute; reflexivity|vm_compute; reflexivity]. Qed.
Lemma sample_hdf5 : convert QY QP at0 (Some f2) tb_cell no_file tb_file "spinham.hdf5" None = Raise ValueError.
Proof. vm_compute. reflexivity. Qed.
Lemma QY_dash : x_float QY "-" = None.
Proof. vm_compute. reflexivity. Qed.
Lemma sample_useless : exists (X : externals Qc) P rnd pos g dflt old f cell rs es, sane X /\ prints X P rnd /\ units_defined X /\ is_tb2j_file X f cell rs es /\ consistent rs es /\ rs <> []
  /\ Forall (fun row => good_name (tr_name row)) rs /\ x_float X "-" = None
  /\ (exists content, convert X P pos g dflt old f "spinham.txt" None = Ret (WText "spinham.txt" content) /\ load_txt X (readlines content) = Raise ValueError)
  /\ convert X P pos g dflt old f "spinham.hdf5" None = Raise ValueError.
Proof.
  exists QY, QP, qround, at0, (Some f2), tb_cell, no_file, tb_file, tb_cell, [row1; row2], [ent1; ent2].
  split; [exact QY_sane|]. split; [exact QY_prints|]. split; [exact QY_units|]. split; [exact tb_file_ok_y|]. split; [exact tb_consistent|]. split; [discriminate|].
  split; [exact tb_names|]. split; [exact QY_dash|]. split; [exact sample_text|exact sample_hdf5].
Qed.
