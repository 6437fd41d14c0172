(** A sample TB2J file. *)
From Coq Require Import String Ascii List Bool ZArith Arith Lia QArith Qcanon.
From Verif.Base Require Import Scalar Linear3 QcLit PyDict PyString PyText PyText2.
From Verif.Spec Require Import HamSpec TxtFormat Tb2jSpec.
From Verif.Model Require Import MatrixParam Hamiltonian TxtRead Tb2j.
From Verif.Proofs Require Import TextWitness TextCases Tb2jProofs.
Import ListNotations.
Local Open Scope string_scope.

Lemma contains_by p s : has_sub p s = true -> contains p s.
Proof. apply has_sub_spec. Qed.
Lemma lacks_by p s : has_sub p s = false -> ~ contains p s.
Proof. rewrite <- has_sub_spec. congruence. Qed.
Lemma not_in_by w l : mem_str w l = false -> ~ In w l.
Proof. rewrite <- mem_str_spec. congruence. Qed.
Lemma in_by w l : mem_str w l = true -> In w l.
Proof. apply mem_str_spec. Qed.

Definition tb_pre := [repeat_char "=" 90; "Information:"; "Exchange parameters generated by TB2J"].
Definition tb_mid := [repeat_char "=" 90].
Definition tb_table := ["Cr1 0.0 0.0 0.0 5.5 0.0 0.0 3.0"; "Cr2 1.75 1.75 0.0 5.5"].
Definition tb_sum := "Total 11.0 0.0 0.0 6.0".
Definition tb_e1 := ["   Cr1   Cr2   ( -1,   0,   0) 3.5386  (-1.75, 1.75, 0.0) 2.47";
  "J_iso:  3.5";
  "[Testing!] DMI: ( 0.5 -1.0 0.25)";
  "[Testing!] J_ani:";
  "[[ 1.0 0.5 0.0]"; " [ 0.5 0.0 0.0]"; " [ 0.0 0.0 2.0]]"].
Definition tb_e2 := ["   Cr2   Cr1   (  0,   1,   0) 2.0  (0.0, 1.75, 0.0) 2.47"; "J_iso:  2.0"; ""].
Definition tb_sep := repeat_char "-" 88.
Definition tb_head := "    i      j          R        J_iso(meV)          vector          distance(A)".
Definition tb_bonds := (tb_sep :: tb_e1 ++ tb_sep :: tb_e2)%list.
Definition tb_cell_lines := ["Cell (Angstrom):"; " 3.5 0.0 0.0"; " 0.0 3.5 0.0"; " 0.0 0.0 20.0"].
Definition tb_file : list string :=
  (tb_pre ++ tb_cell_lines ++ tb_mid ++ ["Atoms:"; "(Note: charge and magmoms)"; "Atom_number x y z w_charge M(x) M(y) M(z)"]
   ++ tb_table ++ [tb_sum] ++ tb_mid ++ ["Exchange:"] ++ [tb_head] ++ tb_bonds)%list.

Definition row1 : @table_row Qc := mkRow "Cr1" (mkV (Q2Qc 0.0) (Q2Qc 0.0) (Q2Qc 0.0)) (Some (Q2Qc 5.5)) (Some (mkV (Q2Qc 0.0) (Q2Qc 0.0) (Q2Qc 3.0))).
Definition row2 : @table_row Qc := mkRow "Cr2" (mkV (Q2Qc 1.75) (Q2Qc 1.75) (Q2Qc 0.0)) (Some (Q2Qc 5.5)) None.
Definition ent1 : @entry Qc := mkEntry "Cr1" "Cr2" (-1, 0, 0)%Z (Some (Q2Qc 3.5))
  (Some (mkM (Q2Qc 1.0) (Q2Qc 0.5) (Q2Qc 0.0) (Q2Qc 0.5) (Q2Qc 0.0) (Q2Qc 0.0) (Q2Qc 0.0) (Q2Qc 0.0) (Q2Qc 2.0))) (Some (mkV (Q2Qc 0.5) (Q2Qc (-1.0)) (Q2Qc 0.25))).
Definition ent2 : @entry Qc := mkEntry "Cr2" "Cr1" (0, 1, 0)%Z (Some (Q2Qc 2.0)) None None.
Definition tb_cell : M3 Qc := mkM (Q2Qc 3.5) (Q2Qc 0.0) (Q2Qc 0.0) (Q2Qc 0.0) (Q2Qc 3.5) (Q2Qc 0.0) (Q2Qc 0.0) (Q2Qc 0.0) (Q2Qc 20.0).

Ltac nums := repeat (apply Forall2_cons; [vm_compute; reflexivity|]); apply Forall2_nil.
Lemma plain_by l : (has_sub "Cell (Angstrom):" l || has_sub "Atoms:" l || has_sub "Exchange:" l)%bool = false -> plain l.
Proof. intros H. apply orb_false_elim in H. destruct H as [H H3]. apply orb_false_elim in H. destruct H as [H1 H2]. repeat split; apply lacks_by; assumption. Qed.
Lemma flagless_by l : (has_sub "J_iso:" l || has_sub "J_ani:" l || has_sub "DMI:" l)%bool = false -> ~ data_flag l.
Proof.
  intros H. apply orb_false_elim in H. destruct H as [H H3]. apply orb_false_elim in H. destruct H as [H1 H2]. intros [C|[C|C]]; apply has_sub_spec in C; congruence.
Qed.
Lemma tb_sep_ok : separator tb_sep.
Proof. split; [apply contains_by; vm_compute; reflexivity|apply flagless_by; vm_compute; reflexivity]. Qed.

Lemma tb_rows : Forall2 (row_text QX) tb_table [row1; row2].
Proof.
  constructor; [|constructor; [|constructor]].
  - split; [apply not_in_by; vm_compute; reflexivity|]. exists ["0.0"; "0.0"; "0.0"], ["5.5"; "0.0"; "0.0"; "3.0"]. do 3 eexists.
    split; [vm_compute; reflexivity|]. split; [nums|]. split; [vm_compute; reflexivity|]. right. right. exists "5.5". eexists. exists ["0.0"; "0.0"; "3.0"], []. do 3 eexists.
    split; [reflexivity|]. split; [vm_compute; reflexivity|]. split; [nums|]. split; vm_compute; reflexivity.
  - split; [apply not_in_by; vm_compute; reflexivity|]. exists ["1.75"; "1.75"; "0.0"], ["5.5"]. do 3 eexists.
    split; [vm_compute; reflexivity|]. split; [nums|]. split; [vm_compute; reflexivity|]. right. left. exists "5.5". eexists. exists [].
    split; [reflexivity|]. split; [cbn; lia|]. split; [vm_compute; reflexivity|]. split; vm_compute; reflexivity.
Qed.
Ltac lk := apply lacks_by; vm_compute; reflexivity.
Ltac ct := apply contains_by; vm_compute; reflexivity.
Lemma tb_data1 : data_lines QX (tl tb_e1) (e_iso ent1) (e_ani ent1) (e_dmi ent1).
Proof.
  change (e_iso ent1) with (otherwise None (Q2Qc 3.5)). eapply dl_iso; [ct|lk|lk|lk|vm_compute; reflexivity|].
  change (e_dmi ent1) with (otherwise None (mkV (Q2Qc 0.5) (Q2Qc (-1.0)) (Q2Qc 0.25))). eapply (dl_dmi _ _ ["Testing!"; "DMI:"] ["0.5"; "-1.0"; "0.25"]); [ct|lk|lk|lk|vm_compute; reflexivity|nums|].
  change (e_ani ent1) with (otherwise None (mkM (Q2Qc 1.0) (Q2Qc 0.5) (Q2Qc 0.0) (Q2Qc 0.5) (Q2Qc 0.0) (Q2Qc 0.0) (Q2Qc 0.0) (Q2Qc 0.0) (Q2Qc 2.0))).
  eapply dl_ani; [ct|lk|lk|lk|nums|nums|nums|constructor].
Qed.
Lemma tb_data2 : data_lines QX (tl tb_e2) (e_iso ent2) (e_ani ent2) (e_dmi ent2).
Proof.
  change (e_iso ent2) with (otherwise None (Q2Qc 2.0)). eapply dl_iso; [ct|lk|lk|lk|vm_compute; reflexivity|].
  eapply dl_other; [apply flagless_by; vm_compute; reflexivity|lk|constructor].
Qed.
Lemma tb_entry1 : entry_text QX tb_e1 ent1.
Proof.
  do 10 eexists. split; [reflexivity|]. split; [vm_compute; reflexivity|]. do 3 (split; [vm_compute; reflexivity|]). split; [reflexivity|].
  split; [vm_compute; reflexivity|]. split; [apply not_in_by; vm_compute; reflexivity|exact tb_data1].
Qed.
Lemma tb_entry2 : entry_text QX tb_e2 ent2.
Proof.
  do 10 eexists. split; [reflexivity|]. split; [vm_compute; reflexivity|]. do 3 (split; [vm_compute; reflexivity|]). split; [reflexivity|].
  split; [vm_compute; reflexivity|]. split; [apply not_in_by; vm_compute; reflexivity|exact tb_data2].
Qed.
Lemma tb_file_ok : is_tb2j_file QX tb_file tb_cell [row1; row2] [ent1; ent2].
Proof.
  exists tb_pre, "Cell (Angstrom):", " 3.5 0.0 0.0", " 0.0 3.5 0.0", " 0.0 0.0 20.0". do 9 eexists.
  exists tb_mid, "Atoms:", "(Note: charge and magmoms)", "Atom_number x y z w_charge M(x) M(y) M(z)", tb_table, tb_sum, tb_mid, "Exchange:", [tb_head], tb_bonds.
  split; [reflexivity|]. do 3 (split; [repeat (constructor; [apply plain_by; vm_compute; reflexivity|]); constructor|]).
  split; [ct|]. split; [lk|]. split; [lk|]. do 3 (split; [nums|]). split; [vm_compute; reflexivity|].
  split; [ct|]. split; [lk|]. split; [exact tb_rows|]. split; [apply in_by; vm_compute; reflexivity|]. split; [apply not_in_by; vm_compute; reflexivity|].
  split; [ct|]. split; [lk|]. split; [lk|]. split; [lk|]. split; [constructor; [lk|constructor]|].
  apply en_cons; [exact tb_sep_ok|exact tb_entry1|]. apply en_last; [exact tb_sep_ok|exact tb_entry2].
Qed.
Lemma tb_consistent : consistent [row1; row2] [ent1; ent2].
Proof. split; [apply distinct_NoDup; vm_compute; reflexivity|]. repeat constructor; cbn; tauto. Qed.

(** The sample: its first bond, and the mirror of the second one. *)
Definition k12 := mkB (mkAtom "Cr1" 1) (mkAtom "Cr2" 2) (-1, 0, 0)%Z.
Definition k12' := mkB (mkAtom "Cr1" 1) (mkAtom "Cr2" 2) (0, -1, 0)%Z.
Definition sample_matrix : M3 Qc := mkM (Q2Qc 4.5) (Q2Qc 0.75) (Q2Qc 1) (Q2Qc 0.25) (Q2Qc 3.5) (Q2Qc 0.5) (Q2Qc (-1)) (Q2Qc (-0.5)) (Q2Qc 5.5).
Lemma tb_sample : exists r, tb_loads QX tb_file tb_cell [row1; row2] [ent1; ent2] r
  /\ last_about k12 [ent1; ent2] ent1 /\ In (b_from k12) (h_atoms (w_ham (tl_ham r))) /\ In (b_to k12) (h_atoms (w_ham (tl_ham r)))
  /\ Forall (fun e => ~ about k12' e) [ent1; ent2] /\ first_about (mirror k12') [ent1; ent2] ent2
  /\ bond_value (tl_ham r) k12 = Some sample_matrix.
Proof.
  destruct (load_tb2j QX tb_file) as [r|e] eqn:E; [|exfalso; destruct (tb_total QX _ _ _ _ tb_file_ok tb_consistent) as [r Hr]; congruence].
  exists r. split; [split; [exact tb_file_ok|split; [exact tb_consistent|exact E]]|].
  assert (A : h_atoms (w_ham (tl_ham r)) = [mkAtom "Cr1" 1; mkAtom "Cr2" 2]).
  { assert (G : match load_tb2j QX tb_file with Ret x => h_atoms (w_ham (tl_ham x)) | _ => [] end = [mkAtom "Cr1" 1; mkAtom "Cr2" 2]) by (vm_compute; reflexivity).
    rewrite E in G. exact G. }
  split; [exists [], [ent2]; split; [reflexivity|split; [repeat split|constructor; [intros (H & _); discriminate|constructor]]]|].
  rewrite A. split; [left; reflexivity|]. split; [right; left; reflexivity|].
  split; [repeat constructor; intros (H1 & H2 & H3); discriminate|].
  split; [exists [ent1], []; split; [reflexivity|split; [repeat split|constructor; [intros (H & _); discriminate|constructor]]]|].
  assert (G : match load_tb2j QX tb_file with Ret x => match bond_value (tl_ham x) k12 with Some m => m = sample_matrix | None => False end | _ => False end).
  { unfold sample_matrix. vm_compute. f_equal; apply Qc_is_canon; reflexivity. }
  rewrite E in G. destruct (bond_value (tl_ham r) k12); [f_equal; exact G|contradiction].
Qed.
