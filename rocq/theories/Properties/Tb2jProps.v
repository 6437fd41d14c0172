(** C50: the TB2J loader. Vocabulary: Spec/Tb2jSpec.v (files), Spec/HamSpec.v; code: Model/Tb2j.v.
    [X]: conversion of words to numbers, arbitrary. *)
From Coq Require Import String List ZArith Qcanon.
From Verif.Base Require Import Scalar Linear3 PyText.
From Verif.Model Require Import Hamiltonian TxtRead Tb2j.
From Verif.Spec Require Import HamSpec TxtFormat Tb2jSpec.
From Verif.Proofs Require Import TextWitness Tb2jProofs Tb2jCases.
Import ListNotations.
Local Open Scope fld_scope.
Local Open Scope string_scope.

Theorem C50_loads : forall F (SF : Scalar F) (X : externals F) f cell rows es,
  is_tb2j_file X f cell rows es -> consistent rows es -> exists r, load_tb2j X f = Ret r.
Proof. exact @tb_total. Qed.
Print Assumptions C50_loads.

(** Cell, atoms in the order of the table (indices 1, 2, ...), notation. *)
Theorem C50_frame : forall F (SF : Scalar F) (X : externals F) f cell rows es r,
  is_tb2j_file X f cell rows es -> consistent rows es -> load_tb2j X f = Ret r ->
  tl_cell r = Some cell
  /\ map ta_name (tl_atoms r) = map tr_name rows /\ map ta_position (tl_atoms r) = map tr_position rows
  /\ map ta_charge (tl_atoms r) = map tr_charge rows /\ map ta_magmom (tl_atoms r) = map tr_magmom rows
  /\ (forall n row, nth_error rows n = Some row -> nth_error (h_atoms (w_ham (tl_ham r))) n = Some (mkAtom (tr_name row) (Z.of_nat n + 1)))
  /\ List.length (h_atoms (w_ham (tl_ham r))) = List.length rows
  /\ notation_is (tl_ham r) true true (- (1)) (- (1)) /\ sites (tl_ham r) = [].
Proof. exact (fun F SF X f cell rows es r H C L => @tb_frame F SF X f cell rows es r (conj H (conj C L))). Qed.
Print Assumptions C50_frame.

(** A bond of the file carries the matrix of its (last) entry. *)
Theorem C50_entry : forall F (SF : Scalar F) (X : externals F) f cell rows es r k e,
  is_tb2j_file X f cell rows es -> consistent rows es -> load_tb2j X f = Ret r ->
  In (b_from k) (h_atoms (w_ham (tl_ham r))) -> In (b_to k) (h_atoms (w_ham (tl_ham r))) ->
  last_about k es e -> exists m, bond_value (tl_ham r) k = Some m /\ energy_of_entry e m.
Proof. exact (fun F SF X f cell rows es r k e H C L => @tb_entry F SF X f cell rows es r k e (conj H (conj C L))). Qed.
Print Assumptions C50_entry.

(** An entry describes one matrix. *)
Theorem C50_unique : forall F (SF : Scalar F) (e : @entry F) m m', energy_of_entry e m -> energy_of_entry e m' -> m = m'.
Proof. exact @energy_determines. Qed.
Print Assumptions C50_unique.

(** A bond that is not in the file, while its mirror is. *)
Theorem C50_mirror : forall F (SF : Scalar F) (X : externals F) f cell rows es r k e,
  is_tb2j_file X f cell rows es -> consistent rows es -> load_tb2j X f = Ret r ->
  In (b_from k) (h_atoms (w_ham (tl_ham r))) -> In (b_to k) (h_atoms (w_ham (tl_ham r))) ->
  Forall (fun e' => ~ about k e') es -> first_about (mirror k) es e ->
  exists m, bond_value (tl_ham r) k = Some (mtrans m) /\ energy_of_entry e m.
Proof. exact (fun F SF X f cell rows es r k e H C L => @tb_mirror F SF X f cell rows es r k e (conj H (conj C L))). Qed.
Print Assumptions C50_mirror.

Theorem C50_nothing_else : forall F (SF : Scalar F) (X : externals F) f cell rows es r k J,
  is_tb2j_file X f cell rows es -> consistent rows es -> load_tb2j X f = Ret r ->
  bond_value (tl_ham r) k = Some J -> exists e, In e es /\ (about k e \/ about (mirror k) e).
Proof. exact (fun F SF X f cell rows es r k J H C L => @tb_only F SF X f cell rows es r k J (conj H (conj C L))). Qed.
Print Assumptions C50_nothing_else.

Example C50_case : exists r, (is_tb2j_file QX tb_file tb_cell [row1; row2] [ent1; ent2] /\ consistent [row1; row2] [ent1; ent2] /\ load_tb2j QX tb_file = Ret r)
  /\ last_about k12 [ent1; ent2] ent1 /\ In (b_from k12) (h_atoms (w_ham (tl_ham r))) /\ In (b_to k12) (h_atoms (w_ham (tl_ham r)))
  /\ Forall (fun e => ~ about k12' e) [ent1; ent2] /\ first_about (mirror k12') [ent1; ent2] ent2
  /\ bond_value (tl_ham r) k12 = Some sample_matrix.
Proof. exact tb_sample. Qed.

(** Beyond the format: a separator below the last bond stops the loader; an empty line instead of the totals
    makes it drop all bonds. *)
Theorem C50_trailing_separator : forall F (SF : Scalar F) (X : externals F) f cell rows es l,
  is_tb2j_file X f cell rows es -> consistent rows es -> separator l -> load_tb2j X (f ++ [l]) = Raise IndexError.
Proof. exact @tb_trailing. Qed.
Print Assumptions C50_trailing_separator.

Theorem C50_blank_after_atoms : forall F (SF : Scalar F) (X : externals F)
  pre hcell ra rb rc a1 a2 a3 b1 b2 b3 c1 c2 c3 mid hatoms x y table rows blank rest,
  Forall plain pre -> Forall plain mid ->
  contains "Cell (Angstrom):" hcell -> ~ contains "Atoms:" hcell -> ~ contains "Exchange:" hcell ->
  numbers X (py_split ra) [a1; a2; a3] -> numbers X (py_split rb) [b1; b2; b3] -> numbers X (py_split rc) [c1; c2; c3] ->
  contains "Atoms:" hatoms -> ~ contains "Cell (Angstrom):" hatoms ->
  Forall2 (row_text X) table rows -> py_split blank = [] ->
  exists r, load_tb2j X (pre ++ [hcell; ra; rb; rc] ++ mid ++ [hatoms; x; y] ++ table ++ [blank] ++ rest) = Ret r /\ bonds (tl_ham r) = [].
Proof. exact @tb_blank. Qed.
Print Assumptions C50_blank_after_atoms.
