(** A dumped file with an atom without spin is never loaded. *)
From Coq Require Import String Ascii List Bool ZArith Arith Lia.
From Verif.Base Require Import Scalar Linear3 PyDict PyString PyText.
From Verif.Spec Require Import HamSpec TxtSpec TxtFormat Hdf5Spec TxtDumpSpec.
From Verif.Model Require Import MatrixParam Hamiltonian TxtVerify TxtRead Hdf5 TxtDump.
From Verif.Proofs Require Import TextBasics SectionProofs TxtReadProofs TextGlue FileProofs DumpText DumpWords DumpLoad.
Import ListNotations.
Local Open Scope string_scope.

Section Spinless.
Context {F : Type} {SF : Scalar F}.
Variable X : externals F.
Variable P : printer F.
Variable rnd : nat -> F -> F.
Hypothesis HP : prints X P rnd.
Hypothesis Hdash : x_float X "-" = None.

Lemma dash_fails cell scale conv fl x ln a : st_spin x = None -> py_split ln = w_atom P x ->
  read_atom X cell scale conv (map str_lower (w_header fl)) ln = Ret a -> False.
Proof.
  intros N E H. unfold read_atom in H. rewrite E in H. unfold w_atom in H. rewrite N in H. cbv zeta in H.
  apply obind_inv in H. destruct H as (n & _ & H). apply obind_inv in H. destruct H as (nm & _ & H). apply obind_inv in H. destruct H as (p & _ & H).
  apply obind_inv in H. destruct H as (q & _ & H). apply obind_inv in H. destruct H as (g & _ & H). apply obind_inv in H. destruct H as (sp & H & _).
  unfold w_header in H. destruct (fl_angles fl); cbn in H; unfold column in H; cbn in H; unfold py_float in H; rewrite Hdash in H; discriminate.
Qed.
Lemma lines_fail cell scale conv fl l : forall lines r, (exists x, In x l /\ st_spin x = None) -> map py_split lines = map (w_atom P) l ->
  read_atom_lines X cell scale conv (map str_lower (w_header fl)) lines = Ret r -> False.
Proof.
  induction l as [|y l IH]; intros [|ln lines] r (x & I & N) E H; try discriminate; [contradiction|]. pose proof (f_equal (@hd _ []) E) as E0. apply (f_equal (@tl _)) in E. cbn [map hd tl] in E0, E.
  cbn [read_atom_lines] in H. apply obind_inv in H. destruct H as (a & Ha & H). apply obind_inv in H. destruct H as (r' & Hr & _).
  destruct I as [->|I]; [exact (dash_fails _ _ _ _ _ _ _ N E0 Ha)|]. apply (IH lines r'); eauto.
Qed.
Theorem spinless_not_loaded fl s content L : one_object s -> Forall (fun x => good_name (a_name (st_atom x))) (sh_sites s) ->
  (exists x, In x (sh_sites s) /\ st_spin x = None) -> dump_txt P fl s = Ret content -> load_txt X (readlines content) <> Ret L.
Proof.
  intros Ho Hg Hx Hd H. destruct (file_layout X P rnd HP fl s content Ho Hg Hd) as (secs & ts & La).
  destruct (load_inv X secs ts _ L (ly_file _ _ _ _ _ _ La) (ly_laid _ _ _ _ _ _ La) (ly_names _ _ _ _ _ _ La) H) as (_ & scale & w1 & w2 & _ & (sa & Hsa & Ha) & _).
  pose proof (atoms_is P fl s content secs ts La sa Hsa) as W. unfold w_atoms in W. destruct sa as [|l0 [|l1 lines]]; try discriminate.
  apply (f_equal (@tl _)) in W. cbn [map tl] in W. pose proof (f_equal (@hd _ []) W) as W1. apply (f_equal (@tl _)) in W. cbn [map hd tl] in W1, W.
  unfold read_atoms in Ha. cbn [item nth_error of_option obind skipn] in Ha. apply obind_inv in Ha. destruct Ha as (conv & _ & Ha). rewrite py_split_lower, W1 in Ha.
  exact (lines_fail _ _ _ fl (sh_sites s) _ _ Hx W Ha).
Qed.
End Spinless.
