(** Concrete files for C46 and C47. *)
From Coq Require Import String List Bool ZArith Arith QArith Qcanon Lia Permutation.
From Verif.Base Require Import Scalar QcLit Linear3 PyDict.
From Verif.Model Require Import MatrixParam Hamiltonian History TxtRead Hdf5.
From Verif.Spec Require Import HamSpec HistorySpec Hdf5Spec.
From Verif.Proofs Require Import HamBasics HistoryProofs HamWitness TextWitness Hdf5Dump Hdf5Detect.
Import ListNotations.
Local Open Scope string_scope.

Definition at_ (a : atom) (v : option (V3 Qc)) : @site Qc := mkSite a (mkV f0 (qq 1 2) f0) v (Some (q 2)) (if Z.eqb (a_index a) 1 then Some (q 3) else None).
Definition along (s : Qc) : option (V3 Qc) := Some (mkV f0 f0 s).
Definition box : M3 Qc := mkM (q 2) f0 f0 f0 (q 3) f0 f0 f0 (q 5).
Definition rich_sites : list (@site Qc) := [at_ atA (along (qq 3 2)); at_ atB (along (q 2)); at_ atC (along (q 1))].
(** Four bonds, an on-site parameter, a spiral vector and a cone axis. *)
Definition s_rich : @spinham Qc := mkSH box rich_sites w_rich (Some (mkV f0 (qq 1 3) f0)) (Some (mkV f0 f0 f1)).
Definition empty_file : @node Qc := Grp [] [].
Definition path : list string := ["models"; "first"].

Lemma units_QX : units_defined QX.
Proof. split; qne. Qed.
Lemma nodup_names (l : list string) : NoDup (nodup string_dec l) -> nodup string_dec l = l -> NoDup l.
Proof. intros H E. rewrite <- E. exact H. Qed.
Ltac distinct := apply nodup_names; [apply NoDup_nodup|vm_compute; reflexivity].
Ltac complete_by_values := split; [intros _; vm_compute; discriminate|split; [intros _; split; vm_compute; discriminate|intros H; (vm_compute; discriminate) || (exfalso; apply H; vm_compute; reflexivity)]].
Lemma rich_object : one_object s_rich.
Proof.
  split; [vm_compute; reflexivity|]. exact (reachable_Inv _ r_rich).
Qed.
Lemma rich_named : well_named s_rich.
Proof. split; [distinct|]. repeat constructor; discriminate. Qed.
Lemma rich_axis : unit_axis QX s_rich.
Proof. intros n E. injection E as <-. split; [apply Qc_is_canon; reflexivity|vm_compute; reflexivity]. Qed.
Lemma rich_complete : complete s_rich.
Proof. split; [repeat constructor; discriminate|]. complete_by_values. Qed.
Lemma empty_creatable p : p <> [] -> creatable empty_file p.
Proof. intros H. split; [exact H|]. split; [destruct p; [congruence|reflexivity]|]. intros [|x q] r d a E K; cbn in K; discriminate. Qed.
Lemma empty_proper : proper empty_file.
Proof. split; [constructor|exact I]. Qed.
Lemma empty_no : no_spinham empty_file.
Proof. intros [|x p] n H K; [congruence|discriminate K]. Qed.
Lemma file_pair (x : @node Qc * out unit) o : snd x = o -> x = (fst x, o).
Proof. destruct x. cbn. intros ->. reflexivity. Qed.
Definition rich_file : @node Qc := fst (dump s_rich path false empty_file).
Lemma rich_dumped : dump s_rich path false empty_file = (rich_file, Ret tt).
Proof. unfold rich_file. apply file_pair. vm_compute. reflexivity. Qed.

(** Eleven atoms. *)
Definition many_sites : list (@site Qc) := map (fun i => at_ (mkAtom (String.append "Fe" (numeral i)) (Z.of_nat i)) (along (q 1))) (seq 1 11).
Definition s_many : @spinham Qc := mkSH box many_sites (fresh [] (map st_atom many_sites) []) None None.
Lemma fresh_object : one_object s_many.
Proof.
  split; [reflexivity|]. apply (reachable_Inv (fresh [] (map st_atom many_sites) [])). exists [], (map st_atom many_sites), [], []. reflexivity.
Qed.
Lemma order_refuted : exists (s s' : @spinham Qc) (file : node),
  reachable (sh_ham s) /\ one_object s /\ well_named s /\ numbered_from_one (sh_sites s) /\
  dump s path false empty_file = (file, Ret tt) /\ load QX (Some path) file = Ret s' /\ map name_of (sh_sites s') <> map name_of (sh_sites s).
Proof.
  pose (file := fst (dump s_many path false empty_file)). pose (o := load QX (Some path) file).
  exists s_many, (match o with Ret s' => s' | _ => s_many end), file.
  split; [exists [], (map st_atom many_sites), [], []; reflexivity|]. split; [exact fresh_object|]. split; [split; [distinct|repeat constructor; discriminate]|].
  split; [vm_compute; reflexivity|]. split; [apply file_pair; vm_compute; reflexivity|]. split; [vm_compute; reflexivity|].
  vm_compute. discriminate.
Qed.

(** Two atoms of the same name. *)
Definition tw1 : atom := mkAtom "Cr" 1.
Definition tw2 : atom := mkAtom "Cr" 2.
Definition w_twins : @world Qc := run [OAddExchangeNew (AObj tw1) (AObj tw2) c0 (Some one); OSetDC false; OSetSN false; OSetEF (q 1)] (fresh [] [tw1; tw2] [(tw1, q 1); (tw2, q 1)]).
Definition s_twins : @spinham Qc := mkSH box [at_ tw1 (along (q 1)); at_ tw2 (along (q 1))] w_twins None None.
Lemma twins_refuted : exists (s : @spinham Qc) (file : node),
  reachable (sh_ham s) /\ one_object s /\ complete s /\ dump s path false empty_file = (file, Ret tt) /\ load QX (Some path) file = Raise TypeError.
Proof.
  exists s_twins, (fst (dump s_twins path false empty_file)).
  assert (R : reachable w_twins) by (do 4 eexists; reflexivity).
  split; [exact R|]. split; [split; [reflexivity|exact (reachable_Inv _ R)]|].
  split; [split; [repeat constructor; discriminate|complete_by_values]|].
  split; [apply file_pair; vm_compute; reflexivity|]. vm_compute. reflexivity.
Qed.

(** ** C47 *)
(** The third atom has lost its spin. *)
Definition w_spinless : @world Qc :=
  run [OSetDC true; OAddExchangeNew (AObj atA) (AObj atB) c0 (Some gen); OSetSN false; OSetEF (qq 1 2)] (fresh [] [atA; atB; atC] [(atA, qq 3 2); (atB, q 2)]).
Definition s_spinless : @spinham Qc := mkSH box [at_ atA (along (qq 3 2)); at_ atB (along (q 2)); at_ atC None] w_spinless None None.
(** No notation. *)
Definition s_unnoted : @spinham Qc := mkSH box rich_sites w_back None None.
Lemma lost_refuted : exists (s old : @spinham Qc) (file file' : node) e,
  reachable (sh_ham s) /\ one_object s /\ load QX (Some path) file = Ret old /\ bonds (sh_ham old) <> [] /\
  dump s path true file = (file', Raise ValueError) /\ load QX (Some path) file' = Raise e.
Proof.
  exists s_spinless, (match load QX (Some path) rich_file with Ret s' => s' | _ => s_rich end), rich_file, (fst (dump s_spinless path true rich_file)), KeyError.
  assert (R : reachable w_spinless) by (do 4 eexists; reflexivity).
  split; [exact R|]. split; [split; [vm_compute; reflexivity|exact (reachable_Inv _ R)]|].
  split; [vm_compute; reflexivity|]. split; [vm_compute; discriminate|]. split; [apply file_pair; vm_compute; reflexivity|vm_compute; reflexivity].
Qed.
Lemma silent_refuted : exists (s old new : @spinham Qc) (file file' : node),
  reachable (sh_ham s) /\ one_object s /\ load QX (Some path) file = Ret old /\ bonds (sh_ham old) <> [] /\ bonds (sh_ham s) <> [] /\
  dump s path true file = (file', Raise NotationError) /\ load QX (Some path) file' = Ret new /\ no_parameters new.
Proof.
  pose (f2 := fst (dump s_unnoted path true rich_file)).
  exists s_unnoted, (match load QX (Some path) rich_file with Ret s' => s' | _ => s_rich end), (match load QX (Some path) f2 with Ret s' => s' | _ => s_rich end), rich_file, f2.
  assert (R : reachable w_back) by (do 4 eexists; reflexivity).
  split; [exact R|]. split; [split; [vm_compute; reflexivity|exact (reachable_Inv _ R)]|].
  split; [vm_compute; reflexivity|]. split; [vm_compute; discriminate|]. split; [vm_compute; discriminate|]. split; [apply file_pair; vm_compute; reflexivity|].
  split; [vm_compute; reflexivity|]. split; vm_compute; reflexivity.
Qed.

Lemma rich_again : exists s', load QX (Some path) rich_file = Ret s' /\ restored QX s_rich s'
  /\ in_word_order (map facts (sh_sites s_rich)) (map facts (sh_sites s')) /\ numbered_from_one (sh_sites s').
Proof. exact (round_trip QX s_rich path false empty_file rich_file units_QX rich_object rich_named rich_axis rich_dumped). Qed.

Lemma silent_example : exists s' file', dump s_unnoted path true rich_file = (file', Raise NotationError) /\ holds rich_file path
  /\ load QX (Some ["models"; "first"]%string) rich_file = Ret s' /\ bonds (sh_ham s') <> [].
Proof.
  exists (match load QX (Some path) rich_file with Ret s' => s' | _ => s_rich end), (fst (dump s_unnoted path true rich_file)).
  split; [apply file_pair; vm_compute; reflexivity|]. split; [vm_compute; discriminate|]. split; vm_compute; [reflexivity|discriminate].
Qed.
