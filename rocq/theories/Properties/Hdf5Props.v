(** Theorems for C46 and C47: HDF5 files. *)
From Coq Require Import List Bool ZArith Arith QArith Qcanon String Permutation.
From Verif.Base Require Import Scalar QcLit Linear3 PyDict.
From Verif.Model Require Import MatrixParam Hamiltonian History TxtRead Hdf5.
From Verif.Spec Require Import HamSpec HistorySpec Hdf5Spec.
From Verif.Proofs Require Import HamWitness TextWitness Hdf5Dump Hdf5Detect Hdf5Witness.
Import ListNotations.

(** ** C46. Everything comes back; the atoms come back in the order of their numbers as words, numbered anew. *)
Theorem C46_round_trip : forall (F : Type) (SF : Scalar F) (X : externals F) (s : @spinham F) path overwrite (file file' : @node F),
  units_defined X -> one_object s -> well_named s -> unit_axis X s -> dump s path overwrite file = (file', Ret tt) ->
  exists s', load X (Some path) file' = Ret s' /\ restored X s s'
    /\ in_word_order (map facts (sh_sites s)) (map facts (sh_sites s')) /\ numbered_from_one (sh_sites s').
Proof. exact @round_trip. Qed.
Print Assumptions C46_round_trip.

(** With at most nine atoms, numbered from one, the same atoms and the same parameters come back. *)
Theorem C46_small : forall (F : Type) (SF : Scalar F) (X : externals F) (s : @spinham F) path overwrite (file file' : @node F),
  units_defined X -> one_object s -> well_named s -> unit_axis X s -> (List.length (sh_sites s) <= 9)%nat -> numbered_from_one (sh_sites s) ->
  dump s path overwrite file = (file', Ret tt) ->
  exists s', load X (Some path) file' = Ret s' /\ restored X s s' /\ sh_sites s' = sh_sites s
    /\ (forall k, bond_value (sh_ham s') k = bond_value (sh_ham s) k) /\ (forall a, onsite_value (sh_ham s') a = onsite_value (sh_ham s) a).
Proof. exact @kept. Qed.
Print Assumptions C46_small.

(** With ten or more atoms the order is always lost: the second atom that is read is the tenth that was written. *)
Theorem C46_order_lost : forall (F : Type) (SF : Scalar F) (X : externals F) (s : @spinham F) path overwrite (file file' : @node F),
  units_defined X -> one_object s -> well_named s -> unit_axis X s -> (10 <= List.length (sh_sites s))%nat ->
  dump s path overwrite file = (file', Ret tt) ->
  exists s', load X (Some path) file' = Ret s' /\ restored X s s'
    /\ nth_error (map facts (sh_sites s')) 1 = nth_error (map facts (sh_sites s)) 9 /\ map facts (sh_sites s') <> map facts (sh_sites s).
Proof. exact @lost_order. Qed.
Print Assumptions C46_order_lost.

(** The full claim (same order for every size) is false. *)
Theorem C46_order_refuted : exists (s s' : @spinham Qc) (file : node),
  reachable (sh_ham s) /\ one_object s /\ well_named s /\ numbered_from_one (sh_sites s) /\
  dump s path false empty_file = (file, Ret tt) /\ load QX (Some path) file = Ret s' /\ map name_of (sh_sites s') <> map name_of (sh_sites s).
Proof. exact order_refuted. Qed.
Print Assumptions C46_order_refuted.

(** Two atoms of one name: what is written cannot be read. *)
Theorem C46_same_name_refuted : exists (s : @spinham Qc) (file : node),
  reachable (sh_ham s) /\ one_object s /\ complete s /\ dump s path false empty_file = (file, Ret tt) /\ load QX (Some path) file = Raise TypeError.
Proof. exact twins_refuted. Qed.
Print Assumptions C46_same_name_refuted.

(** The dump succeeds exactly for complete Hamiltonians. *)
Theorem C46_succeeds : forall (F : Type) (SF : Scalar F) (s : @spinham F) path overwrite (file : @node F),
  creatable file path \/ (path <> [] /\ holds file path /\ overwrite = true) ->
  (complete s <-> exists file', dump s path overwrite file = (file', Ret tt)).
Proof. exact @succeeds. Qed.
Print Assumptions C46_succeeds.

(** In a file with one Hamiltonian no path is needed; with two it is. *)
Theorem C46_found : forall (F : Type) (SF : Scalar F) (X : externals F) (s : @spinham F) path overwrite (file file' : @node F),
  proper file -> no_spinham file -> creatable file path -> dump s path overwrite file = (file', Ret tt) ->
  load X None file' = load X (Some path) file'.
Proof. exact @found. Qed.
Print Assumptions C46_found.

Theorem C46_ambiguous : forall (F : Type) (SF : Scalar F) (X : externals F) (s1 s2 : @spinham F) p q o1 o2 (f0 f1 f2 : @node F),
  p <> [] -> q <> [] -> apart p q -> dump s1 p o1 f0 = (f1, Ret tt) -> dump s2 q o2 f1 = (f2, Ret tt) -> load X None f2 = Raise RuntimeError.
Proof. exact @ambiguous. Qed.
Print Assumptions C46_ambiguous.

Example C46_example : exists s', load QX (Some path) rich_file = Ret s' /\ restored QX s_rich s'
  /\ in_word_order (map facts (sh_sites s_rich)) (map facts (sh_sites s')) /\ numbered_from_one (sh_sites s').
Proof. exact rich_again. Qed.

(** ** C47. The full claim: [dump s path true file = (file', Raise e) -> load X (Some path) file' = load X (Some path) file]. *)
(** False: the old group is deleted first, and what is left cannot be loaded ... *)
Theorem C47_refuted : exists (s old : @spinham Qc) (file file' : node) e,
  reachable (sh_ham s) /\ one_object s /\ load QX (Some path) file = Ret old /\ bonds (sh_ham old) <> [] /\
  dump s path true file = (file', Raise ValueError) /\ load QX (Some path) file' = Raise e.
Proof. exact lost_refuted. Qed.
Print Assumptions C47_refuted.

(** ... or, worse, loads as a Hamiltonian without parameters. *)
Theorem C47_silent_refuted : exists (s old new : @spinham Qc) (file file' : node),
  reachable (sh_ham s) /\ one_object s /\ load QX (Some path) file = Ret old /\ bonds (sh_ham old) <> [] /\ bonds (sh_ham s) <> [] /\
  dump s path true file = (file', Raise NotationError) /\ load QX (Some path) file' = Ret new /\ no_parameters new.
Proof. exact silent_refuted. Qed.
Print Assumptions C47_silent_refuted.

(** Every failure of an overwriting dump loses all parameters of the old group. *)
Theorem C47_lost : forall (F : Type) (SF : Scalar F) (X : externals F) (s : @spinham F) path (file file' : @node F) e,
  path <> [] -> holds file path -> dump s path true file = (file', Raise e) ->
  ~ complete s /\ exists n, lookup file' path = Some n /\ forall s', load X (Some path) file' = Ret s' -> no_parameters s'.
Proof. exact @overwrite_fails. Qed.
Print Assumptions C47_lost.

(** The rest of the file is safe, whatever happens; without overwrite so is the group. *)
Theorem C47_elsewhere : forall (F : Type) (SF : Scalar F) (s : @spinham F) path overwrite (file file' : @node F) o other,
  dump s path overwrite file = (file', o) -> apart path other -> lookup file' other = lookup file other.
Proof. exact @dump_elsewhere. Qed.
Print Assumptions C47_elsewhere.

Theorem C47_no_overwrite : forall (F : Type) (SF : Scalar F) (s : @spinham F) path (file : @node F),
  path <> [] -> holds file path -> dump s path false file = (file, Raise FileExistsError).
Proof. exact @dump_existing. Qed.
Print Assumptions C47_no_overwrite.

(** A complete Hamiltonian can be written over the old group. *)
Theorem C47_complete : forall (F : Type) (SF : Scalar F) (s : @spinham F) path (file : @node F),
  path <> [] -> holds file path -> complete s -> exists file', dump s path true file = (file', Ret tt).
Proof. exact @overwrite_complete. Qed.
Print Assumptions C47_complete.

Example C47_example : exists s' file', dump s_unnoted path true rich_file = (file', Raise NotationError) /\ holds rich_file path
  /\ load QX (Some ["models"; "first"]%string) rich_file = Ret s' /\ bonds (sh_ham s') <> [].
Proof. exact silent_example. Qed.
