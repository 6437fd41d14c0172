(** C48: format detection. Vocabulary: Spec/DispatchSpec.v; code: Model/Dispatch.v. *)
From Coq Require Import String.
From Verif.Model Require Import Hamiltonian Dispatch.
From Verif.Spec Require Import DispatchSpec.
From Verif.Proofs Require Import DispatchProofs.
Local Open Scope string_scope.

(** For any loaders: the one asked for is called with the file name. *)
Theorem C48_loader : forall (A : Type) (txt hdf5 tb2j : string -> io A) filename fmt f,
  asks_for filename fmt f ->
  load_spinham txt hdf5 tb2j filename fmt = (match f with FTxt => txt | FHdf5 => hdf5 | FTb2j => tb2j end) filename.
Proof. exact @dispatch. Qed.
Print Assumptions C48_loader.

Theorem C48_unambiguous : forall filename fmt f f', asks_for filename fmt f -> asks_for filename fmt f' -> f = f'.
Proof. exact asks_fun. Qed.
Print Assumptions C48_unambiguous.

(** No file is opened. *)
Theorem C48_refuses : forall (A : Type) (txt hdf5 tb2j : string -> io A) filename fmt t,
  (forall f, ~ asks_for filename fmt f) -> load_spinham txt hdf5 tb2j filename fmt t = (t, Raise ValueError).
Proof. exact @dispatch_refuses. Qed.
Print Assumptions C48_refuses.

Example C48_cases : asks_for "runs/exchange.out" None FTb2j /\ asks_for "model.hdf5" (Some "TXT") FTxt
  /\ asks_for "model.HDF5" None FTxt /\ (forall f, ~ asks_for "model.txt" (Some "vampire") f).
Proof. exact dispatch_cases. Qed.
