(** What magnopy-convert-tb2j is asked to write. *)
From Coq Require Import String List.
From Verif.Base Require Import PyString PyText.
Local Open Scope string_scope.

Definition ends_in (suffix s : string) : Prop := exists t, s = t ++ suffix.
(** The format is the one given (in any letter case), otherwise the suffix of the name decides. *)
Definition asks_hdf5 (format : option string) (name : string) : Prop :=
  (exists f, format = Some f /\ str_lower f = "hdf5") \/ (format = None /\ ends_in ".hdf5" name).
Definition asks_text (format : option string) (name : string) : Prop :=
  (exists f, format = Some f /\ str_lower f = "txt") \/ (format = None /\ ~ ends_in ".hdf5" name).
(** The HDF5 file written for a name: a trailing ".txt", then a trailing ".hdf5" are replaced by ".hdf5". *)
Definition hdf5_target (name target : string) : Prop :=
  exists s, target = s ++ ".hdf5" /\
    (name = s ++ ".hdf5" \/ name = s ++ ".hdf5" ++ ".txt" \/ (name = s ++ ".txt" /\ ~ ends_in ".hdf5" s) \/ (name = s /\ ~ ends_in ".txt" s /\ ~ ends_in ".hdf5" s)).
