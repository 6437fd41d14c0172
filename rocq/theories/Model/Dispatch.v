(** Model of [load_spinham] (src/magnopy/io/__init__.py:32-103).

    The loaders are parameters: computations that may open files (the trace) and return or raise. Strings are
    ASCII. Logging is not modelled. *)
From Coq Require Import String List.
From Verif.Base Require Import PyString PyText.
From Verif.Model Require Import Hamiltonian.
Local Open Scope string_scope.

(** Files opened so far, in order. *)
Definition trace := list string.
Definition io (A : Type) : Type := trace -> trace * out A.

Section Dispatch.
Context {A : Type}.
Variables load_txt load_hdf5 load_tb2j : string -> io A.

Definition load_spinham (filename : string) (spinham_format : option string) : io A :=
  let fmt := match spinham_format with
             | None => if ends_with ".hdf5" filename then "hdf5"
                       else if ends_with "exchange.out" filename then "tb2j" else "txt"
             | Some f => str_lower f
             end in
  if string_dec fmt "txt" then load_txt filename
  else if string_dec fmt "hdf5" then load_hdf5 filename
  else if string_dec fmt "tb2j" then load_tb2j filename
  else fun t => (t, Raise ValueError).
End Dispatch.
