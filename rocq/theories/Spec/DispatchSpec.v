(** Which format a call asks for. *)
From Coq Require Import String.
From Verif.Base Require Import PyString.
Local Open Scope string_scope.

Inductive file_format := FTxt | FHdf5 | FTb2j.
Definition keyword (f : file_format) : string := match f with FTxt => "txt" | FHdf5 => "hdf5" | FTb2j => "tb2j" end.
(** [s] ends with [p] *)
Definition suffix (p s : string) : Prop := exists q, s = q ++ p.

Inductive asks_for (filename : string) : option string -> file_format -> Prop :=
| af_given k f : str_lower k = keyword f -> asks_for filename (Some k) f
| af_hdf5 : suffix ".hdf5" filename -> asks_for filename None FHdf5
| af_tb2j : suffix "exchange.out" filename -> asks_for filename None FTb2j
| af_txt : ~ suffix ".hdf5" filename -> ~ suffix "exchange.out" filename -> asks_for filename None FTxt.
