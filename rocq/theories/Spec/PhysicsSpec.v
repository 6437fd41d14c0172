(** Sizes of units, CODATA 2018 in decimal digits, and what it means to have read a value in a unit. *)
From Coq Require Import QArith Qcanon Qabs ZArith Reals Ascii String List.
From Verif.Base Require Import Scalar Linear3 PyString PyText PyText2.
From Verif.Spec Require Import TxtFormat.
Import ListNotations.

(** One of each unit, in meV *)
Definition in_millielectronvolts : list (string * Q) :=
  [("milli-electron-volt", 1); ("electron-volt", 1000); ("joule", 6241509074000000000000 # 1);
   ("kelvin", 8617333262 # 100000000000); ("rydberg", 13605693123 # 1000000)]%string%Q.
(** One of each unit, in Angstrom *)
Definition in_angstroms : list (string * Q) := [("angstrom", 1); ("bohr", 529177210903 # 1000000000000)]%string%Q.
(** The energy of one Bohr magneton in a field of one Tesla, in meV *)
Definition meV_per_tesla : R := (5788381806 / 100000000000)%R.

(** Nine equal digits *)
Definition near (x y : Qc) : Prop := (Qabs (x - y) <= (1 # 1000000000) * Qabs y)%Q.
Definition entries (m : M3 Qc) : list Qc := [mxx m; mxy m; mxz m; myx m; myy m; myz m; mzx m; mzy m; mzz m].
Definition reads_as (loaded : M3 Qc) (u : Q) (written : M3 Qc) : Prop :=
  Forall2 (fun x y => near x (Q2Qc u * y)%Qc) (entries loaded) (entries written).

(** A unit is known in text files by its first letter; without a unit the values are in meV and Angstrom. *)
Definition text_unit (hdr name : string) (default : string) : Prop :=
  (exists k, py_split hdr = [k] /\ name = default) \/ (exists k u c t, py_split hdr = [k; u] /\ name = String c t /\ initial c u).
