(** Rational literals for executable witnesses. *)
From Coq Require Import QArith Qcanon ZArith.
From Verif.Base Require Import Scalar Linear3.

Definition q (n : Z) : Qc := Q2Qc (inject_Z n).
Definition qq (n : Z) (d : positive) : Qc := Q2Qc (n # d).
Definition qm (a b c d e f g h i : Z) : M3 Qc := mkM (q a) (q b) (q c) (q d) (q e) (q f) (q g) (q h) (q i).
Definition qv (a b c : Z) : V3 Qc := mkV (q a) (q b) (q c).
