(** Specification vocabulary for exchange matrices: what it means to be composed of an
    isotropic number, a symmetric traceless matrix and a DMI vector. Independent of
    the way MatrixParameter computes these parts. *)
From Verif.Base Require Import Scalar Linear3.
Local Open Scope fld_scope.

Section Spec.
Context {F : Type} {SF : Scalar F}.

Definition symmetric (a : M3 F) : Prop := mxy a = myx a /\ mxz a = mzx a /\ myz a = mzy a.
Definition traceless (a : M3 F) : Prop := mxx a + myy a + mzz a = 0.
Definition antisymmetric (a : M3 F) : Prop :=
  mxx a = 0 /\ myy a = 0 /\ mzz a = 0 /\ myx a = - mxy a /\ mzx a = - mxz a /\ mzy a = - myz a.

(** The DMI matrix as documented in parameter.py:421-425. *)
Definition dmi_form (d : V3 F) : M3 F :=
  mkM 0 (vz d) (- vy d)  (- vz d) 0 (vx d)  (vy d) (- vx d) 0.

(** [j] times identity plus a symmetric traceless matrix plus a DMI matrix. *)
Definition composed (m : M3 F) (j : F) (s : M3 F) (d : V3 F) : Prop :=
  symmetric s /\ traceless s /\ m = madd (madd (mscale j mid) s) (dmi_form d).

End Spec.
