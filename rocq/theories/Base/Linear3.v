(** 3-component vectors and 3x3 matrices (numpy arrays of shape (3,) and (3, 3)). *)
From Coq Require Import List Field Field_theory Ring_theory.
From Verif.Base Require Import Scalar.
Import ListNotations.
Local Open Scope fld_scope.

Record V3 (F : Type) := mkV { vx : F; vy : F; vz : F }.
Arguments mkV {F}. Arguments vx {F}. Arguments vy {F}. Arguments vz {F}.

(** Row major: [mxy] is [matrix[0][1]]. *)
Record M3 (F : Type) := mkM {
  mxx : F; mxy : F; mxz : F;
  myx : F; myy : F; myz : F;
  mzx : F; mzy : F; mzz : F }.
Arguments mkM {F}.
Arguments mxx {F}. Arguments mxy {F}. Arguments mxz {F}.
Arguments myx {F}. Arguments myy {F}. Arguments myz {F}.
Arguments mzx {F}. Arguments mzy {F}. Arguments mzz {F}.

Section Ops.
Context {F : Type} {SF : Scalar F}.

Definition vmap2 (f : F -> F -> F) (a b : V3 F) : V3 F :=
  mkV (f (vx a) (vx b)) (f (vy a) (vy b)) (f (vz a) (vz b)).
Definition vmap (f : F -> F) (a : V3 F) : V3 F := mkV (f (vx a)) (f (vy a)) (f (vz a)).
Definition vadd := vmap2 fadd.
Definition vsub := vmap2 fsub.
Definition vscale (c : F) := vmap (fmul c).
Definition vopp := vmap fopp.
Definition vzero : V3 F := mkV 0 0 0.
Definition dot (a b : V3 F) : F := vx a * vx b + vy a * vy b + vz a * vz b.
Definition cross (a b : V3 F) : V3 F :=
  mkV (vy a * vz b - vz a * vy b) (vz a * vx b - vx a * vz b) (vx a * vy b - vy a * vx b).

Definition mmap2 (f : F -> F -> F) (a b : M3 F) : M3 F :=
  mkM (f (mxx a) (mxx b)) (f (mxy a) (mxy b)) (f (mxz a) (mxz b))
      (f (myx a) (myx b)) (f (myy a) (myy b)) (f (myz a) (myz b))
      (f (mzx a) (mzx b)) (f (mzy a) (mzy b)) (f (mzz a) (mzz b)).
Definition mmap (f : F -> F) (a : M3 F) : M3 F :=
  mkM (f (mxx a)) (f (mxy a)) (f (mxz a)) (f (myx a)) (f (myy a)) (f (myz a)) (f (mzx a)) (f (mzy a)) (f (mzz a)).
Definition madd := mmap2 fadd.
Definition msub := mmap2 fsub.
Definition mopp := mmap fopp.
Definition mscale (c : F) := mmap (fun x => x * c).      (* numpy [m * c] *)
Definition mdivs (a : M3 F) (c : F) := mmap (fun x => x / c) a.  (* numpy [m / c] *)
Definition mzero : M3 F := mkM 0 0 0 0 0 0 0 0 0.
Definition mid : M3 F := mkM 1 0 0 0 1 0 0 0 1.
Definition mtrans (a : M3 F) : M3 F :=
  mkM (mxx a) (myx a) (mzx a) (mxy a) (myy a) (mzy a) (mxz a) (myz a) (mzz a).
Definition mtrace (a : M3 F) : F := mxx a + myy a + mzz a.
Definition mrow1 (a : M3 F) := mkV (mxx a) (mxy a) (mxz a).
Definition mrow2 (a : M3 F) := mkV (myx a) (myy a) (myz a).
Definition mrow3 (a : M3 F) := mkV (mzx a) (mzy a) (mzz a).
Definition mvec (a : M3 F) (v : V3 F) : V3 F := mkV (dot (mrow1 a) v) (dot (mrow2 a) v) (dot (mrow3 a) v).
(** [v @ m] *)
Definition vmat (v : V3 F) (a : M3 F) : V3 F := mvec (mtrans a) v.
Definition mmul (a b : M3 F) : M3 F :=
  let bt := mtrans b in
  mkM (dot (mrow1 a) (mrow1 bt)) (dot (mrow1 a) (mrow2 bt)) (dot (mrow1 a) (mrow3 bt))
      (dot (mrow2 a) (mrow1 bt)) (dot (mrow2 a) (mrow2 bt)) (dot (mrow2 a) (mrow3 bt))
      (dot (mrow3 a) (mrow1 bt)) (dot (mrow3 a) (mrow2 bt)) (dot (mrow3 a) (mrow3 bt)).
Definition mdet (a : M3 F) : F :=
  mxx a * (myy a * mzz a - myz a * mzy a) - mxy a * (myx a * mzz a - myz a * mzx a)
  + mxz a * (myx a * mzy a - myy a * mzx a).
(** [np.einsum("i,ij,j", a, m, b)] *)
Definition bilin (a : V3 F) (m : M3 F) (b : V3 F) : F := dot a (mvec m b).

Definition fsum (l : list F) : F := fold_right fadd 0 l.

End Ops.

Lemma V3_ext {F} (a b : V3 F) : vx a = vx b -> vy a = vy b -> vz a = vz b -> a = b.
Proof. destruct a, b; simpl; intros; subst; reflexivity. Qed.

Lemma M3_ext {F} (a b : M3 F) :
  mxx a = mxx b -> mxy a = mxy b -> mxz a = mxz b ->
  myx a = myx b -> myy a = myy b -> myz a = myz b ->
  mzx a = mzx b -> mzy a = mzy b -> mzz a = mzz b -> a = b.
Proof. destruct a, b; simpl; intros; subst; reflexivity. Qed.

Definition V3_eq_dec {F} `{Scalar F} (a b : V3 F) : {a = b} + {a <> b}.
Proof. decide equality; apply feq_dec. Defined.
Definition M3_eq_dec {F} `{Scalar F} (a b : M3 F) : {a = b} + {a <> b}.
Proof. decide equality; apply feq_dec. Defined.

(** Unfold everything down to scalar expressions ([cbv] so that shared arguments are reduced once). *)
Ltac lin3 :=
  cbv beta iota zeta delta [bilin vmat mmul mvec mrow1 mrow2 mrow3 cross dot vadd vsub vscale vopp vzero vmap2 vmap
    madd msub mopp mscale mdivs mzero mid mtrace mtrans mdet mmap2 mmap f2 f3
    vx vy vz mxx mxy mxz myx myy myz mzx mzy mzz].
