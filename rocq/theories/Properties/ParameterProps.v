(** C01-C05: MatrixParameter. Proofs are in Proofs/ParameterProofs.v; the vocabulary
    ([composed], [symmetric], [traceless], [antisymmetric], [dmi_form]) is in
    Spec/ParameterSpec.v. *)
From Coq Require Import QArith Qcanon ZArith.
From Verif.Base Require Import Scalar Linear3 QcLit.
From Verif.Model Require Import MatrixParam.
From Verif.Spec Require Import ParameterSpec.
From Verif.Proofs Require Import ParameterProofs.
Local Open Scope fld_scope.

(** ** C01 *)
Theorem C01_decomposition : forall (F : Type) (SF : Scalar F) (m : M3 F),
  m = madd (madd (p_iso_matrix m) (p_aniso m)) (p_dmi_matrix m) /\
  p_iso_matrix m = mkM (p_iso m) 0 0 0 (p_iso m) 0 0 0 (p_iso m) /\
  symmetric (p_aniso m) /\ traceless (p_aniso m) /\
  antisymmetric (p_dmi_matrix m) /\ p_dmi_matrix m = dmi_form (p_dmi m).
Proof. exact @decomposition. Qed.
Print Assumptions C01_decomposition.

Theorem C01_decomposition_unique : forall (F : Type) (SF : Scalar F) (m : M3 F) (j : F) (s : M3 F) (d : V3 F),
  composed m j s d -> j = p_iso m /\ s = p_aniso m /\ d = p_dmi m.
Proof. exact @decompose_unique. Qed.
Print Assumptions C01_decomposition_unique.

(** A matrix with all three parts different from zero. *)
Example C01_case : composed (qm 1 5 3 1 2 4 3 2 6) (q 3) (qm (-2) 3 3 3 (-1) 3 3 3 3) (mkV (q 1) (q 0) (q 2)).
Proof.
  unfold composed, symmetric, traceless. splits; reflexivity.
Qed.

(** ** C02 *)
Theorem C02_set_iso : forall (F : Type) (SF : Scalar F) (m : M3 F) (v : F),
  p_iso (p_set_iso m v) = v /\ p_aniso (p_set_iso m v) = p_aniso m /\ p_dmi (p_set_iso m v) = p_dmi m.
Proof. exact @set_iso_parts. Qed.
Print Assumptions C02_set_iso.

Theorem C02_set_dmi : forall (F : Type) (SF : Scalar F) (m : M3 F) (v : V3 F),
  p_dmi (p_set_dmi m v) = v /\ p_iso (p_set_dmi m v) = p_iso m /\ p_aniso (p_set_dmi m v) = p_aniso m.
Proof. exact @set_dmi_parts. Qed.
Print Assumptions C02_set_dmi.

(** ** C03. Full claim: the equations hold for every 3x3 [a]. *)
Theorem C03_set_aniso_partial : forall (F : Type) (SF : Scalar F) (m a : M3 F),
  (p_aniso (p_set_aniso m a) = a /\ p_iso (p_set_aniso m a) = p_iso m /\ p_dmi (p_set_aniso m a) = p_dmi m)
  <-> symmetric a /\ traceless a.
Proof. exact @set_aniso_iff. Qed.
Print Assumptions C03_set_aniso_partial.

Theorem C03_set_aniso_refuted :
  exists m a : M3 Qc,
    p_aniso (p_set_aniso m a) <> a /\ p_iso (p_set_aniso m a) <> p_iso m /\ p_dmi (p_set_aniso m a) <> p_dmi m.
Proof. exact set_aniso_refuted. Qed.
Print Assumptions C03_set_aniso_refuted.

Example C03_case : symmetric (qm 1 4 5 4 2 6 5 6 (-3)) /\ traceless (qm 1 4 5 4 2 6 5 6 (-3)).
Proof. unfold symmetric, traceless. splits; reflexivity. Qed.

(** ** C04 *)
Theorem C04_constructor : forall (F : Type) (SF : Scalar F)
    (matrix : option (M3 F)) (iso : option F) (aniso : option (M3 F)) (dmi : option (V3 F)),
  (forall a, aniso = Some a -> symmetric a /\ traceless a) ->
  let base := match matrix with Some x => x | None => mkM 0 0 0 0 0 0 0 0 0 end in
  let p := p_init matrix iso aniso dmi in
  p_iso p = match iso with Some j => j | None => p_iso base end /\
  p_aniso p = match aniso with Some a => a | None => p_aniso base end /\
  p_dmi p = match dmi with Some d => d | None => p_dmi base end.
Proof. exact @init_parts. Qed.
Print Assumptions C04_constructor.

Example C04_case : p_init (Some (qm 1 5 3 1 2 4 3 2 6)) (Some (q 7)) (Some (qm 1 4 5 4 2 6 5 6 (-3))) None
  = qm 8 6 5 2 9 7 5 5 4.
Proof. reflexivity. Qed.

(** ** C05 *)
Theorem C05_transpose : forall (F : Type) (SF : Scalar F) (m : M3 F),
  p_T (p_T m) = m /\
  p_iso (p_T m) = p_iso m /\ p_aniso (p_T m) = p_aniso m /\ p_dmi (p_T m) = vopp (p_dmi m).
Proof. exact @transpose_parts. Qed.
Print Assumptions C05_transpose.

Theorem C05_arithmetic : forall (F : Type) (SF : Scalar F) (a b : M3 F) (c : F),
  (p_iso (p_add a b) = p_iso a + p_iso b /\
   p_aniso (p_add a b) = madd (p_aniso a) (p_aniso b) /\
   p_dmi (p_add a b) = vadd (p_dmi a) (p_dmi b)) /\
  (p_iso (p_sub a b) = p_iso a - p_iso b /\
   p_aniso (p_sub a b) = msub (p_aniso a) (p_aniso b) /\
   p_dmi (p_sub a b) = vsub (p_dmi a) (p_dmi b)) /\
  (p_iso (p_mul a c) = c * p_iso a /\
   p_aniso (p_mul a c) = mscale c (p_aniso a) /\
   p_dmi (p_mul a c) = vscale c (p_dmi a)) /\
  (p_iso (p_neg a) = - p_iso a /\
   p_aniso (p_neg a) = mopp (p_aniso a) /\
   p_dmi (p_neg a) = vopp (p_dmi a)) /\
  p_pos a = a /\
  (c <> 0 -> exists d, p_div a c = Some d /\
     c * p_iso d = p_iso a /\ mscale c (p_aniso d) = p_aniso a /\ vscale c (p_dmi d) = p_dmi a).
Proof. exact @arithmetic_parts. Qed.
Print Assumptions C05_arithmetic.

Example C05_case : q 2 <> f0.
Proof. intro H. apply (f_equal this) in H. discriminate H. Qed.
