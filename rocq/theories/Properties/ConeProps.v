(** Property C87: descriptions of the same cone state. *)
From Coq Require Import List Bool ZArith Reals Permutation.
From Verif.Base Require Import Scalar ScalarR Linear3 PyDict.
From Verif.Model Require Import MatrixParam Hamiltonian EnergyInit Energy.
From Verif.Spec Require Import HamSpec NotationSpec EnergySpec DispersionSpec InvarianceSpec RotationSpec ConeSpec.
From Verif.Proofs Require Import HamWitness EnergyWitness RotationCases ConeSymmetry ConeIsotropic ConeCases.
Import ListNotations.
Local Open Scope R_scope.

(** Spiral vectors that differ by a vector of the reciprocal lattice of the cell give the same energy (or the same error),
    for every object the constructor returns, every field, and whatever the parameters have become since. *)
Theorem C87_reciprocal (order : list atom -> list atom) (g : atom -> R) (cell : M3 R) (w w1 : world) (E : @energy_obj R) (G : V3 R)
    (mu : R) (st : list (M3 R)) (H : option (V3 R)) (a : spins_arg) (n : option (V3 R)) (q : V3 R) :
  energy_init order g cell w = (w1, Ret E) -> reciprocal_vector cell G ->
  e_spiral mu st (set_field E H) a n (Some (vadd q G)) = e_spiral mu st (set_field E H) a n (Some q) /\
  e_antiferro mu st (set_field E H) a n (Some (vadd q G)) = e_antiferro mu st (set_field E H) a n (Some q).
Proof. intros Hi HG. exact (conj (cone_reciprocal spiral_C order g cell w w1 E G mu st H a n q Hi HG) (cone_reciprocal antiferro_C order g cell w w1 E G mu st H a n q Hi HG)). Qed.
Print Assumptions C87_reciprocal.

(** Turning round the axis and the spiral vector together changes nothing. *)
Theorem C87_reversed (mu : R) (st : list (M3 R)) (E : @energy_obj R) (a : spins_arg) (n q : V3 R) :
  e_spiral mu st E a (Some (vopp n)) (Some (vopp q)) = e_spiral mu st E a (Some n) (Some q) /\
  e_antiferro mu st E a (Some (vopp n)) (Some (vopp q)) = e_antiferro mu st E a (Some n) (Some q).
Proof. exact (conj (cone_reversed spiral_C mu st E a n q spiral_even) (cone_reversed antiferro_C mu st E a n q antiferro_even)). Qed.
Print Assumptions C87_reversed.

(** Without a field the energy of a spiral does not depend on where on the cone the spins start: all of them turned about
    the axis by the same angle, with any parameters. *)
Theorem C87_about_axis (mu : R) (st : list (M3 R)) (E : @energy_obj R) (rows : list (V3 R)) (n : V3 R) (phi : R) (q : option (V3 R)) :
  e_field E = None -> dot n n = 1 ->
  e_spiral mu st E (SRows (map (rotate n phi) rows)) (Some n) q = e_spiral mu st E (SRows rows) (Some n) q.
Proof. exact (spiral_about mu st E rows n phi q). Qed.
Print Assumptions C87_about_axis.

(** With isotropic parameters the two cone states have the same energy in every field, *)
Theorem C87_isotropic_antiferro (order : list atom -> list atom) (g : atom -> R) (cell : M3 R) (w w1 : world) (E : @energy_obj R) (dc sn : bool) (ef of_ : R)
    (mu : R) (H : option (V3 R)) (a : spins_arg) (n q : option (V3 R)) :
  (forall l, Permutation (order l) l) -> wf w -> (if dc then mirror_closed w else unshared w) -> notation_is w dc sn ef of_ -> of_ <> 0 ->
  (forall b, carries w b -> spin_of w b <> None) -> isotropic_parameters w -> energy_init order g cell w = (w1, Ret E) ->
  e_antiferro mu (w_store w1) (set_field E H) a n q = e_spiral mu (w_store w1) (set_field E H) a n q.
Proof. intros Po W Hd No Nz Sp Iso Hi. exact (iso_antiferro order g cell w w1 E dc sn ef of_ Po W Hd No Nz Sp Iso Hi mu H a n q). Qed.
Print Assumptions C87_isotropic_antiferro.

(** a spiral of zero vector about any axis is the collinear state, *)
Theorem C87_isotropic_zero (order : list atom -> list atom) (g : atom -> R) (cell : M3 R) (w w1 : world) (E : @energy_obj R) (dc sn : bool) (ef of_ : R)
    (mu : R) (a : spins_arg) (n : V3 R) :
  (forall l, Permutation (order l) l) -> wf w -> (if dc then mirror_closed w else unshared w) -> notation_is w dc sn ef of_ -> of_ <> 0 ->
  (forall b, carries w b -> spin_of w b <> None) -> isotropic_parameters w -> energy_init order g cell w = (w1, Ret E) -> dot n n <> 0 ->
  e_spiral mu (w_store w1) (set_field E None) a (Some n) (Some vzero) = e_ferro mu (w_store w1) (set_field E None) a.
Proof. intros Po W Hd No Nz Sp Iso Hi Hn. exact (iso_zero order g cell w w1 E dc sn ef of_ Po W Hd No Nz Sp Iso Hi mu a n Hn). Qed.
Print Assumptions C87_isotropic_zero.

(** and the energies do not change when the spins (and the axis) are rotated with the parameters left as they are. *)
Theorem C87_isotropic_rotation (O : M3 R) (order : list atom -> list atom) (g : atom -> R) (cell : M3 R) (w w1 : world) (E : @energy_obj R) (dc sn : bool) (ef of_ : R) :
  rotation O -> (forall l, Permutation (order l) l) -> wf w -> (if dc then mirror_closed w else unshared w) -> notation_is w dc sn ef of_ -> of_ <> 0 ->
  (forall b, carries w b -> spin_of w b <> None) -> distinctly_indexed w -> isotropic_parameters w -> energy_init order g cell w = (w1, Ret E) ->
  (forall mu a, e_ferro mu (w_store w1) (set_field E None) (turn_arg O a) = e_ferro mu (w_store w1) (set_field E None) a) /\
  (forall mu a n q, e_spiral mu (w_store w1) (set_field E None) (turn_arg O a) (option_map (mvec O) n) q = e_spiral mu (w_store w1) (set_field E None) a n q).
Proof. exact (iso_rotation O order g cell w w1 E dc sn ef of_). Qed.
Print Assumptions C87_isotropic_rotation.

(** With anisotropic parameters a spiral of zero vector is not the collinear state its spins describe: the average over the cone is taken all the same. *)
Theorem C87_zero_refuted : exists mu st E rows n, e_field E = None /\ Forall (fun v => dot v v = 1) rows /\ dot n n = 1 /\
  exists e e', e_ferro mu st E (SRows rows) = Ret e /\ e_spiral mu st E (SRows rows) (Some n) (Some vzero) = Ret e' /\ e <> e'.
Proof. exact zero_refuted. Qed.
Print Assumptions C87_zero_refuted.

Example C87_isotropic : (forall l, Permutation (keep l) l) /\ wf (w_pair 1 1 1) /\ mirror_closed (w_pair 1 1 1) /\ notation_is (w_pair 1 1 1) true true (-1) 1 /\
  (forall a, carries (w_pair 1 1 1) a -> spin_of (w_pair 1 1 1) a <> None) /\ distinctly_indexed (w_pair 1 1 1) /\ isotropic_parameters (w_pair 1 1 1) /\
  bonds (w_pair 1 1 1) <> [] /\ rotation cycle /\ exists w1 E, energy_init keep (fun _ => 2) one3 (w_pair 1 1 1) = (w1, Ret E).
Proof. exact isotropic_case. Qed.
Example C87_lattice : reciprocal_vector one3 (mkV (2 * PI) (- (2 * PI)) 0).
Proof. exact reciprocal_case. Qed.
