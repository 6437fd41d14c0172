(** Property C88: the state along the easy axis of a ferromagnet has the lowest energy. *)
From Coq Require Import List Bool ZArith Reals Permutation.
From Verif.Base Require Import Scalar ScalarR Linear3 PyDict.
From Verif.Model Require Import MatrixParam Hamiltonian EnergyInit Energy.
From Verif.Spec Require Import HamSpec NotationSpec EnergySpec EasyAxisSpec.
From Verif.Proofs Require Import HamWitness EnergyWitness ParallelCases EasyAxisCases.
Import ListNotations.
Local Open Scope R_scope.

(** Whenever [ferro], [spiral] or [antiferro] return an energy for any arguments, [ferro] with every spin along the axis returns one
    that is not higher. Exchange x S.S' + z (n.S) (n.S') with ef x <= 0 and ef z <= 0, on-site terms x S.S + y (n.S)^2 with of y <= 0. *)
Theorem C88_ferro (order : list atom -> list atom) (g : atom -> R) (cell : M3 R) (w w1 : world) (E : @energy_obj R) (dc sn : bool) (ef of_ : R) (n : V3 R) :
  (forall l, Permutation (order l) l) -> wf w -> (if dc then mirror_closed w else unshared w) -> notation_is w dc sn ef of_ -> of_ <> 0 ->
  (forall a, carries w a -> spin_of w a <> None) -> (forall a s, spin_of w a = Some s -> 0 <= s) -> dot n n = 1 -> easy_axis n ef of_ w ->
  energy_init order g cell w = (w1, Ret E) ->
  forall mu a e, e_ferro mu (w_store w1) (set_field E None) a = Ret e ->
  exists e0, e_ferro mu (w_store w1) (set_field E None) (SRows (repeat n (List.length (e_spins E)))) = Ret e0 /\ e0 <= e.
Proof. exact (ground_ferro order g cell w w1 E dc sn ef of_ n). Qed.
Print Assumptions C88_ferro.

Theorem C88_spiral (order : list atom -> list atom) (g : atom -> R) (cell : M3 R) (w w1 : world) (E : @energy_obj R) (dc sn : bool) (ef of_ : R) (n : V3 R) :
  (forall l, Permutation (order l) l) -> wf w -> (if dc then mirror_closed w else unshared w) -> notation_is w dc sn ef of_ -> of_ <> 0 ->
  (forall a, carries w a -> spin_of w a <> None) -> (forall a s, spin_of w a = Some s -> 0 <= s) -> dot n n = 1 -> easy_axis n ef of_ w ->
  energy_init order g cell w = (w1, Ret E) ->
  forall mu a m q e, e_spiral mu (w_store w1) (set_field E None) a m q = Ret e ->
  exists e0, e_ferro mu (w_store w1) (set_field E None) (SRows (repeat n (List.length (e_spins E)))) = Ret e0 /\ e0 <= e.
Proof. exact (ground_spiral order g cell w w1 E dc sn ef of_ n). Qed.
Print Assumptions C88_spiral.

Theorem C88_antiferro (order : list atom -> list atom) (g : atom -> R) (cell : M3 R) (w w1 : world) (E : @energy_obj R) (dc sn : bool) (ef of_ : R) (n : V3 R) :
  (forall l, Permutation (order l) l) -> wf w -> (if dc then mirror_closed w else unshared w) -> notation_is w dc sn ef of_ -> of_ <> 0 ->
  (forall a, carries w a -> spin_of w a <> None) -> (forall a s, spin_of w a = Some s -> 0 <= s) -> dot n n = 1 -> easy_axis n ef of_ w ->
  energy_init order g cell w = (w1, Ret E) ->
  forall mu a m q e, e_antiferro mu (w_store w1) (set_field E None) a m q = Ret e ->
  exists e0, e_ferro mu (w_store w1) (set_field E None) (SRows (repeat n (List.length (e_spins E)))) = Ret e0 /\ e0 <= e.
Proof. exact (ground_antiferro order g cell w w1 E dc sn ef of_ n). Qed.
Print Assumptions C88_antiferro.

(** The same for [ferro] in a field along the axis on the favourable side. *)
Theorem C88_field (order : list atom -> list atom) (g : atom -> R) (cell : M3 R) (w w1 : world) (E : @energy_obj R) (dc sn : bool) (ef of_ : R) (n : V3 R) :
  (forall l, Permutation (order l) l) -> wf w -> (if dc then mirror_closed w else unshared w) -> notation_is w dc sn ef of_ -> of_ <> 0 ->
  (forall a, carries w a -> spin_of w a <> None) -> (forall a s, spin_of w a = Some s -> 0 <= s) -> dot n n = 1 -> easy_axis n ef of_ w ->
  energy_init order g cell w = (w1, Ret E) ->
  forall mu h a e, (forall c, mu * h * g c <= 0) -> e_ferro mu (w_store w1) (set_field E (Some (vscale h n))) a = Ret e ->
  exists e0, e_ferro mu (w_store w1) (set_field E (Some (vscale h n))) (SRows (repeat n (List.length (e_spins E)))) = Ret e0 /\ e0 <= e.
Proof. exact (ground_field order g cell w w1 E dc sn ef of_ n). Qed.
Print Assumptions C88_field.

Example C88_case : (forall l, Permutation (keep l) l) /\ wf w_side /\ mirror_closed w_side /\ notation_is w_side true false 1 1 /\
  (forall a, carries w_side a -> spin_of w_side a <> None) /\ (forall a s, spin_of w_side a = Some s -> 0 <= s) /\ easy_axis (mkV 0 0 1) 1 1 w_side /\
  bonds w_side <> [] /\ sites w_side <> [] /\ exists w1 E, energy_init keep (fun _ => 2) one3 w_side = (w1, Ret E) /\
  forall q, exists e, e_spiral 1 (w_store w1) (set_field E None) (SRows [mkV 1 0 0; mkV 2 0 0]) (Some ez) (Some q) = Ret e.
Proof. exact easy_case. Qed.
