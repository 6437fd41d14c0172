(** Properties C21-C26: the class Energy. *)
From Coq Require Import List Bool ZArith Permutation QArith Qcanon Reals.
From Coquelicot Require Import Coquelicot.
From Verif.Base Require Import Scalar ScalarR Linear3 PyDict QcLit.
From Verif.Model Require Import MatrixParam Hamiltonian History EnergyInit Energy.
From Verif.Spec Require Import HamSpec HistorySpec NotationSpec EnergySpec.
From Verif.Proofs Require Import HamWitness EnergyProofs ConeProofs EnergyWitness.
Import ListNotations.
Local Open Scope R_scope.

(** ** C21 *)
(** With double counting the constructor changes neither the notation nor any parameter. *)
Theorem C21_double_counting : forall (F : Type) (SF : Scalar F) order g cell (w : @world F) sn ef of_,
  (forall l, Permutation (order l) l) -> wf w /\ mirror_closed w -> notation_is w true sn ef of_ -> of_ <> f0 ->
  (forall a, carries w a -> spin_of w a <> None) ->
  exists w' E, energy_init order g cell w = (w', Ret E) /\ notation_is w' true sn ef of_ /\ same_parameters w w' /\
    h_atoms (w_ham w') = h_atoms (w_ham w) /\ h_spins (w_ham w') = h_spins (w_ham w).
Proof. exact @init_dc. Qed.
Print Assumptions C21_double_counting.

Example C21_case : (wf w_rich /\ mirror_closed w_rich) /\ notation_is w_rich true false (qq 1 2) (q 1) /\ q 1 <> f0 /\
  (forall a, carries w_rich a -> spin_of w_rich a <> None) /\ bonds w_rich <> [] /\ sites w_rich <> [].
Proof. exact rich_case21. Qed.

(** Full claim: without [reciprocal_storage] and [unshared]. *)
Theorem C21_no_double_counting_partial : forall (F : Type) (SF : Scalar F) order g cell (w : @world F) sn ef of_,
  (forall l, Permutation (order l) l) -> wf w -> unshared w -> reciprocal_storage w false -> notation_is w false sn ef of_ -> of_ <> f0 ->
  (forall a, carries w a -> spin_of w a <> None) ->
  exists w' E, energy_init order g cell w = (w', Ret E) /\ notation_is w' false sn ef of_ /\ same_parameters w w' /\
    h_atoms (w_ham w') = h_atoms (w_ham w) /\ h_spins (w_ham w') = h_spins (w_ham w).
Proof. exact @init_no_dc. Qed.
Print Assumptions C21_no_double_counting_partial.

Example C21_case_once : wf w_once /\ unshared w_once /\ reciprocal_storage w_once false /\ notation_is w_once false true (q 1) (q (-1)) /\ q (-1) <> f0 /\
  (forall a, carries w_once a -> spin_of w_once a <> None) /\ bonds w_once = [mkB atA atB c0; mkB atA atA c1] /\ sites w_once = [atB].
Proof. exact once_case21. Qed.

(** When it raises, double counting can stay switched on. *)
Theorem C21_raises_refuted : exists (w w' : @world Qc) order g cell e, reachable w /\ (forall l, Permutation (order l) l) /\
  (exists ef of_, notation_is w false true ef of_) /\ energy_init order g cell w = (w', Raise e) /\ h_dc (w_ham w') <> h_dc (w_ham w).
Proof. exact init_raises_refuted. Qed.
Print Assumptions C21_raises_refuted.

(** When it succeeds, the classical energy can be another one. *)
Theorem C21_energy_refuted : exists (w w' : @world Qc) order g cell E L s e e', reachable w /\ (forall l, Permutation (order l) l) /\ periodic L s /\
  unshared w /\ energy_init order g cell w = (w', Ret E) /\ energy w L s = Some e /\ energy w' L s = Some e' /\ e <> e'.
Proof. exact init_changes_refuted. Qed.
Print Assumptions C21_energy_refuted.

(** ** C22 *)
(** Full claim: also without double counting. The later calls are not handed the objects of the Energy itself, which
    the Hamiltonian does not contain. *)
Theorem C22_double_counting_partial : forall order g cell (w : @world R) sn ef of_,
  (forall l, Permutation (order l) l) -> wf w /\ mirror_closed w -> notation_is w true sn ef of_ -> of_ <> 0 ->
  (forall a, carries w a -> spin_of w a <> None) ->
  exists w' E, energy_init order g cell w = (w', Ret E) /\ (forall l, In l (energy_objects E) -> ~ In l (in_use w')) /\
    forall ops, (forall o l, In o ops -> In l (mentions o) -> ~ In l (energy_objects E)) ->
    (forall mu H a, e_ferro mu (w_store (run ops w')) (set_field E H) a = e_ferro mu (w_store w') (set_field E H) a) /\
    (forall mu H a n q, e_antiferro mu (w_store (run ops w')) (set_field E H) a n q = e_antiferro mu (w_store w') (set_field E H) a n q) /\
    (forall mu H a n q, e_spiral mu (w_store (run ops w')) (set_field E H) a n q = e_spiral mu (w_store w') (set_field E H) a n q).
Proof. exact init_independent. Qed.
Print Assumptions C22_double_counting_partial.

Example C22_case : let w := w_r true true 2 (-1) in (wf w /\ mirror_closed w) /\ notation_is w true true 1 (-1) /\ -1 <> 0 /\
  (forall a, carries w a -> spin_of w a <> None) /\ bonds w <> [] /\ sites w <> [].
Proof. exact independent_case. Qed.

Theorem C22_shared_refuted : exists (w w' : @world R) order g cell E mu a ops e e', reachable w /\ (forall l, Permutation (order l) l) /\
  energy_init order g cell w = (w', Ret E) /\ (forall o l, In o ops -> In l (mentions o) -> False) /\
  e_ferro mu (w_store w') E a = Ret e /\ e_ferro mu (w_store (run ops w')) E a = Ret e' /\ e <> e'.
Proof. exact shared_objects_refuted. Qed.
Print Assumptions C22_shared_refuted.

(** ** C23 *)
(** The value of [ferro] right after the construction, for every notation: [X], [Y] are the exchange and the on-site sums
    with real spin lengths. *)
Theorem C23_value : forall order g cell mu (w : @world R) dc sn ef of_ atoms u rows X Y,
  (forall l, Permutation (order l) l) -> wf w -> notation_is w dc sn ef of_ -> of_ <> 0 ->
  (if dc then mirror_closed w else unshared w /\ forall k, In k (bonds w) -> ~ In (mirror k) (bonds w)) ->
  magnetic_atoms order w = (w, Ret atoms) -> atoms <> [] -> (forall a, In a atoms -> spin_of w a <> None) ->
  Forall2 (fun a v => direction v (u a)) atoms rows ->
  osum (map (bond_term false w (1, 1, 1)%nat (ferro_config u)) (bonds w)) = Some X ->
  osum (map (site_term false w (1, 1, 1)%nat (ferro_config u)) (sites w)) = Some Y ->
  exists w' E, energy_init order g cell w = (w', Ret E) /\
    e_ferro mu (w_store w') E (SRows rows) = Ret ((if dc then 1 else 2) * ef * X + ef * ef / of_ * Y).
Proof. exact ferro_value. Qed.
Print Assumptions C23_value.

(** Full claim: for every notation. *)
Theorem C23_classical_partial : forall order g cell mu (w : @world R) ef of_ atoms u rows e,
  (forall l, Permutation (order l) l) -> wf w /\ mirror_closed w -> notation_is w true false ef of_ -> of_ <> 0 -> ef * ef = of_ * of_ ->
  magnetic_atoms order w = (w, Ret atoms) -> atoms <> [] -> (forall a, In a atoms -> spin_of w a <> None) ->
  Forall2 (fun a v => direction v (u a)) atoms rows -> energy w (1, 1, 1)%nat (ferro_config u) = Some e ->
  exists w' E, energy_init order g cell w = (w', Ret E) /\ e_ferro mu (w_store w') E (SRows rows) = Ret e.
Proof. exact ferro_classical. Qed.
Print Assumptions C23_classical_partial.

Example C23_case : let w := w_r true false 2 (-1) in
  (wf w /\ mirror_closed w) /\ notation_is w true false 1 (-1) /\ -1 <> 0 /\ 1 * 1 = -1 * -1 /\ magnetic_atoms keep w = (w, Ret [atA; atB]) /\
  Forall2 (fun (a : atom) v => direction v ez) [atA; atB] [ez; ez] /\ energy w (1, 1, 1)%nat (ferro_config (fun _ => ez)) = Some 4.
Proof. exact ferro_case. Qed.

(** Each of the three conditions is needed: no double counting; normalized spins; different factors. *)
Theorem C23_classical_refuted : forall dc sn S of_,
  (dc, sn, S, of_) = (false, false, 1, 1) \/ (dc, sn, S, of_) = (true, true, 2, 1) \/ (dc, sn, S, of_) = (true, false, 1, 2) ->
  exists (w w' : @world R) order g cell mu atoms u rows E e e',
  reachable w /\ (forall l, Permutation (order l) l) /\ notation_is w dc sn 1 of_ /\ (forall a, carries w a -> spin_of w a <> None) /\
  magnetic_atoms order w = (w, Ret atoms) /\ Forall2 (fun a v => direction v (u a)) atoms rows /\
  energy_init order g cell w = (w', Ret E) /\ energy w (1, 1, 1)%nat (ferro_config u) = Some e /\ e_ferro mu (w_store w') E (SRows rows) = Ret e' /\ e <> e'.
Proof. exact ferro_refuted. Qed.
Print Assumptions C23_classical_refuted.

(** ** C24 *)
Theorem C24_ferro : forall mu st E rows rows', Forall2 stretched rows rows' ->
  e_ferro mu st E (SRows rows') = e_ferro mu st E (SRows rows).
Proof. exact ferro_directions. Qed.
Print Assumptions C24_ferro.
Theorem C24_ferro_one_spin : forall mu st E v v', stretched v v' -> e_ferro mu st E (SVec v') = e_ferro mu st E (SVec v).
Proof. exact vector_directions. Qed.
Print Assumptions C24_ferro_one_spin.
Theorem C24_antiferro : forall mu st E rows rows' n n' q, Forall2 stretched rows rows' -> stretched n n' ->
  e_antiferro mu st E (SRows rows') (Some n') q = e_antiferro mu st E (SRows rows) (Some n) q.
Proof. exact (cone_directions antiferro_C). Qed.
Print Assumptions C24_antiferro.
Theorem C24_antiferro_one_spin : forall mu st E v v' n n' q, stretched v v' -> stretched n n' ->
  e_antiferro mu st E (SVec v') (Some n') q = e_antiferro mu st E (SVec v) (Some n) q.
Proof. exact (cone_vector_directions antiferro_C). Qed.
Print Assumptions C24_antiferro_one_spin.
Theorem C24_spiral : forall mu st E rows rows' n n' q, Forall2 stretched rows rows' -> stretched n n' ->
  e_spiral mu st E (SRows rows') (Some n') q = e_spiral mu st E (SRows rows) (Some n) q.
Proof. exact (cone_directions spiral_C). Qed.
Print Assumptions C24_spiral.
Theorem C24_spiral_one_spin : forall mu st E v v' n n' q, stretched v v' -> stretched n n' ->
  e_spiral mu st E (SVec v') (Some n') q = e_spiral mu st E (SVec v) (Some n) q.
Proof. exact (cone_vector_directions spiral_C). Qed.
Print Assumptions C24_spiral_one_spin.

Example C24_case : Forall2 stretched [mkV 1 0 0; mkV 0 3 4] [mkV 2 0 0; mkV 0 (3 * / 2) (4 * / 2)].
Proof. exact stretched_case. Qed.

(** ** C25 *)
Theorem C25_spiral : forall mu st E rows dirs n1 n q e, e_field E = None -> Forall2 direction rows dirs -> direction n1 n ->
  e_spiral mu st E (SRows rows) (Some n1) (Some q) = Ret e -> is_RInt (phase_energy st E dirs n q) 0 (2 * PI) (2 * PI * e).
Proof. exact spiral_average. Qed.
Print Assumptions C25_spiral.

(** For every spiral vector, in particular those with [2q] in the reciprocal lattice. *)
Theorem C25_antiferro : forall mu st E rows dirs n1 n q e, e_field E = None -> Forall2 direction rows dirs -> direction n1 n ->
  e_antiferro mu st E (SRows rows) (Some n1) (Some q) = Ret e ->
  e = (phase_energy st E dirs n q 0 + phase_energy st E dirs n q PI) / 2.
Proof. exact antiferro_average. Qed.
Print Assumptions C25_antiferro.

(** The calls succeed for every well-formed Energy. *)
Theorem C25_total : forall C mu st E rows dirs n1 n q, List.length rows = List.length (e_spins E) -> rows <> [] ->
  Forall2 direction rows dirs -> direction n1 n ->
  (forall i j d l, In (i, j, d, l) (e_bonds E) -> (i < List.length (e_spins E) /\ j < List.length (e_spins E) /\ l < List.length st)%nat) ->
  exists e, cone_energy C mu st E (SRows rows) (Some n1) (Some q) = Ret e.
Proof. exact cone_total. Qed.
Print Assumptions C25_total.

Example C25_case : forall C mu H q, exists e, cone_energy C mu st_c (E_c H) (SRows [mkV 2 0 0; ez]) (Some ez) (Some q) = Ret e.
Proof. exact cone_case. Qed.

(** ** C26 *)
(** What the field really adds: the average plus the Zeeman energy of the unrotated spins. *)
Theorem C26_spiral_field : forall mu st E rows dirs n1 n q H e e0, Forall2 direction rows dirs -> direction n1 n ->
  e_spiral mu st (set_field E (Some H)) (SRows rows) (Some n1) (Some q) = Ret e ->
  e_spiral mu st (set_field E None) (SRows rows) (Some n1) (Some q) = Ret e0 ->
  exists average, is_RInt (phase_zeeman mu H (e_g E) dirs n) 0 (2 * PI) (2 * PI * average) /\
    e - e0 = average + plain_zeeman mu H (e_g E) dirs.
Proof. exact spiral_zeeman. Qed.
Print Assumptions C26_spiral_field.
Theorem C26_antiferro_field : forall mu st E rows dirs n1 n q H e e0, Forall2 direction rows dirs -> direction n1 n ->
  e_antiferro mu st (set_field E (Some H)) (SRows rows) (Some n1) (Some q) = Ret e ->
  e_antiferro mu st (set_field E None) (SRows rows) (Some n1) (Some q) = Ret e0 ->
  e - e0 = (phase_zeeman mu H (e_g E) dirs n 0 + phase_zeeman mu H (e_g E) dirs n PI) / 2 + plain_zeeman mu H (e_g E) dirs.
Proof. exact antiferro_zeeman. Qed.
Print Assumptions C26_antiferro_field.

Theorem C26_spiral_refuted : exists mu st E rows dirs n q H e e0 average,
  Forall2 direction rows dirs /\ direction n n /\
  e_spiral mu st (set_field E (Some H)) (SRows rows) (Some n) (Some q) = Ret e /\
  e_spiral mu st (set_field E None) (SRows rows) (Some n) (Some q) = Ret e0 /\
  is_RInt (phase_zeeman mu H (e_g E) dirs n) 0 (2 * PI) (2 * PI * average) /\ e - e0 <> average.
Proof. exact zeeman_refuted. Qed.
Print Assumptions C26_spiral_refuted.
Theorem C26_antiferro_refuted : exists mu st E rows dirs n q H e e0,
  Forall2 direction rows dirs /\ direction n n /\
  e_antiferro mu st (set_field E (Some H)) (SRows rows) (Some n) (Some q) = Ret e /\
  e_antiferro mu st (set_field E None) (SRows rows) (Some n) (Some q) = Ret e0 /\
  e - e0 <> (phase_zeeman mu H (e_g E) dirs n 0 + phase_zeeman mu H (e_g E) dirs n PI) / 2.
Proof. exact zeeman_two_refuted. Qed.
Print Assumptions C26_antiferro_refuted.
