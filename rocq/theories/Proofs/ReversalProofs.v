(** Proofs for C89: how the field enters the energies. *)
From Coq Require Import List Bool ZArith Reals Lra.
From Verif.Base Require Import Scalar ScalarR Linear3 PyDict.
From Verif.Model Require Import MatrixParam Hamiltonian EnergyInit Energy.
From Verif.Spec Require Import HamSpec EnergySpec ReversalSpec.
From Verif.Proofs Require Import EnergyInitProofs EnergyProofs ConeProofs ConeSymmetry.
Import ListNotations.
Local Open Scope R_scope.

Lemma check_reversed E a : check_spins E (reversed a) = match check_spins E a with Ret r => Ret (map (@vopp R _) r) | Raise e => Raise e end.
Proof.
  destruct a as [rows|v|]; cbn [reversed check_spins]; [|destruct (Nat.eqb _ _); reflexivity|reflexivity].
  destruct rows as [|r t]; [reflexivity|]. cbn [map]. replace (List.length (vopp r :: map (@vopp R _) t)) with (List.length (r :: t)) by (cbn; rewrite map_length; reflexivity).
  destruct (Nat.eqb _ _); reflexivity.
Qed.
Lemma normalize_reversed rows : normalize_all (map (@vopp R _) rows) = match normalize_all rows with Ret r => Ret (map (@vopp R _) r) | Raise e => Raise e end.
Proof.
  induction rows as [|v t IH]; [reflexivity|]. cbn [map normalize_all]. rewrite norm_opp. destruct (Req_EM_T (norm v) 0); [reflexivity|].
  rewrite IH, unit_opp. destruct (normalize_all t); reflexivity.
Qed.
Lemma bonds_reversed st (E : @energy_obj R) C dirs : bonds_energy st E C (map (@vopp R _) dirs) = bonds_energy st E C dirs.
Proof.
  rewrite !bonds_energy_osum. f_equal. apply map_ext. intros [[[i j] d] l]. unfold bond_energy. rewrite !nth_error_map.
  destruct (nth_error (e_spins E) i), (nth_error (e_spins E) j), (nth_error dirs i) as [u|], (nth_error dirs j) as [v|], (nth_error st l) as [J|]; cbn; try reflexivity.
  f_equal. f_equal. unfold bilin. destruct u, v, (C d J). rlin. ring.
Qed.
Lemma zeeman_reversed mu (E : @energy_obj R) H so : zeeman mu (set_field E (option_map (@vopp R _) H)) (map (@vopp R _) so) = zeeman mu (set_field E H) so.
Proof.
  unfold zeeman. destruct H as [H|]; [|reflexivity]. cbn [option_map set_field e_field]. f_equal.
  change (e_g (set_field E (Some (vopp H)))) with (e_g E). change (e_g (set_field E (Some H))) with (e_g E). revert so. induction (e_g E) as [|g gs IH]; intros [|v so]; try reflexivity.
  cbn [map zeeman_sum]. rewrite IH. f_equal. f_equal. destruct H, v. rlin. ring.
Qed.
Lemma so_prime_reversed K dirs : so_prime K (map (@vopp R _) dirs) = map (@vopp R _) (so_prime K dirs).
Proof. unfold so_prime. rewrite !map_map. apply map_ext. intros v. generalize (madd mid (madd mid (mmul K K))). intros A. destruct A, v. apply V3_ext; rlin; ring. Qed.

Lemma ferro_reversed mu st (E : @energy_obj R) H a : e_ferro mu st (set_field E (option_map (@vopp R _) H)) (reversed a) = e_ferro mu st (set_field E H) a.
Proof.
  unfold e_ferro. rewrite check_reversed. change (check_spins (set_field E (option_map (@vopp R _) H)) a) with (check_spins (set_field E H) a).
  destruct (check_spins (set_field E H) a) as [rows|]; [|reflexivity]. cbn [obind]. rewrite normalize_reversed. destruct (normalize_all rows) as [dirs|]; [|reflexivity]. cbn [obind].
  rewrite bonds_reversed, zeeman_reversed. reflexivity.
Qed.
Lemma cone_reversed_spins C mu st (E : @energy_obj R) H a n q : cone_energy C mu st (set_field E (option_map (@vopp R _) H)) (reversed a) n q = cone_energy C mu st (set_field E H) a n q.
Proof.
  unfold cone_energy. destruct n as [n|]; [|reflexivity]. destruct q as [q|]; [|reflexivity]. cbn [check_vector obind].
  rewrite check_reversed. change (check_spins (set_field E (option_map (@vopp R _) H)) a) with (check_spins (set_field E H) a).
  destruct (check_spins (set_field E H) a) as [rows|]; [|reflexivity]. cbn [obind]. rewrite normalize_reversed. destruct (normalize_all rows) as [dirs|]; [|reflexivity]. cbn [obind].
  destruct (normalize n) as [m|]; [|reflexivity]. cbn [obind]. rewrite bonds_reversed, so_prime_reversed, zeeman_reversed. reflexivity.
Qed.

Lemma zeeman_sum_add (H1 H2 : V3 R) gs so : zeeman_sum (vadd H1 H2) gs so = zeeman_sum H1 gs so + zeeman_sum H2 gs so.
Proof.
  revert so. induction gs as [|g gs IH]; intros [|v so]; cbn [zeeman_sum]; try (rlin; ring). rewrite IH, dot_vadd_l.
  change (g * (dot H1 v + dot H2 v) + (zeeman_sum H1 gs so + zeeman_sum H2 gs so) = (g * dot H1 v + zeeman_sum H1 gs so) + (g * dot H2 v + zeeman_sum H2 gs so)). ring.
Qed.
Lemma zeeman_sum_scale c (H : V3 R) gs so : zeeman_sum (vscale c H) gs so = c * zeeman_sum H gs so.
Proof.
  revert so. induction gs as [|g gs IH]; intros [|v so]; cbn [zeeman_sum]; try (rlin; ring). rewrite IH, dot_vscale_l.
  change (g * (c * dot H v) + c * zeeman_sum H gs so = c * (g * dot H v + zeeman_sum H gs so)). ring.
Qed.
Lemma zeeman_linear mu (E : @energy_obj R) x so : exists m, forall c1 c2 H1 H2, x + zeeman mu (set_field E (Some (vadd (vscale c1 H1) (vscale c2 H2)))) so = x + zeeman mu (set_field E None) so + (c1 * m H1 + c2 * m H2).
Proof.
  exists (fun H => mu * zeeman_sum H (e_g E) so). intros. unfold zeeman. cbn [set_field e_field e_g]. rewrite zeeman_sum_add, !zeeman_sum_scale.
  change (x + mu * (c1 * zeeman_sum H1 (e_g E) so + c2 * zeeman_sum H2 (e_g E) so) = x + 0 + (c1 * (mu * zeeman_sum H1 (e_g E) so) + c2 * (mu * zeeman_sum H2 (e_g E) so))). ring.
Qed.
Lemma core_linear mu (E : @energy_obj R) f (core : out (R * list (V3 R))) :
  (forall H, f H = match core with Ret p => Ret (fst p + zeeman mu (set_field E H) (snd p)) | Raise x => Raise x end) -> linear_in_field f.
Proof.
  intros Hf. split.
  - intros e. rewrite Hf. destruct core as [[x so]|]; [|discriminate]. cbn [fst snd] in *. intros [= <-]. destruct (zeeman_linear mu E x so) as [m Hm]. exists m. intros. rewrite Hf, Hm. reflexivity.
  - intros x H. rewrite !Hf. destruct core as [p|y]; [discriminate|]. intros [= <-]. reflexivity.
Qed.
Lemma ferro_linear mu st (E : @energy_obj R) a : linear_in_field (fun H => e_ferro mu st (set_field E H) a).
Proof.
  apply (core_linear mu E _ (obind (check_spins E a) (fun rows => obind (normalize_all rows) (fun dirs => obind (of_option (bonds_energy st E (fun _ J => J) dirs)) (fun x => Ret (x, dirs)))))).
  intros H. unfold e_ferro. change (check_spins (set_field E H) a) with (check_spins E a). destruct (check_spins E a) as [rows|]; [|reflexivity]. cbn [obind].
  destruct (normalize_all rows) as [dirs|]; [|reflexivity]. cbn [obind]. change (bonds_energy st (set_field E H)) with (bonds_energy st E). destruct (bonds_energy st E _ dirs); reflexivity.
Qed.
Lemma cone_linear C mu st (E : @energy_obj R) a n q : linear_in_field (fun H => cone_energy C mu st (set_field E H) a n q).
Proof.
  apply (core_linear mu E _ (obind (check_vector n) (fun n0 => obind (check_vector q) (fun q => obind (check_spins E a) (fun rows => obind (normalize_all rows) (fun dirs => obind (normalize n0) (fun k =>
    obind (of_option (bonds_energy st E (fun d J => C (cone_K k) J (cos (dot q d)) (sin (dot q d))) dirs)) (fun x => Ret (x, so_prime (cone_K k) dirs))))))))).
  intros H. unfold cone_energy. destruct (check_vector n) as [n0|]; [|reflexivity]. cbn [obind]. destruct (check_vector q) as [q0|]; [|reflexivity]. cbn [obind].
  change (check_spins (set_field E H) a) with (check_spins E a). destruct (check_spins E a) as [rows|]; [|reflexivity]. cbn [obind].
  destruct (normalize_all rows) as [dirs|]; [|reflexivity]. cbn [obind]. destruct (normalize n0) as [k|]; [|reflexivity]. cbn [obind].
  change (bonds_energy st (set_field E H)) with (bonds_energy st E). destruct (bonds_energy st E _ dirs); reflexivity.
Qed.
