(** Spin waves with a wave vector commensurate with a supercell. *)
From Coq Require Import List Bool ZArith Reals Lra Lia Permutation Arith String.
From Coquelicot Require Import Coquelicot.
From Verif.Base Require Import Scalar ScalarR Linear3 PyDict PyString.
From Verif.Model Require Import MatrixParam Hamiltonian EnergyInit Energy Dispersion.
From Verif.Spec Require Import HamSpec NotationSpec HistorySpec EnergySpec DispersionSpec SpinWaveSpec StableSpec.
From Verif.Proofs Require Import HamBasics EnergyFunctional SpinWaveLocal SpinWaveProofs.
From Coq Require Import List.
Import ListNotations.
Local Open Scope R_scope.

(** ** Sums over a supercell *)
Lemma expansion_upto n (f : Z -> R -> R) a0 a1 a2 : (forall z, expansion (f z) (a0 z) (a1 z) (a2 z)) ->
  expansion (fun t => sum_upto n (fun z => f z t)) (sum_upto n a0) (sum_upto n a1) (sum_upto n a2).
Proof.
  intros H. induction n as [|n IH]; [exact (expansion_const 0)|]. cbn [sum_upto].
  exact (expansion_plus _ _ _ _ _ _ _ _ IH (H (Z.of_nat n))).
Qed.
Lemma expansion_box L (f : cell3 -> R -> R) a0 a1 a2 : (forall r, expansion (f r) (a0 r) (a1 r) (a2 r)) ->
  expansion (fun t => sum_box L (fun r => f r t)) (sum_box L a0) (sum_box L a1) (sum_box L a2).
Proof.
  intros H. destruct L as [[n1 n2] n3]. cbn [sum_box].
  apply (expansion_upto n1 (fun i t => sum_upto n2 (fun j => sum_upto n3 (fun k => f (i, j, k) t)))). intros i.
  apply (expansion_upto n2 (fun j t => sum_upto n3 (fun k => f (i, j, k) t))). intros j.
  apply (expansion_upto n3 (fun k t => f (i, j, k) t)). intros k. apply H.
Qed.
Lemma is_RInt_upto n (f : Z -> R -> R) v a b : (forall z, is_RInt (f z) a b (v z)) ->
  is_RInt (fun t => sum_upto n (fun z => f z t)) a b (sum_upto n v).
Proof.
  intros H. induction n as [|n IH]; cbn [sum_upto].
  - assert (K := @is_RInt_const R_NormedModule a b 0). replace (scal (b - a) (0 : R_NormedModule)) with (0 : R) in K by (unfold scal; cbn; unfold mult; cbn; ring). exact K.
  - apply (is_RInt_plus (V := R_NormedModule)); [exact IH|apply H].
Qed.
Lemma is_RInt_box L (f : cell3 -> R -> R) v a b : (forall r, is_RInt (f r) a b (v r)) ->
  is_RInt (fun t => sum_box L (fun r => f r t)) a b (sum_box L v).
Proof.
  intros H. destruct L as [[n1 n2] n3]. cbn [sum_box].
  apply (is_RInt_upto n1 (fun i t => sum_upto n2 (fun j => sum_upto n3 (fun k => f (i, j, k) t)))). intros i.
  apply (is_RInt_upto n2 (fun j t => sum_upto n3 (fun k => f (i, j, k) t))). intros j.
  apply (is_RInt_upto n3 (fun k t => f (i, j, k) t)). intros k. apply H.
Qed.
Definition volume (L : size3) : R := let '(n1, n2, n3) := L in INR n1 * (INR n2 * INR n3).
Lemma upto_const n (c : R) : sum_upto n (fun _ => c) = INR n * c.
Proof. induction n as [|n IH]; cbn [sum_upto]; [cbn; ring|]. rewrite IH, S_INR. cbn. ring. Qed.
Lemma box_const L (c : R) : sum_box L (fun _ => c) = volume L * c.
Proof. destruct L as [[n1 n2] n3]. cbn [sum_box volume]. rewrite !upto_const. ring. Qed.
Lemma upto_ext n (f g : Z -> R) : (forall z, f z = g z) -> sum_upto n f = sum_upto n g.
Proof. intros H. induction n as [|n IH]; cbn [sum_upto]; [reflexivity|]. rewrite IH, H. reflexivity. Qed.
Lemma box_ext L (f g : cell3 -> R) : (forall r, f r = g r) -> sum_box L f = sum_box L g.
Proof. intros H. destruct L as [[n1 n2] n3]. cbn [sum_box]. do 3 (apply upto_ext; intros ?). apply H. Qed.

Section Shift.
Variables (cell : M3 R) (pos : atom -> V3 R) (k : V3 R).
Definition shift_of (r : cell3) : R := let '(i, j, n) := r in dot k (vmat (mkV (IZR i) (IZR j) (IZR n)) cell).

Lemma place_shift a r c : dot k (place cell pos a (cadd r c)) = shift_of r + dot k (place cell pos a c).
Proof.
  destruct r as [[i j] n], c as [[i' j'] n']. unfold place, shift_of, cadd. rewrite !plus_IZR. destruct k as [k1 k2 k3], cell as [c1 c2 c3 c4 c5 c6 c7 c8 c9], (pos a) as [p1 p2 p3].
  unfold dot, vadd, vmap2, vmat, mvec, mtrans, mrow1, mrow2, mrow3, dot; cbn. ring.
Qed.
Lemma cadd_0 r : cadd r (0, 0, 0)%Z = r.
Proof. destruct r as [[i j] n]. cbn. rewrite !Z.add_0_r. reflexivity. Qed.
End Shift.

Section Wave.
Variables (cell : M3 R) (pos : atom -> V3 R) (k : V3 R) (Sl : atom -> R) (e1 e2 e3 : atom -> V3 R) (x y : atom -> C).
Variable w : @world R.
Hypothesis positive : forall a, carries w a -> 0 < Sl a.
Variables (sn : bool) (ef of_ : R).
Let wv := spin_wave cell pos k Sl e1 e2 e3 x y.
Lemma wave_shift t phi a r c : wv t phi a (cadd r c) = wv t (phi + shift_of cell k r) a c.
Proof. unfold wv, spin_wave. rewrite place_shift, Rplus_assoc. reflexivity. Qed.

Lemma pair_box L t phi b J : pair_energy L (wv t phi) b J = sum_box L (fun r => dot (wv t (phi + shift_of cell k r) (b_from b) (0, 0, 0)%Z) (mvec J (wv t (phi + shift_of cell k r) (b_to b) (b_cell b)))).
Proof. unfold pair_energy. apply box_ext. intros r. rewrite <- (cadd_0 r) at 1. rewrite !wave_shift. reflexivity. Qed.
Lemma site_box L t phi a A : site_energy L (wv t phi) a A = sum_box L (fun r => dot (wv t (phi + shift_of cell k r) a (0, 0, 0)%Z) (mvec A (wv t (phi + shift_of cell k r) a (0, 0, 0)%Z))).
Proof. unfold site_energy. apply box_ext. intros r. rewrite <- (cadd_0 r) at 1 2. rewrite !wave_shift. reflexivity. Qed.

Definition EL (L : size3) (t phi : R) : R := total (pair_energy L (wv t phi)) (site_energy L (wv t phi)) w sn ef of_.
Definition EL1 L phi : R := total (fun b J => sum_box L (fun r => fo_bond cell pos k Sl e1 e2 e3 x y (phi + shift_of cell k r) b J)) (fun a A => sum_box L (fun r => fo_bond cell pos k Sl e1 e2 e3 x y (phi + shift_of cell k r) (own a) A)) w sn ef of_.
Definition EL2 L phi : R := total (fun b J => sum_box L (fun r => so_bond cell pos k Sl e1 e2 e3 x y (phi + shift_of cell k r) b J)) (fun a A => sum_box L (fun r => so_bond cell pos k Sl e1 e2 e3 x y (phi + shift_of cell k r) (own a) A)) w sn ef of_.
Definition EL0 L : R := total (fun b J => sum_box L (fun _ => bil (e3 (b_from b)) J (e3 (b_to b)))) (fun a A => sum_box L (fun _ => bil (e3 a) A (e3 a))) w sn ef of_.
Lemma box_expansion L phi : expansion (fun t => EL L t phi) (EL0 L) (EL1 L phi) (EL2 L phi).
Proof.
  unfold EL, EL0, EL1, EL2. apply (total_expansion w sn ef of_ (fun t => pair_energy L (wv t phi)) (fun t => site_energy L (wv t phi))).
  - intros b I J. eapply expansion_ext; [intros t; apply pair_box|].
    apply (expansion_box L (fun r t => dot (wv t (phi + shift_of cell k r) (b_from b) (0, 0, 0)%Z) (mvec J (wv t (phi + shift_of cell k r) (b_to b) (b_cell b))))). intros r.
    apply bond_expansion; [exact (pos_from Sl w positive b I)|exact (pos_to Sl w positive b I)].
  - intros a I A. eapply expansion_ext; [intros t; apply site_box|].
    apply (expansion_box L (fun r t => dot (wv t (phi + shift_of cell k r) a (0, 0, 0)%Z) (mvec A (wv t (phi + shift_of cell k r) a (0, 0, 0)%Z)))). intros r.
    apply bond_expansion; exact (pos_site Sl w positive a I).
Qed.
Lemma so_shift c b J : 0 < Sl (b_from b) -> 0 < Sl (b_to b) -> is_RInt (fun phi => so_bond cell pos k Sl e1 e2 e3 x y (phi + c) b J) 0 (2 * PI) (2 * PI * pe cell pos k Sl e1 e2 e3 x y b J).
Proof.
  intros P Q. unfold pe. rewrite <- (phase_difference cell pos k b).
  replace (at_phase cell pos k (b_to b) (b_cell b) - at_phase cell pos k (b_from b) (0, 0, 0)%Z) with ((c + at_phase cell pos k (b_to b) (b_cell b)) - (c + at_phase cell pos k (b_from b) (0, 0, 0)%Z)) by ring.
  eapply is_RInt_ext; [|apply second_order_mean; assumption]. intros phi _. unfold so_bond, second_order. rewrite <- !Rplus_assoc. reflexivity.
Qed.
Lemma box_second L : is_RInt (EL2 L) 0 (2 * PI) (2 * PI * (volume L * total (pe cell pos k Sl e1 e2 e3 x y) (se cell pos k Sl e1 e2 e3 x y) w sn ef of_)).
Proof.
  rewrite <- !total_scale. unfold EL2.
  apply (total_RInt w sn ef of_ (fun phi b J => sum_box L (fun r => so_bond cell pos k Sl e1 e2 e3 x y (phi + shift_of cell k r) b J)) (fun phi a A => sum_box L (fun r => so_bond cell pos k Sl e1 e2 e3 x y (phi + shift_of cell k r) (own a) A))).
  - intros b I J. replace (2 * PI * (volume L * pe cell pos k Sl e1 e2 e3 x y b J)) with (sum_box L (fun _ => 2 * PI * pe cell pos k Sl e1 e2 e3 x y b J)) by (rewrite box_const; ring).
    apply (is_RInt_box L (fun r phi => so_bond cell pos k Sl e1 e2 e3 x y (phi + shift_of cell k r) b J)). intros r.
    apply so_shift; [exact (pos_from Sl w positive b I)|exact (pos_to Sl w positive b I)].
  - intros a I A. replace (2 * PI * (volume L * se cell pos k Sl e1 e2 e3 x y a A)) with (sum_box L (fun _ => 2 * PI * se cell pos k Sl e1 e2 e3 x y a A)) by (rewrite box_const; ring).
    apply (is_RInt_box L (fun r phi => so_bond cell pos k Sl e1 e2 e3 x y (phi + shift_of cell k r) (own a) A)). intros r.
    apply so_shift; exact (pos_site Sl w positive a I).
Qed.
End Wave.

(** A function with a minimum at 0 has a second-order term that is not negative. *)
Lemma minimum_second f a0 a1 a2 : expansion f a0 a1 a2 -> (exists d, 0 < d /\ forall t, Rabs t < d -> a0 <= f t) -> 0 <= a2.
Proof.
  intros (h & d & Hd & Hc & <- & Hf) (d' & Hd' & Hm). apply Rnot_lt_le. intros N.
  assert (He : 0 < - h 0) by lra. destruct (Hc (- h 0) He) as (d'' & Hd'' & Hc''). cbn in Hc''. unfold R_dist in Hc''.
  set (t := Rmin (Rmin d d') d'' / 2).
  assert (M : 0 < Rmin (Rmin d d') d'') by (repeat apply Rmin_glb_lt; assumption).
  assert (T : 0 < t) by (unfold t; lra).
  assert (B : t < Rmin (Rmin d d') d'') by (unfold t; lra).
  assert (B1 : t < d) by (eapply Rlt_le_trans; [exact B|]; eapply Rle_trans; [apply Rmin_l|apply Rmin_l]).
  assert (B2 : t < d') by (eapply Rlt_le_trans; [exact B|]; eapply Rle_trans; [apply Rmin_l|apply Rmin_r]).
  assert (B3 : t < d'') by (eapply Rlt_le_trans; [exact B|]; apply Rmin_r).
  assert (A : forall u, u = t \/ u = - t -> h u < 0 /\ a0 <= a0 + a1 * u + h u * (t * t)).
  { intros u Hu. assert (Ab : Rabs u = t) by (destruct Hu as [->| ->]; [apply Rabs_pos_eq; lra|rewrite Rabs_Ropp; apply Rabs_pos_eq; lra]).
    split.
    - specialize (Hc'' u). assert (X : Rabs (h u - h 0) < - h 0).
      { apply Hc''. split; [split; [exact I|destruct Hu as [->| ->]; lra]|]. rewrite Rminus_0_r, Ab. exact B3. }
      apply Rabs_def2 in X. lra.
    - replace (t * t) with (u * u) by (destruct Hu as [->| ->]; ring). rewrite <- Hf by (rewrite Ab; exact B1). apply Hm. rewrite Ab. exact B2. }
  destruct (A t (or_introl eq_refl)) as [P1 P2]. destruct (A (- t) (or_intror eq_refl)) as [Q1 Q2].
  assert (Tt : 0 < t * t) by (apply Rmult_lt_0_compat; assumption). nra.
Qed.

(** ** The wave is near the state it disturbs *)
Lemma deviation_bound u v phi : size2 (deviation u v phi) <= 2 * amount u v.
Proof.
  replace phi with (phi + 0) by ring. rewrite size2_deviation. assert (M := size2_mean u v 0). set (P := re_cos u v 0) in *. set (Q := im_cos u v 0) in *. set (P' := re_sin u v 0) in *. set (Q' := im_sin u v 0) in *.
  assert (B := sin2_cos2 phi). unfold Rsqr in B. set (s := sin phi) in *. set (c := cos phi) in *.
  replace (2 * amount u v) with ((s * s + c * c) * (2 * amount u v)) by (rewrite B; ring). rewrite <- M.
  assert (Z1 := Rle_0_sqr (s * P - c * P')). assert (Z2 := Rle_0_sqr (s * Q - c * Q')). unfold Rsqr in *. nra.
Qed.
Lemma tilt_distance S f1 f2 f3 z t B : right_handed f1 f2 f3 -> 0 < S -> size2 z <= B -> 2 * B / S * (t * t) <= 1 ->
  dot (vsub (tilted S f1 f2 f3 z t) f3) (vsub (tilted S f1 f2 f3 z t) f3) <= 2 * (2 * B / S * (t * t)).
Proof.
  intros Rh P Hz Ht. assert (U : dot (tilted S f1 f2 f3 z t) (tilted S f1 f2 f3 z t) = 1).
  { apply tilted_unit; [exact Rh|exact P|]. change (fst z * fst z + snd z * snd z) with (size2 z).
    assert (X : 2 * B * (t * t) <= S). { apply (Rmult_le_compat_r S) in Ht; [|lra]. replace (2 * B / S * (t * t) * S) with (2 * B * (t * t)) in Ht by (field; lra). lra. }
    assert (0 <= t * t) by (assert (Z := Rle_0_sqr t); unfold Rsqr in Z; exact Z). nra. }
  set (u := 2 * size2 z / S * (t * t)). assert (Su : u <= 2 * B / S * (t * t)).
  { unfold u. apply Rmult_le_compat_r; [assert (Z := Rle_0_sqr t); unfold Rsqr in Z; exact Z|]. unfold Rdiv. apply Rmult_le_compat_r; [left; apply Rinv_0_lt_compat; exact P|]. lra. }
  assert (U0 : 0 <= u).
  { unfold u. apply Rmult_le_pos; [|assert (Z := Rle_0_sqr t); unfold Rsqr in Z; exact Z]. apply Rmult_le_pos; [|left; apply Rinv_0_lt_compat; exact P].
    unfold size2. assert (Z1 := Rle_0_sqr (fst z)). assert (Z2 := Rle_0_sqr (snd z)). unfold Rsqr in *. lra. }
  assert (F33 : dot f3 f3 = 1). { destruct Rh as (A1 & A2 & A3 & <-). clear - A1 A2 A3. destruct f1, f2. unfold dot, cross in *; cbn in *. nra. }
  assert (O1 : dot f1 f3 = 0). { destruct Rh as (A1 & A2 & A3 & <-). destruct f1, f2. unfold dot, cross in *; cbn in *. ring. }
  assert (O2 : dot f2 f3 = 0). { destruct Rh as (A1 & A2 & A3 & <-). destruct f1, f2. unfold dot, cross in *; cbn in *. ring. }
  assert (D3 : dot (tilted S f1 f2 f3 z t) f3 = sqrt (1 - u)).
  { unfold tilted. change (2 * (fst z * fst z + snd z * snd z) / S * (t * t)) with u. set (q := sqrt (1 - u)). set (v := t * sqrt (2 / S)).
    transitivity (q * dot f3 f3 + v * (fst z * dot f1 f3 + snd z * dot f2 f3)); [|rewrite F33, O1, O2; ring].
    destruct f1, f2, f3. unfold dot, vadd, vscale, vmap, vmap2; cbn. ring. }
  assert (Sq : 1 - u <= sqrt (1 - u)).
  { destruct (Rle_lt_dec (1 - u) 0) as [N|N]; [apply Rle_trans with 0; [exact N|apply sqrt_pos]|].
    assert (X := sqrt_sqrt (1 - u) (Rlt_le _ _ N)). assert (Y : sqrt (1 - u) <= sqrt 1) by (apply sqrt_le_1_alt; lra). rewrite sqrt_1 in Y. assert (Z := sqrt_pos (1 - u)). nra. }
  replace (dot (vsub (tilted S f1 f2 f3 z t) f3) (vsub (tilted S f1 f2 f3 z t) f3)) with (dot (tilted S f1 f2 f3 z t) (tilted S f1 f2 f3 z t) - 2 * dot (tilted S f1 f2 f3 z t) f3 + dot f3 f3).
  - rewrite U, D3, F33. lra.
  - generalize (tilted S f1 f2 f3 z t). intros [a b c]. destruct f3 as [a' b' c']. unfold dot, vsub, vmap2; cbn. ring.
Qed.
