(** The local axes returned by span_orthonormal_set. *)
From Coq Require Import List Bool ZArith Reals Lra Lia.
From Coquelicot Require Import Complex.
From Verif.Base Require Import Scalar ScalarR Linear3 PyDict.
From Verif.Model Require Import MatrixParam Hamiltonian EnergyInit Energy Dispersion.
From Verif.Spec Require Import HamSpec DispersionSpec.
From Coq Require Import List.
Import ListNotations.
Local Open Scope R_scope.

Ltac r3 := unfold right_handed, direction_of, Energy.unit, norm, axis_rotation, cone_K, outer, madd, mscale, mmap2, mmap, mid, mrow1, mrow2, mrow3,
  vscale, vmap, vmap2, cross, dot, z_dir in *;
  change (@fadd R R_Scalar) with Rplus in *; change (@fmul R R_Scalar) with Rmult in *; change (@fsub R R_Scalar) with Rminus in *;
  change (@fopp R R_Scalar) with Ropp in *; change (@f0 R R_Scalar) with 0 in *; change (@f1 R R_Scalar) with 1 in *;
  cbn [vx vy vz mxx mxy mxz myx myy myz mzx mzy mzz] in *.

Lemma unit_direction v : Energy.unit v = direction_of v.
Proof. r3. f_equal; unfold Rdiv; apply Rmult_comm. Qed.
Lemma norm_pos v : norm v <> 0 -> 0 < norm v.
Proof. intros H. assert (0 <= norm v) by apply sqrt_pos. lra. Qed.
Lemma norm_sq v : norm v * norm v = dot v v.
Proof. unfold norm. apply sqrt_sqrt. destruct v as [x y z]. r3. nra. Qed.
Lemma direction_unit v : norm v <> 0 -> dot (direction_of v) (direction_of v) = 1.
Proof.
  intros H. assert (E := norm_sq v). unfold direction_of. fold (norm v). destruct v as [x y z]. set (n := norm _) in *. clearbody n. r3.
  replace (/ n * x * (/ n * x) + / n * y * (/ n * y) + / n * z * (/ n * z)) with ((x * x + y * y + z * z) / (n * n)) by (field; exact H). rewrite <- E. field; exact H.
Qed.

(** Rotations about a unit axis have right-handed orthonormal rows. *)
Lemma rotation_rows a t : dot a a = 1 -> let m := axis_rotation a t in right_handed (mrow1 m) (mrow2 m) (mrow3 m).
Proof.
  intros H. destruct a as [x y z]. assert (T : cos t * cos t + sin t * sin t = 1) by (rewrite Rplus_comm; apply sin2_cos2).
  set (c := cos t) in *. set (s := sin t) in *. r3. fold c s. clearbody c s. clear t.
  assert (Hz : z * z = 1 - x * x - y * y) by lra. assert (Hs : s * s = 1 - c * c) by lra.
  splits.
  - ring_simplify. replace (s ^ 2) with (1 - c * c) by lra. replace (z ^ 2) with (1 - x * x - y * y) by lra. ring.
  - ring_simplify. replace (s ^ 2) with (1 - c * c) by lra. replace (z ^ 2) with (1 - x * x - y * y) by lra. ring.
  - ring_simplify. replace (s ^ 2) with (1 - c * c) by lra. replace (z ^ 2) with (1 - x * x - y * y) by lra. ring.
  - f_equal; ring_simplify.
    + replace (s ^ 2) with (1 - c * c) by lra. try replace (z ^ 3) with (z * (1 - x * x - y * y)) by (replace (z ^ 3) with (z * (z * z)) by ring; rewrite Hz; ring).
      try replace (z ^ 2) with (1 - x * x - y * y) by lra. ring.
    + replace (s ^ 2) with (1 - c * c) by lra. try replace (z ^ 3) with (z * (1 - x * x - y * y)) by (replace (z ^ 3) with (z * (z * z)) by ring; rewrite Hz; ring).
      try replace (z ^ 2) with (1 - x * x - y * y) by lra. ring.
    + replace (s ^ 2) with (1 - c * c) by lra. try replace (z ^ 3) with (z * (1 - x * x - y * y)) by (replace (z ^ 3) with (z * (z * z)) by ring; rewrite Hz; ring).
      try replace (z ^ 2) with (1 - x * x - y * y) by lra. ring.
Qed.

Lemma isclose_spec x t : isclose x t = true <-> Rabs (x - t) <= / 10 ^ 8 + / 10 ^ 5 * Rabs t.
Proof. unfold isclose. destruct (Rle_dec _ _); intuition congruence. Qed.

Lemma close_up v : allclose v (mkV 0 0 1) = true <-> Rabs (vx v) <= / 10 ^ 8 /\ Rabs (vy v) <= / 10 ^ 8 /\ Rabs (vz v - 1) <= / 10 ^ 8 + / 10 ^ 5.
Proof.
  unfold allclose. cbn [vx vy vz]. rewrite !andb_true_iff, !isclose_spec, Rabs_R0, Rabs_R1, !Rminus_0_r, !Rmult_0_r, !Rplus_0_r, !Rmult_1_r. tauto.
Qed.
Lemma close_down v : allclose v (mkV 0 0 (-1)) = true <-> Rabs (vx v) <= / 10 ^ 8 /\ Rabs (vy v) <= / 10 ^ 8 /\ Rabs (vz v + 1) <= / 10 ^ 8 + / 10 ^ 5.
Proof.
  unfold allclose. cbn [vx vy vz]. replace (vz v + 1) with (vz v - -1) by ring. rewrite !andb_true_iff, !isclose_spec, Rabs_R0, (Rabs_left (-1)) by lra.
  rewrite !Rminus_0_r, !Rmult_0_r, !Rplus_0_r. replace (/ 10 ^ 5 * - -1) with (/ 10 ^ 5) by ring. tauto.
Qed.

Lemma norm_unit_vec v : dot v v = 1 -> norm v = 1.
Proof. intros H. unfold norm. rewrite H. apply sqrt_1. Qed.

Lemma small_pos : 0 < / 10 ^ 8 /\ 0 < / 10 ^ 5.
Proof. split; apply Rinv_0_lt_compat; lra. Qed.

(** A unit vector away from the poles: the rotation sends it to z, its rows are the axes. *)
Lemma generic_axes v : dot v v = 1 -> ~ near_pole v ->
  let m := from_rotvec (vscale (acos (dot v z_dir / norm v)) (Energy.unit (cross v z_dir))) in
  right_handed (mrow1 m) (mrow2 m) (mrow3 m) /\ mrow3 m = v.
Proof.
  intros H NP. rewrite (norm_unit_vec v H). destruct v as [x y z]. assert (P := small_pos).
  assert (S0 : 0 < x * x + y * y).
  { destruct (Rle_lt_dec (x * x + y * y) 0) as [L|L]; [|exact L]. exfalso. apply NP. assert (x = 0) by nra. assert (y = 0) by nra. subst.
    unfold near_pole; cbn [vx vy vz]. rewrite Rabs_R0. r3. assert (Z : (z - 1) * (z + 1) = 0) by lra. apply Rmult_integral in Z.
    splits; try lra. destruct Z as [Z|Z]; rewrite Z, Rabs_R0; [left|right]; lra. }
  set (s := sqrt (x * x + y * y)). assert (Hs : 0 < s) by (apply sqrt_lt_R0; exact S0). assert (Hss : s * s = x * x + y * y) by (apply sqrt_sqrt; lra).
  set (a := mkV (y / s) (- x / s) 0).
  assert (Ua : Energy.unit (cross (mkV x y z) z_dir) = a).
  { unfold a. assert (N : norm (cross (mkV x y z) z_dir) = s) by (unfold s; r3; f_equal; ring). unfold Energy.unit. rewrite N. r3. f_equal; field; lra. }
  assert (Da : dot a a = 1).
  { unfold a. r3. replace (y / s * (y / s) + - x / s * (- x / s) + 0 * 0) with ((x * x + y * y) / (s * s)) by (field; lra). rewrite <- Hss. field; lra. }
  assert (Z1 : z < 1 /\ -1 < z) by (r3; split; nra).
  assert (T : dot (mkV x y z) z_dir / 1 = z) by (r3; field). rewrite T, Ua. set (t := acos z).
  assert (Ct : cos t = z) by (apply cos_acos; lra).
  assert (St : sin t = s) by (unfold t; rewrite sin_acos by lra; unfold s; f_equal; unfold Rsqr; r3; lra).
  assert (Tb : 0 < t) by (destruct (acos_bound z) as [B _]; fold t in B; destruct (Rle_lt_or_eq_dec _ _ B) as [B'|B']; [exact B'|exfalso; rewrite <- B', cos_0 in Ct; lra]).
  assert (Nn : norm (vscale t a) = t).
  { unfold norm. replace (dot (vscale t a) (vscale t a)) with (t * t * dot a a) by (r3; ring). rewrite Da, Rmult_1_r. apply sqrt_square. lra. }
  assert (Un : Energy.unit (vscale t a) = a) by (unfold Energy.unit; rewrite Nn; unfold a; r3; f_equal; field; lra).
  unfold from_rotvec. rewrite Nn, Un. destruct (Req_EM_T t 0); [lra|]. cbn zeta. split; [apply (rotation_rows a t Da)|].
  unfold axis_rotation. rewrite Ct, St. unfold a. r3. f_equal; field; lra.
Qed.

Lemma span_spec v : norm v <> 0 -> exists e1 e2 e3, span_orthonormal_set v = Ret (e1, e2, e3) /\ right_handed e1 e2 e3 /\
  (~ near_pole (direction_of v) -> e3 = direction_of v) /\
  Rabs (vx e3 - vx (direction_of v)) <= / 10 ^ 8 + / 10 ^ 5 /\ Rabs (vy e3 - vy (direction_of v)) <= / 10 ^ 8 + / 10 ^ 5 /\
  Rabs (vz e3 - vz (direction_of v)) <= / 10 ^ 8 + / 10 ^ 5.
Proof.
  intros H. assert (P := small_pos). unfold span_orthonormal_set. destruct (Req_EM_T (norm v) 0); [contradiction|]. cbn zeta. rewrite unit_direction.
  assert (U := direction_unit v H). set (d := direction_of v) in *. destruct (allclose d (mkV 0 0 1)) eqn:C1; [|destruct (allclose d (mkV 0 0 (-1))) eqn:C2].
  - apply close_up in C1. do 3 eexists. split; [reflexivity|]. cbn [vx vy vz]. splits.
    + r3. splits; try ring. f_equal; ring.
    + intros NP. exfalso. apply NP. unfold near_pole. tauto.
    + replace (0 - vx d) with (- vx d) by ring. rewrite Rabs_Ropp. lra.
    + replace (0 - vy d) with (- vy d) by ring. rewrite Rabs_Ropp. lra.
    + replace (1 - vz d) with (- (vz d - 1)) by ring. rewrite Rabs_Ropp. lra.
  - apply close_down in C2. do 3 eexists. split; [reflexivity|]. cbn [vx vy vz]. splits.
    + r3. splits; try ring. f_equal; ring.
    + intros NP. exfalso. apply NP. unfold near_pole. tauto.
    + replace (0 - vx d) with (- vx d) by ring. rewrite Rabs_Ropp. lra.
    + replace (0 - vy d) with (- vy d) by ring. rewrite Rabs_Ropp. lra.
    + replace (-1 - vz d) with (- (vz d + 1)) by ring. rewrite Rabs_Ropp. lra.
  - assert (NP : ~ near_pole d).
    { intros (A & B & [X|X]); [assert (Y : allclose d (mkV 0 0 1) = true) by (apply close_up; auto)|assert (Y : allclose d (mkV 0 0 (-1)) = true) by (apply close_down; auto)]; congruence. }
    destruct (generic_axes d U NP) as [Rh E3]. do 3 eexists. split; [reflexivity|]. split; [exact Rh|]. rewrite E3.
    splits; auto; match goal with |- Rabs (?a - ?a) <= _ => replace (a - a) with 0 by ring; rewrite Rabs_R0; lra end.
Qed.

Lemma span_zero v : norm v = 0 -> span_orthonormal_set v = Raise NonFinite.
Proof. intros H. unfold span_orthonormal_set. destruct (Req_EM_T (norm v) 0); [reflexivity|contradiction]. Qed.

(** Axes depend on the direction only. *)
Lemma direction_scale c v : 0 < c -> norm v <> 0 -> direction_of (vscale c v) = direction_of v /\ norm (vscale c v) = c * norm v.
Proof.
  intros Hc H. assert (N : norm (vscale c v) = c * norm v).
  { unfold norm. replace (dot (vscale c v) (vscale c v)) with ((c * c) * dot v v) by (destruct v; r3; ring).
    rewrite sqrt_mult; [rewrite sqrt_square by lra; reflexivity|nra|destruct v; r3; nra]. }
  split; [|exact N]. unfold direction_of. fold (norm (vscale c v)). fold (norm v). rewrite N. destruct v as [x y z].
  set (m := norm _) in *. clearbody m. r3. f_equal; field; split; lra.
Qed.
Lemma span_scale c v : 0 < c -> norm v <> 0 -> span_orthonormal_set (vscale c v) = span_orthonormal_set v.
Proof.
  intros Hc H. destruct (direction_scale c v Hc H) as [E N]. unfold span_orthonormal_set.
  destruct (Req_EM_T (norm (vscale c v)) 0) as [Z|_]; [exfalso; rewrite N in Z; apply Rmult_integral in Z; lra|].
  destruct (Req_EM_T (norm v) 0); [contradiction|]. cbn zeta. rewrite !unit_direction, E. reflexivity.
Qed.
