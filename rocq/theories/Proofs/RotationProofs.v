(** Rotations of all spins. *)
From Coq Require Import List Bool ZArith Reals Lra Lia Permutation Sorted Arith String.
From Coquelicot Require Import Complex.
From Verif.Base Require Import Scalar ScalarR Linear3 PyDict PyString.
From Verif.Model Require Import MatrixParam Hamiltonian EnergyInit Energy Dispersion.
From Verif.Spec Require Import HamSpec NotationSpec HistorySpec DispersionSpec InvarianceSpec RotationSpec.
From Verif.Proofs Require Import DictProofs HamBasics HamSetters HamDouble HamDcEnergy NotationProofs HistoryProofs CallProofs FilterProofs FrameProofs
  HamGlue EnergyInitProofs OptimizerProofs DispersionMatrix DispersionInit DispersionAxes DispersionModes DispersionOmega DispersionFrame SpinWaveProofs InvarianceProofs.
From Coq Require Import List.
Import ListNotations.
Local Open Scope R_scope.

Ltac r3 := lin3; cbn [fadd fmul fsub fopp fdiv finv f0 f1 R_Scalar].

(** ** Rotations *)
Lemma rotation_columns O : rotation O -> mmul (mtrans O) O = mid.
Proof.
  intros [H _]. destruct O as [a b c d e f g h i].
  assert (X := fun p q => H p q). clear H.
  assert (E11 := X (mkV 1 0 0) (mkV 1 0 0)). assert (E12 := X (mkV 1 0 0) (mkV 0 1 0)). assert (E13 := X (mkV 1 0 0) (mkV 0 0 1)).
  assert (E22 := X (mkV 0 1 0) (mkV 0 1 0)). assert (E23 := X (mkV 0 1 0) (mkV 0 0 1)). assert (E33 := X (mkV 0 0 1) (mkV 0 0 1)). clear X.
  revert E11 E12 E13 E22 E23 E33. r3. intros. f_equal; lra.
Qed.
Lemma mvec_mmul (a b : M3 R) v : mvec (mmul a b) v = mvec a (mvec b v).
Proof. destruct a, b, v. r3. f_equal; ring. Qed.
Lemma mvec_mid (v : V3 R) : mvec mid v = v.
Proof. destruct v. r3. f_equal; ring. Qed.
Lemma rotation_back O v : rotation O -> mvec (mtrans O) (mvec O v) = v.
Proof. intros H. rewrite <- mvec_mmul, (rotation_columns O H). apply mvec_mid. Qed.

Lemma dot_trans (O : M3 R) a b : dot (mvec (mtrans O) a) b = dot a (mvec O b).
Proof. destruct O, a, b. r3. ring. Qed.
Lemma frame_ext a b : (forall v : V3 R, dot a v = dot b v) -> a = b.
Proof.
  intros H. assert (X := H (mkV 1 0 0)). assert (Y := H (mkV 0 1 0)). assert (Z := H (mkV 0 0 1)). clear H. destruct a, b. revert X Y Z. r3. intros. f_equal; lra.
Qed.

(** The rows are orthonormal as well. *)
Lemma rotation_det O : rotation O -> mdet O = 1.
Proof.
  intros [D C]. assert (X := C (mkV 1 0 0) (mkV 0 1 0)). assert (Y := D (mkV 0 0 1) (mkV 0 0 1)). destruct O as [a b c d e f g h i].
  revert X Y. r3. intros X Y. injection X as X1 X2 X3. 
  replace (a * (e * i - f * h) - b * (d * i - f * g) + c * (d * h - e * g))
    with ((d * h - g * e) * c + (g * b - a * h) * f + (a * e - d * b) * i) by ring.
  assert (X1' : d * h - g * e = c) by lra. assert (X2' : g * b - a * h = f) by lra. assert (X3' : a * e - d * b = i) by lra.
  rewrite X1', X2', X3'. lra.
Qed.
Lemma rotation_rows' O : rotation O -> mmul O (mtrans O) = mid.
Proof.
  intros [D C]. 
  assert (C1 := C (mkV 1 0 0) (mkV 0 1 0)). assert (C2 := C (mkV 0 1 0) (mkV 0 0 1)). assert (C3 := C (mkV 0 0 1) (mkV 1 0 0)).
  assert (Dt := rotation_det O (conj D C)). destruct O as [a b c d e f g h i].
  revert C1 C2 C3 Dt. r3. intros C1 C2 C3 Dt. injection C1 as X1 X2 X3. injection C2 as Y1 Y2 Y3. injection C3 as Z1 Z2 Z3.
  assert (x1 : c = d * h - g * e) by lra. assert (x2 : f = g * b - a * h) by lra. assert (x3 : i = a * e - d * b) by lra.
  assert (y1 : a = e * i - h * f) by lra. assert (y2 : d = h * c - b * i) by lra. assert (y3 : g = b * f - e * c) by lra.
  assert (z1 : b = f * g - i * d) by lra. assert (z2 : e = i * a - c * g) by lra. assert (z3 : h = c * d - f * a) by lra.
  clear X1 X2 X3 Y1 Y2 Y3 Z1 Z2 Z3.
  f_equal.
  - transitivity (a * (e * i - h * f) + b * (f * g - i * d) + c * (d * h - g * e)); [|lra]. rewrite <- y1, <- z1, <- x1. reflexivity.
  - transitivity (d * (e * i - h * f) + e * (f * g - i * d) + f * (d * h - g * e)); [|ring]. rewrite <- y1, <- z1, <- x1. ring.
  - transitivity (g * (e * i - h * f) + h * (f * g - i * d) + i * (d * h - g * e)); [|ring]. rewrite <- y1, <- z1, <- x1. ring.
  - transitivity (d * (e * i - h * f) + e * (f * g - i * d) + f * (d * h - g * e)); [|ring]. rewrite <- y1, <- z1, <- x1. ring.
  - transitivity (d * (h * c - b * i) + e * (i * a - c * g) + f * (g * b - a * h)); [|lra]. rewrite <- y2, <- z2, <- x2. reflexivity.
  - transitivity (g * (h * c - b * i) + h * (i * a - c * g) + i * (g * b - a * h)); [|ring]. rewrite <- y2, <- z2, <- x2. ring.
  - transitivity (g * (e * i - h * f) + h * (f * g - i * d) + i * (d * h - g * e)); [|ring]. rewrite <- y1, <- z1, <- x1. ring.
  - transitivity (g * (h * c - b * i) + h * (i * a - c * g) + i * (g * b - a * h)); [|ring]. rewrite <- y2, <- z2, <- x2. ring.
  - transitivity (g * (b * f - e * c) + h * (c * d - f * a) + i * (a * e - d * b)); [|lra]. rewrite <- y3, <- z3, <- x3. reflexivity.
Qed.
Lemma rotation_trans O : rotation O -> rotation (mtrans O).
Proof.
  intros H. assert (Rr := rotation_rows' O H). assert (B : forall v, mvec O (mvec (mtrans O) v) = v) by (intros v; rewrite <- mvec_mmul, Rr; apply mvec_mid).
  split.
  - intros a b. rewrite dot_trans, B. reflexivity.
  - intros a b. rewrite <- (rotation_back O (cross (mvec (mtrans O) a) (mvec (mtrans O) b)) H). rewrite <- (proj2 H), !B. reflexivity.
Qed.

(** ** Two right-handed frames with the same third axis *)
Lemma frame_expand e1 e2 e3 v : right_handed e1 e2 e3 -> v = vadd (vadd (vscale (dot v e1) e1) (vscale (dot v e2) e2)) (vscale (dot v e3) e3).
Proof.
  intros (A & B & C & D). assert (Rt : rotation (mkM (vx e1) (vx e2) (vx e3) (vy e1) (vy e2) (vy e3) (vz e1) (vz e2) (vz e3))).
  { subst e3. destruct e1 as [a b c], e2 as [d e f]. revert A B C. r3. intros A B C. split.
    - intros [x y z] [x' y' z']. r3.
      assert (E : (b * f - c * e) * (b * f - c * e) + (c * d - a * f) * (c * d - a * f) + (a * e - b * d) * (a * e - b * d) = 1).
      { replace (_ + _) with ((a * a + b * b + c * c) * (d * d + e * e + f * f) - (a * d + b * e + c * f) * (a * d + b * e + c * f)) by ring. rewrite A, B, C. ring. }
      transitivity (x * x' * (a * a + b * b + c * c) + y * y' * (d * d + e * e + f * f) + (x * y' + y * x') * (a * d + b * e + c * f)
        + z * z' * ((b * f - c * e) * (b * f - c * e) + (c * d - a * f) * (c * d - a * f) + (a * e - b * d) * (a * e - b * d))); [ring|]. rewrite A, B, C, E. ring.
    - intros [x y z] [x' y' z']. r3. apply V3_ext; cbn [vx vy vz].
      + transitivity ((y * z' - z * y') * (a * (d * d + e * e + f * f) - d * (a * d + b * e + c * f)) + (z * x' - x * z') * (d * (a * a + b * b + c * c) - a * (a * d + b * e + c * f)) + (x * y' - y * x') * (b * f - c * e)); [ring|]. rewrite A, B, C. ring.
      + transitivity ((y * z' - z * y') * (b * (d * d + e * e + f * f) - e * (a * d + b * e + c * f)) + (z * x' - x * z') * (e * (a * a + b * b + c * c) - b * (a * d + b * e + c * f)) + (x * y' - y * x') * (c * d - a * f)); [ring|]. rewrite A, B, C. ring.
      + transitivity ((y * z' - z * y') * (c * (d * d + e * e + f * f) - f * (a * d + b * e + c * f)) + (z * x' - x * z') * (f * (a * a + b * b + c * c) - c * (a * d + b * e + c * f)) + (x * y' - y * x') * (a * e - b * d)); [ring|]. rewrite A, B, C. ring. }
  assert (X := rotation_rows' _ Rt). rewrite <- (mvec_mid v) at 1. rewrite <- X. clear. destruct e1, e2, e3, v. r3. f_equal; ring.
Qed.
Lemma frames e1 e2 e3 f1 f2 : right_handed e1 e2 e3 -> right_handed f1 f2 e3 -> exists c s, c * c + s * s = 1 /\
  f1 = vadd (vscale c e1) (vscale s e2) /\ f2 = vadd (vscale (- s) e1) (vscale c e2).
Proof.
  intros H G. assert (Z1 : dot f1 e3 = 0). { destruct G as (_ & _ & _ & <-). destruct f1, f2. r3. ring. }
  assert (X := frame_expand e1 e2 e3 f1 H). rewrite Z1 in X. exists (dot f1 e1), (dot f1 e2).
  assert (E1 : f1 = vadd (vscale (dot f1 e1) e1) (vscale (dot f1 e2) e2)).
  { etransitivity; [exact X|]. generalize (dot f1 e1) (dot f1 e2). intros p q. destruct e1, e2, e3. r3. f_equal; ring. }
  set (c := dot f1 e1) in *. set (s := dot f1 e2) in *. clearbody c s. clear X Z1.
  assert (E2 : f2 = cross e3 f1).
  { destruct G as (A & B & C & <-). revert A C. clear. destruct f1 as [a b c], f2 as [d e f]. r3. intros A C.
    apply V3_ext; cbn [vx vy vz].
    - transitivity (d * (a * a + b * b + c * c) - a * (a * d + b * e + c * f)); [rewrite A, C; ring|ring].
    - transitivity (e * (a * a + b * b + c * c) - b * (a * d + b * e + c * f)); [rewrite A, C; ring|ring].
    - transitivity (f * (a * a + b * b + c * c) - c * (a * d + b * e + c * f)); [rewrite A, C; ring|ring]. }
  destruct H as (A & B & C & D). splits; [|exact E1|].
  - destruct G as (G & _). rewrite E1 in G. rewrite <- G. clear - A B C. destruct e1 as [x y z], e2 as [x' y' z']. revert A B C. r3. intros A B C.
    transitivity (c * c * (x * x + y * y + z * z) + s * s * (x' * x' + y' * y' + z' * z') + 2 * (c * s) * (x * x' + y * y' + z * z')); [rewrite A, B, C; ring|ring].
  - rewrite E2, E1, <- D. clear - A B C. destruct e1 as [a b d], e2 as [x y z]. revert A B C. r3. intros A B C.
    apply V3_ext; cbn [vx vy vz].
    + transitivity (c * (x * (a * a + b * b + d * d) - a * (a * x + b * y + d * z)) + s * (x * (a * x + b * y + d * z) - a * (x * x + y * y + z * z))); [ring|rewrite A, B, C; ring].
    + transitivity (c * (y * (a * a + b * b + d * d) - b * (a * x + b * y + d * z)) + s * (y * (a * x + b * y + d * z) - b * (x * x + y * y + z * z))); [ring|rewrite A, B, C; ring].
    + transitivity (c * (z * (a * a + b * b + d * d) - d * (a * x + b * y + d * z)) + s * (z * (a * x + b * y + d * z) - d * (x * x + y * y + z * z))); [ring|rewrite A, B, C; ring].
Qed.

(** ** Complex vectors *)
Definition cmv (O : M3 R) (a : V3 C) : V3 C :=
  let f x y z := Cplus (Cplus (Cmult (RtoC x) (vx a)) (Cmult (RtoC y) (vy a))) (Cmult (RtoC z) (vz a)) in
  mkV (f (mxx O) (mxy O) (mxz O)) (f (myx O) (myy O) (myz O)) (f (mzx O) (mzy O) (mzz O)).
Definition cvs (c : C) (a : V3 C) : V3 C := mkV (Cmult c (vx a)) (Cmult c (vy a)) (Cmult c (vz a)).
Lemma form_turned O a J b : form a (turned O J) b = form (cmv (mtrans O) a) J (cmv (mtrans O) b).
Proof.
  destruct O as [o1 o2 o3 o4 o5 o6 o7 o8 o9], J as [j1 j2 j3 j4 j5 j6 j7 j8 j9], a as [a1 a2 a3], b as [b1 b2 b3]. unfold turned, mmul, mtrans.
  unfold form, cbil, cv_mat, cv_dot, cm_scale, cmv; cbn [mxx mxy mxz myx myy myz mzx mzy mzz vx vy vz dot mrow1 mrow2 mrow3].
  r3. cbn [vx vy vz mxx mxy mxz myx myy myz mzx mzy mzz]. repeat rewrite ?RtoC_plus, ?RtoC_mult. ring.
Qed.
Lemma form_cvs_l c a J b : form (cvs c a) J b = Cmult c (form a J b).
Proof. unfold form, cbil, cv_mat, cv_dot, cvs; cbn [vx vy vz]. ring. Qed.
Lemma form_cvs_r c a J b : form a J (cvs c b) = Cmult c (form a J b).
Proof. unfold form, cbil, cv_mat, cv_dot, cvs; cbn [vx vy vz]. ring. Qed.
Lemma cmv_conj O a : cmv O (cv_conj a) = cv_conj (cmv O a).
Proof.
  destruct O as [o1 o2 o3 o4 o5 o6 o7 o8 o9], a as [[a1 a2] [b1 b2] [c1 c2]]. unfold cmv, cv_conj; cbn [mxx mxy mxz myx myy myz mzx mzy mzz vx vy vz]. f_equal; cplx; ring.
Qed.
Lemma cvs_conj c a : cv_conj (cvs c a) = cvs (Cconj c) (cv_conj a).
Proof. unfold cvs, cv_conj; cbn [vx vy vz]. rewrite !conj_mult. reflexivity. Qed.
Lemma cmv_complex O re im : cmv O (complex_vec re im) = complex_vec (mvec O re) (mvec O im).
Proof.
  destruct O as [o1 o2 o3 o4 o5 o6 o7 o8 o9], re as [r1 r2 r3], im as [i1 i2 i3]. unfold cmv, complex_vec, mvec, dot, mrow1, mrow2, mrow3; cbn [mxx mxy mxz myx myy myz mzx mzy mzz vx vy vz fadd fmul R_Scalar]. f_equal; cplx; ring.
Qed.

(** The axes of a rotated spin. *)
Lemma axes_turned O s e1 e2 e3 f1 f2 f3 : rotation O -> sharp s -> sharp (mvec O s) ->
  span_orthonormal_set s = Ret (e1, e2, e3) -> span_orthonormal_set (mvec O s) = Ret (f1, f2, f3) ->
  norm (mvec O s) = norm s /\ cmv (mtrans O) (complex_vec f3 vzero) = complex_vec e3 vzero /\
  exists c, Cmod c = 1 /\ cmv (mtrans O) (complex_vec f1 f2) = cvs c (complex_vec e1 e2).
Proof.
  intros H Hs Ht E E'. assert (Nn : norm (mvec O s) = norm s) by (unfold norm; rewrite (proj1 H); reflexivity).
  assert (Nz : norm s <> 0). { intros Z. rewrite (span_zero s Z) in E. discriminate. }
  destruct (axes_true s Nz) as (x1 & x2 & x3 & Ex & Rx & Dx). rewrite E in Ex. injection Ex as <- <- <-. specialize (Dx Hs).
  destruct (axes_true (mvec O s) ltac:(rewrite Nn; exact Nz)) as (y1 & y2 & y3 & Ey & Ry & Dy). rewrite E' in Ey. injection Ey as <- <- <-. specialize (Dy Ht).
  assert (Ht' := rotation_trans O H).
  assert (D3 : mvec (mtrans O) f3 = e3).
  { rewrite Dy, Dx. unfold direction_of. rewrite (proj1 H). transitivity (vscale (/ sqrt (dot s s)) (mvec (mtrans O) (mvec O s))); [|rewrite rotation_back by exact H; reflexivity].
    generalize (mvec O s). intros v. generalize (/ sqrt (dot s s)). intros c. clear. destruct O, v. r3. f_equal; ring. }
  split; [exact Nn|]. split.
  - rewrite cmv_complex, D3. f_equal. destruct O. r3. f_equal; ring.
  - assert (Rf : right_handed (mvec (mtrans O) f1) (mvec (mtrans O) f2) e3).
    { destruct Ry as (A & B & C & D). unfold right_handed. rewrite !(proj1 Ht'), (proj2 Ht'), D, D3. auto. }
    destruct (frames e1 e2 e3 _ _ Rx Rf) as (c & t & Ect & F1 & F2). exists (c, - t). split.
    + unfold Cmod. cbn [fst snd]. replace (c ^ 2 + (- t) ^ 2) with 1 by (rewrite <- Ect; ring). apply sqrt_1.
    + rewrite cmv_complex, F1, F2. clear. destruct e1 as [a1 a2 a3], e2 as [b1 b2 b3]. unfold complex_vec, cvs. r3. cbn [vx vy vz]. f_equal; cplx; ring.
Qed.

Lemma finite_choice {A} (d : A) (P : nat -> A -> Prop) n : (forall i, (i < n)%nat -> exists x, P i x) -> exists f, forall i, (i < n)%nat -> P i (f i).
Proof.
  induction n as [|n IH]; intros H; [exists (fun _ => d); lia|].
  destruct IH as [f Hf]; [intros; apply H; lia|]. destruct (H n (Nat.lt_succ_diag_r n)) as [x Hx].
  exists (fun i => if Nat.eqb i n then x else f i). intros i L. destruct (Nat.eqb_spec i n) as [->|N]; [exact Hx|apply Hf; lia].
Qed.

(** ** The matrix *)
Lemma mvec_opp (P : M3 R) v : mvec P (vopp v) = vopp (mvec P v).
Proof. destruct P, v. r3. f_equal; ring. Qed.
Lemma mvec_zero (P : M3 R) : mvec P vzero = vzero.
Proof. destruct P. r3. f_equal; ring. Qed.
Definition turn_entry (O P : M3 R) (e : entry) : entry := let '(i, j, d, J) := e in (i, j, mvec P d, turned O J).
Section Matrix.
Variables (O P : M3 R) (st st' : list (M3 R)) (D D' : dispersion) (phi : nat -> C).
Hypothesis HP : isometry P.
Hypothesis HN : d_N D' = d_N D.
Hypothesis HE : Permutation (map (turn_entry O P) (entries st D)) (entries st' D').
Hypothesis HS : forall i, (i < d_N D)%nat -> norm (S_ D' i) = norm (S_ D i).
Hypothesis Hu : forall i, (i < d_N D)%nat -> cmv (mtrans O) (u_ D' i) = cvs (phi i) (u_ D i).
Hypothesis Hv : forall i, (i < d_N D)%nat -> cmv (mtrans O) (v_ D' i) = v_ D i.
Hypothesis Hp : forall i, (i < d_N D)%nat -> Cmod (phi i) = 1.

Lemma J_turned a k i j b : cbil a (d_J st' D' (mvec P k) i j) b = cbil (cmv (mtrans O) a) (d_J st D k i j) (cmv (mtrans O) b).
Proof.
  rewrite !J_sum. rewrite <- (lsum_perm _ _ (Permutation_map (weight a b (mvec P k) i j) HE)). rewrite map_map. apply lsum_ext.
  intros [[[i' j'] d] J] _. cbn [turn_entry weight]. rewrite form_turned, HP. reflexivity.
Qed.
Lemma J_zero a i j b : cbil a (d_J st' D' vzero i j) b = cbil (cmv (mtrans O) a) (d_J st D vzero i j) (cmv (mtrans O) b).
Proof. rewrite <- J_turned, mvec_zero. reflexivity. Qed.
Lemma cbil_cvs_l c a m b : cbil (cvs c a) m b = Cmult c (cbil a m b).
Proof. unfold cbil, cv_mat, cv_dot, cvs; cbn [vx vy vz]. ring. Qed.
Lemma cbil_cvs_r c a m b : cbil a m (cvs c b) = Cmult c (cbil a m b).
Proof. unfold cbil, cv_mat, cv_dot, cvs; cbn [vx vy vz]. ring. Qed.
Lemma A_turned k i j : (i < d_N D)%nat -> (j < d_N D)%nat -> d_A st' D' (mvec P k) i j = Cmult (Cmult (phi i) (d_A st D k i j)) (Cconj (phi j)).
Proof.
  intros Li Lj. unfold d_A. rewrite <- mvec_opp, J_turned, cmv_conj, !Hu, !HS, cvs_conj, cbil_cvs_l, cbil_cvs_r by assumption. ring.
Qed.
Lemma B_turned k i j : (i < d_N D)%nat -> (j < d_N D)%nat -> d_B st' D' (mvec P k) i j = Cmult (Cmult (phi i) (d_B st D k i j)) (phi j).
Proof.
  intros Li Lj. unfold d_B. rewrite <- mvec_opp, J_turned, !Hu, !HS, cbil_cvs_l, cbil_cvs_r by assumption. ring.
Qed.
Lemma C_turned i j : (i < d_N D)%nat -> (j < d_N D)%nat -> d_C st' D' i j = d_C st D i j.
Proof.
  intros Li Lj. unfold d_C. destruct (Nat.eqb i j); [|reflexivity]. rewrite HN.
  assert (X : forall l, In l (seq 0 (d_N D)) -> (l < d_N D)%nat) by (intros l I; apply in_seq in I; lia).
  revert X. generalize (seq 0 (d_N D)). intros l X. generalize (RtoC 0). revert X. induction l as [|x l IH]; intros X c; cbn [fold_left]; [reflexivity|].
  rewrite !cbil_scale_l, J_zero, !Hv, HS by (first [assumption | apply X; left; reflexivity]). rewrite IH by (intros; apply X; right; assumption). rewrite <- cbil_scale_l. reflexivity.
Qed.
Lemma phi_conj i : (i < d_N D)%nat -> Cmult (phi i) (Cconj (phi i)) = RtoC 1.
Proof.
  intros L. assert (X := Hp i L). destruct (phi i) as [a b]. unfold Cmod in X. cbn [fst snd] in X.
  assert (Y : a ^ 2 + b ^ 2 = 1). { rewrite <- (sqrt_sqrt (a ^ 2 + b ^ 2)) by nra. rewrite X. ring. }
  cplx; nra.
Qed.
Lemma C_phase i j : (i < d_N D)%nat -> Cmult (Cmult (phi i) (d_C st D i j)) (Cconj (phi j)) = d_C st D i j.
Proof.
  intros L. unfold d_C. destruct (Nat.eqb_spec i j) as [<-|N]; [|ring].
  match goal with |- Cmult (Cmult _ ?c) _ = _ => transitivity (Cmult (Cmult (phi i) (Cconj (phi i))) c); [ring|] end. rewrite phi_conj by exact L. ring.
Qed.
Lemma C_phase' i j : (i < d_N D)%nat -> Cmult (Cmult (Cconj (phi i)) (d_C st D i j)) (phi j) = d_C st D i j.
Proof.
  intros L. unfold d_C. destruct (Nat.eqb_spec i j) as [<-|N]; [|ring].
  match goal with |- Cmult (Cmult _ ?c) _ = _ => transitivity (Cmult (Cmult (phi i) (Cconj (phi i))) c); [ring|] end. rewrite phi_conj by exact L. ring.
Qed.
Lemma h_turned k p q : (p < 2 * d_N D)%nat -> (q < 2 * d_N D)%nat ->
  d_h st' D' (mvec P k) p q = Cmult (Cmult (phases (d_N D) phi p) (d_h st D k p q)) (Cconj (phases (d_N D) phi q)).
Proof.
  intros Lp Lq. unfold d_h, phases, c2. rewrite HN, <- mvec_opp. destruct (Nat.ltb_spec p (d_N D)) as [Hp'|Hp'], (Nat.ltb_spec q (d_N D)) as [Hq'|Hq'].
  - rewrite A_turned, C_turned by assumption. rewrite <- (C_phase p q) at 1 by assumption. ring.
  - rewrite B_turned by lia. rewrite Cconj_conj. ring.
  - rewrite B_turned by lia. rewrite !conj_mult. ring.
  - rewrite A_turned, C_turned by lia. rewrite <- (C_phase' (p - d_N D) (q - d_N D)) at 1 by lia. rewrite !conj_mult, !Cconj_conj. ring.
Qed.
End Matrix.

(** ** Hamiltonians *)
Lemma turned_scale O c J : turned O (mscale c J) = mscale c (turned O J).
Proof. destruct O, J. unfold turned. r3. f_equal; ring. Qed.
Lemma turned_trans O J : turned O (mtrans J) = mtrans (turned O J).
Proof. destruct O, J. unfold turned. r3. f_equal; ring. Qed.
Lemma turned_add O J J' : turned O (madd J J') = madd (turned O J) (turned O J').
Proof. destruct O, J, J'. unfold turned. r3. f_equal; ring. Qed.
Lemma turned_zero O : turned O mzero = mzero.
Proof. destruct O. unfold turned. r3. f_equal; ring. Qed.

Definition turn (O : M3 R) (w : world) : world := mkW (map (turned O) (w_store w)) (w_ham w).
Lemma turn_bond O w k : bond_value (turn O w) k = option_map (turned O) (bond_value w k).
Proof. unfold bond_value, turn; cbn [w_store w_ham]. destruct (dget _ _); [apply nth_error_map|reflexivity]. Qed.
Lemma turn_onsite O w k : onsite_value (turn O w) k = option_map (turned O) (onsite_value w k).
Proof. unfold onsite_value, turn; cbn [w_store w_ham]. destruct (dget _ _); [apply nth_error_map|reflexivity]. Qed.
Lemma turn_wf O w : wf w -> wf (turn O w).
Proof. intros (A & B & C & D & E & G). unfold wf, turn; cbn [w_store w_ham]. rewrite map_length. splits; auto. Qed.
Lemma turn_full O w dc sn ef of_ : full w dc sn ef of_ -> full (turn O w) dc sn ef of_.
Proof.
  intros [W U Sp (A & B & C) No Ne Nf]. constructor; auto using turn_wf.
  unfold reciprocal_storage. splits; auto. destruct dc; [|exact C]. destruct C as [C1 C2]. split; [exact C1|].
  intros k J J'. rewrite !turn_bond. destruct (bond_value w k) as [X|] eqn:E; [|discriminate]. destruct (bond_value w (mirror k)) as [X'|] eqn:E'; [|discriminate].
  cbn [option_map]. intros Y Y'. injection Y as <-. injection Y' as <-. rewrite (C2 k X X' E E'). apply turned_trans.
Qed.
Lemma turn_coupled O w dc sn ef of_ w' dc' sn' ef' of' : same_coupled w dc sn ef of_ w' dc' sn' ef' of' -> same_coupled (turn O w) dc sn ef of_ (turn O w') dc' sn' ef' of'.
Proof.
  intros (A & B & C). unfold same_coupled. splits.
  - exact A.
  - intros k Hc. specialize (B k Hc). rewrite !turn_bond. change (cb dc' sn' ef' (turn O w') k) with (cb dc' sn' ef' w' k). change (cb dc sn ef (turn O w) k) with (cb dc sn ef w k).
    apply (f_equal (option_map (turned O))) in B. destruct (bond_value w k), (bond_value w' k); cbn [option_map] in *; try discriminate; [|reflexivity].
    rewrite <- !turned_scale. exact B.
  - intros a. specialize (C a). rewrite !turn_onsite. change (co sn' of' (turn O w') a) with (co sn' of' w' a). change (co sn of_ (turn O w) a) with (co sn of_ w a).
    apply (f_equal (option_map (turned O))) in C. destruct (onsite_value w a), (onsite_value w' a); cbn [option_map] in *; try discriminate; [|reflexivity].
    rewrite <- !turned_scale. exact C.
Qed.
Lemma turn_model O sn ef of_ w sn' ef' of' w' : rotated_model O sn ef of_ w sn' ef' of' w' -> same_model sn ef of_ (turn O w) sn' ef' of' w'.
Proof.
  intros (A & B & C & D & E). unfold same_model. splits; auto.
  - intros k H. rewrite (D k H). unfold pair_coupling. change (spin_length sn (turn O w)) with (spin_length sn w).
    destruct (spin_length sn w (b_from k)) as [x|]; [|reflexivity]. destruct (spin_length sn w (b_to k)) as [y|]; [|reflexivity]. cbn [option_map]. f_equal.
    rewrite turned_scale, turned_add. do 2 f_equal; unfold stored; rewrite turn_bond.
    + destruct (bond_value w k); [reflexivity|apply turned_zero].
    + rewrite turned_trans. destruct (bond_value w (mirror k)); [reflexivity|]. cbn [option_map]. rewrite turned_zero. reflexivity.
  - intros a H. rewrite (E a H). unfold site_coupling. change (spin_length sn (turn O w)) with (spin_length sn w). rewrite turn_onsite.
    destruct (spin_length sn w a) as [x|]; [|reflexivity]. destruct (onsite_value w a); [|reflexivity]. cbn [option_map]. rewrite turned_scale. reflexivity.
Qed.
Lemma displacement_turned P cell pos k : displacement (turned_cell P cell) (fun a => mvec P (pos a)) k = mvec P (displacement cell pos k).
Proof.
  unfold displacement, lattice_vector, turned_cell. destruct (b_cell k) as [[x y] z]. generalize (fZ x) (fZ y) (fZ z) (pos (b_from k)) (pos (b_to k)). clear.
  intros x y z p q. destruct P, cell, p, q. r3. f_equal; ring.
Qed.
Lemma turn_listed O P cell pos w atoms : wf w -> listed (turned_cell P cell) (fun a => mvec P (pos a)) (turn O w) atoms = map (turn_entry O P) (listed cell pos w atoms).
Proof.
  intros W. unfold listed. rewrite !map_map, !map_app, !map_map. change (sites (turn O w)) with (sites w). change (bonds (turn O w)) with (bonds w).
  f_equal; apply map_ext_in; intros x I; cbn [fst snd turn_entry]; rewrite displacement_turned.
  - rewrite turn_onsite. apply (onsite_value_stored w x W) in I as [J ->]. reflexivity.
  - rewrite turn_bond. apply (bond_value_stored w x W) in I as [J ->]. reflexivity.
Qed.

Lemma nth_map2 {A B} (f : A -> B) l i d d' : (i < List.length l)%nat -> nth i (map f l) d' = f (nth i l d).
Proof. intros L. rewrite (nth_indep _ d' (f d)) by (rewrite map_length; exact L). apply map_nth. Qed.
Lemma Forall2_nth {A B} (P : A -> B -> Prop) l l' i d d' : Forall2 P l l' -> (i < List.length l)%nat -> P (nth i l d) (nth i l' d').
Proof. intros H. revert i. induction H; cbn [List.length]; intros [|i] L; cbn [nth]; try lia; auto. apply IHForall2. lia. Qed.

Lemma h_rotated O P order order' cell pos sv sv' (w w' w1 w1' : world) D D' dc sn ef of_ dc' sn' ef' of' : rotation O -> isometry P ->
  (forall l, Permutation (order l) l) -> (forall l, Permutation (order' l) l) ->
  wf w -> unshared w -> spins_defined w -> reciprocal_storage w dc -> notation_is w dc sn ef of_ -> ef <> 0 -> of_ <> 0 ->
  wf w' -> unshared w' -> spins_defined w' -> reciprocal_storage w' dc' -> notation_is w' dc' sn' ef' of' -> ef' <> 0 -> of' <> 0 ->
  distinctly_indexed w -> rotated_model O sn ef of_ w sn' ef' of' w' ->
  (forall a, with_parameter w a -> exists s, sv a = Some s /\ sv' a = Some (mvec O s) /\ sharp s /\ sharp (mvec O s)) ->
  dispersion_init order cell pos sv w = (w1, Ret D) -> dispersion_init order' (turned_cell P cell) (fun a => mvec P (pos a)) sv' w' = (w1', Ret D') ->
  d_N D' = d_N D /\ exists phi, (forall i, (i < d_N D)%nat -> Cmod (phi i) = 1) /\
    forall k p q, (p < 2 * d_N D)%nat -> (q < 2 * d_N D)%nat ->
      d_h (w_store w1') D' (mvec P k) p q = Cmult (Cmult (phases (d_N D) phi p) (d_h (w_store w1) D k p q)) (Cconj (phases (d_N D) phi q)).
Proof.
  intros HO HP Po Po' W U Sp St No Ne Nf W' U' Sp' St' No' Ne' Nf' Hi Pm Hsv H H'. assert (Fw := full_intro w dc sn ef of_ W U Sp St No Ne Nf).
  assert (Fw' := full_intro w' dc' sn' ef' of' W' U' Sp' St' No' Ne' Nf').
  destruct (dispersion_parts _ _ _ _ _ _ _ _ _ _ _ Fw H) as (w4 & atoms & ax & F4 & P4 & M4 & E4 & A4 & D4).
  destruct (dispersion_parts _ _ _ _ _ _ _ _ _ _ _ Fw' H') as (v4 & atoms' & ax' & F4' & P4' & M4' & E4' & A4' & D4').
  assert (Ft := turn_full O w _ _ _ _ Fw). assert (F4t := turn_full O w4 _ _ _ _ F4).
  assert (Q : same_coupled (turn O w4) true false 1 1 v4 true false 1 1).
  { eapply same_coupled_trans; [apply same_coupled_sym, turn_coupled, P4|].
    eapply same_coupled_trans; [apply (model_coupled (turn O w) w' _ _ _ _ _ _ _ _ Ft Fw' (turn_model _ _ _ _ _ _ _ _ _ Pm))|exact P4']. }
  assert (SP := coupled_determined _ _ _ _ _ _ F4t F4' Q).
  assert (Hw4 : forall a, with_parameter w4 a -> with_parameter w a) by exact (coupled_with _ _ _ _ _ _ _ _ _ _ Fw F4 P4).
  assert (Hi4 : distinctly_indexed (turn O w4)). { intros a b Ia Ib. apply Hi; [exact (Hw4 a Ia)|exact (Hw4 b Ib)]. }
  assert (EA : atoms' = atoms).
  { refine (same_atoms order order' (turn O w4) v4 atoms atoms' Po Po' _ Hi4 _ M4').
    - intros a. split; [exact (coupled_with _ _ _ _ _ _ _ _ _ _ F4t F4' Q a)|exact (coupled_with _ _ _ _ _ _ _ _ _ _ F4' F4t (same_coupled_sym _ _ _ _ _ _ _ _ _ _ Q) a)].
    - unfold magnetic_atoms in M4 |- *. rewrite bind_gets in M4 |- *. injection M4 as M4. unfold ret. change (w_ham (turn O w4)) with (w_ham w4). rewrite M4. reflexivity. }
  subst atoms'. destruct (magnetic_atoms_exact order w4 Po) as (r & Er & _ & _ & Ir). rewrite M4 in Er. injection Er as <-.
  apply local_axes_spec in A4, A4'.
  assert (La : List.length ax = List.length atoms) by (clear - A4; induction A4; cbn; congruence).
  assert (La' : List.length ax' = List.length atoms) by (clear - A4'; induction A4'; cbn; congruence).
  assert (EN : d_N D = List.length atoms) by (rewrite D4; reflexivity). assert (EN' : d_N D' = List.length atoms) by (rewrite D4'; reflexivity).
  split; [congruence|]. rewrite EN.
  assert (Ax : forall i, (i < List.length atoms)%nat -> norm (S_ D' i) = norm (S_ D i) /\ cmv (mtrans O) (v_ D' i) = v_ D i /\
    exists c, Cmod c = 1 /\ cmv (mtrans O) (u_ D' i) = cvs c (u_ D i)).
  { intros i L. set (da := mkAtom "" 0). set (dx := (vzero, cv_zero, cv_zero) : V3 R * V3 C * V3 C).
    destruct (Forall2_nth _ _ _ i da dx A4 L) as (s & e1 & e2 & e3 & Hs & He & Hx). destruct (Forall2_nth _ _ _ i da dx A4' L) as (s' & f1 & f2 & f3 & Hs' & Hf & Hx').
    assert (Ia : with_parameter w (nth i atoms da)) by (apply Hw4, Ir, nth_In, L).
    destruct (Hsv _ Ia) as (s0 & G1 & G2 & G3 & G4). rewrite G1 in Hs. injection Hs as <-. rewrite G2 in Hs'. injection Hs' as <-.
    destruct (axes_turned O s0 e1 e2 e3 f1 f2 f3 HO G3 G4 He Hf) as (X1 & X2 & X3).
    assert (Sx : S_ D i = s0 /\ u_ D i = complex_vec e1 e2 /\ v_ D i = complex_vec e3 vzero).
    { unfold S_, u_, v_. rewrite D4. cbn [d_S d_u d_v]. rewrite !(nth_map2 _ ax i dx) by lia. rewrite Hx. auto. }
    assert (Sx' : S_ D' i = mvec O s0 /\ u_ D' i = complex_vec f1 f2 /\ v_ D' i = complex_vec f3 vzero).
    { unfold S_, u_, v_. rewrite D4'. cbn [d_S d_u d_v]. rewrite !(nth_map2 _ ax' i dx) by lia. rewrite Hx'. auto. }
    destruct Sx as (-> & -> & ->), Sx' as (-> & -> & ->). auto. }
  destruct (finite_choice (RtoC 1) (fun i c => Cmod c = 1 /\ cmv (mtrans O) (u_ D' i) = cvs c (u_ D i)) (List.length atoms)) as [phi Hphi]; [intros i L; apply (Ax i L)|].
  exists phi. split; [intros i L; apply (Hphi i L)|]. rewrite <- EN in *. intros k p q Lp Lq. apply (h_turned O P); auto.
  - rewrite E4, E4', <- turn_listed by apply F4. apply listed_perm; [apply F4t|apply F4'|exact SP].
  - intros i L. apply (Ax i L).
  - intros i L. apply (Hphi i L).
  - intros i L. apply (Ax i L).
  - intros i L. apply (Hphi i L).
Qed.
