(** Expansion of the energy of one bond in the strength of a spin wave, and its mean over the phase. *)
From Coq Require Import Bool ZArith Reals Lra Lia.
From Coquelicot Require Import Coquelicot.
From Verif.Base Require Import Scalar ScalarR Linear3 PyDict.
From Verif.Model Require Import MatrixParam Hamiltonian EnergyInit Energy.
From Verif.Spec Require Import HamSpec DispersionSpec SpinWaveSpec.
From Verif.Proofs Require Import ConeProofs.
Local Open Scope R_scope.

(** ** Expansions *)
Definition expansion (f : R -> R) (a0 a1 a2 : R) : Prop :=
  exists h delta, 0 < delta /\ continuity_pt h 0 /\ h 0 = a2 /\ forall t, Rabs t < delta -> f t = a0 + a1 * t + h t * (t * t).

Lemma expansion_expands f a0 a1 a2 : expansion f a0 a1 a2 -> expands f a0 a1 a2.
Proof.
  intros (h & d & Hd & Hc & <- & Hf) eps He. destruct (Hc eps He) as (d' & Hd' & Hc').
  exists (Rmin d d'). split; [apply Rmin_glb_lt; assumption|]. intros t Ht. rewrite Hf by (eapply Rlt_le_trans; [exact Ht|apply Rmin_l]).
  replace (a0 + a1 * t + h t * (t * t) - (a0 + a1 * t + h 0 * (t * t))) with ((h t - h 0) * (t * t)) by ring.
  rewrite Rabs_mult, (Rabs_right (t * t)) by nra. apply Rmult_le_compat_r; [nra|].
  destruct (Req_dec t 0) as [->|N]; [replace (h 0 - h 0) with 0 by ring; rewrite Rabs_R0; lra|]. left. apply (Hc' t). split.
  - split; [exact I|]. congruence.
  - cbn. unfold R_dist. rewrite Rminus_0_r. eapply Rlt_le_trans; [exact Ht|apply Rmin_r].
Qed.
Lemma expansion_const c : expansion (fun _ => c) c 0 0.
Proof. exists (fun _ => 0), 1. repeat split; try lra. apply continuity_pt_const. intros ? ?. reflexivity. intros; ring. Qed.
Lemma expansion_var : expansion (fun t => t) 0 1 0.
Proof. exists (fun _ => 0), 1. repeat split; try lra. apply continuity_pt_const. intros ? ?. reflexivity. intros; ring. Qed.
Lemma expansion_ext f g a0 a1 a2 : (forall t, g t = f t) -> expansion f a0 a1 a2 -> expansion g a0 a1 a2.
Proof. intros E (h & d & H1 & H2 & H3 & H4). exists h, d. repeat split; auto. intros t Ht. rewrite E. auto. Qed.
Lemma expansion_plus f g a0 a1 a2 b0 b1 b2 : expansion f a0 a1 a2 -> expansion g b0 b1 b2 ->
  expansion (fun t => f t + g t) (a0 + b0) (a1 + b1) (a2 + b2).
Proof.
  intros (h & d & H1 & H2 & <- & H4) (h' & d' & H1' & H2' & <- & H4'). exists (fun t => h t + h' t), (Rmin d d'). repeat split; auto.
  - apply Rmin_glb_lt; assumption.
  - apply (continuity_pt_plus h h'); assumption.
  - intros t Ht. rewrite H4, H4'; [ring| |]; (eapply Rlt_le_trans; [exact Ht|]); [apply Rmin_r|apply Rmin_l].
Qed.
Lemma expansion_mult f g a0 a1 a2 b0 b1 b2 : expansion f a0 a1 a2 -> expansion g b0 b1 b2 ->
  expansion (fun t => f t * g t) (a0 * b0) (a0 * b1 + a1 * b0) (a0 * b2 + a1 * b1 + a2 * b0).
Proof.
  intros (h & d & H1 & H2 & <- & H4) (h' & d' & H1' & H2' & <- & H4').
  exists (fun t => a0 * h' t + a1 * b1 + h t * b0 + t * (a1 * h' t + b1 * h t) + t * t * (h t * h' t)), (Rmin d d'). repeat split.
  - apply Rmin_glb_lt; assumption.
  - reg.
  - ring.
  - intros t Ht. rewrite H4, H4'; [ring| |]; (eapply Rlt_le_trans; [exact Ht|]); [apply Rmin_r|apply Rmin_l].
Qed.
Lemma expansion_coef f a0 a1 a2 b0 b1 b2 : expansion f a0 a1 a2 -> a0 = b0 -> a1 = b1 -> a2 = b2 -> expansion f b0 b1 b2.
Proof. intros; subst; assumption. Qed.
Lemma expansion_scale c f a0 a1 a2 : expansion f a0 a1 a2 -> expansion (fun t => c * f t) (c * a0) (c * a1) (c * a2).
Proof. intros H. eapply expansion_coef; [apply (expansion_mult _ _ _ _ _ _ _ _ (expansion_const c) H)| | |]; ring. Qed.

Lemma expansion_sqrt c : 0 <= c -> expansion (fun t => sqrt (1 - c * (t * t))) 1 0 (- c / 2).
Proof.
  intros Hc. exists (fun t => - c * / (1 + sqrt (1 - c * (t * t)))), (/ (1 + c)).
  assert (P : 0 < 1 + c) by lra. assert (Hp : 0 < / (1 + c)) by (apply Rinv_0_lt_compat; lra).
  assert (G : forall t, Rabs t < / (1 + c) -> 0 < 1 - c * (t * t)).
  { intros t Ht. assert (Hl : / (1 + c) <= 1) by (rewrite <- Rinv_1; apply Rinv_le_contravar; lra).
    assert (T2 : t * t = Rabs t * Rabs t) by (rewrite <- Rabs_mult, Rabs_right; nra). rewrite T2.
    assert (A := Rabs_pos t). assert (B : Rabs t * (1 + c) < 1) by (apply (Rmult_lt_reg_r (/ (1 + c))); [exact Hp|]; rewrite Rmult_assoc, Rinv_r by lra; lra).
    nra. }
  repeat split.
  - exact Hp.
  - assert (Z : 0 < 1 - c * (0 * 0)) by lra.
    apply (continuity_pt_mult (fun _ => - c) (fun t => / (1 + sqrt (1 - c * (t * t))))); [apply continuity_pt_const; intros ? ?; reflexivity|].
    apply (continuity_pt_inv (fun t => 1 + sqrt (1 - c * (t * t)))).
    + apply (continuity_pt_plus (fun _ => 1) (fun t => sqrt (1 - c * (t * t)))); [apply continuity_pt_const; intros ? ?; reflexivity|].
      apply (continuity_pt_comp (fun t => 1 - c * (t * t)) sqrt); [reg|]. apply continuity_pt_sqrt. lra.
    + assert (0 <= sqrt (1 - c * (0 * 0))) by apply sqrt_pos. lra.
  - rewrite Rmult_0_l, Rmult_0_r, Rminus_0_r, sqrt_1. field.
  - intros t Ht. specialize (G t Ht). set (s := sqrt (1 - c * (t * t))). assert (S0 : 0 <= s) by apply sqrt_pos.
    assert (S2 : s * s = 1 - c * (t * t)) by (apply sqrt_sqrt; lra).
    assert (E : - c * / (1 + s) * (t * t) = s - 1).
    { transitivity ((s * s - 1) * / (1 + s)); [rewrite S2; field; lra|field; lra]. }
    rewrite E. ring.
Qed.

(** ** One bond *)
Definition bil (u : V3 R) (J : M3 R) (v : V3 R) : R := dot u (mvec J v).
Lemma bil_trans u J v : bil v (mtrans J) u = bil u J v.
Proof. destruct u, v, J. unfold bil, dot, mvec, mtrans, mrow1, mrow2, mrow3, dot; cbn. ring. Qed.
Lemma bil_scale u c J v : bil u (mscale c J) v = c * bil u J v.
Proof. destruct u, v, J. unfold bil, dot, mvec, mscale, mmap, mrow1, mrow2, mrow3, dot; cbn. ring. Qed.
Lemma bil_comb a u b u' J c v d v' : bil (vadd (vscale a u) (vscale b u')) J (vadd (vscale c v) (vscale d v')) =
  a * c * bil u J v + a * d * bil u J v' + b * c * bil u' J v + b * d * bil u' J v'.
Proof. destruct u, u', v, v', J. unfold bil, dot, mvec, vadd, vscale, vmap, vmap2, mrow1, mrow2, mrow3, dot; cbn. ring. Qed.

Section Bond.
Variables (S1 S2 : R) (e1 e2 e3 e1' e2' e3' : V3 R) (J : M3 R).
Hypothesis P1 : 0 < S1.
Hypothesis P2 : 0 < S2.
Definition across (f1 f2 : V3 R) (z : C) : V3 R := vadd (vscale (fst z) f1) (vscale (snd z) f2).
Definition size2 (z : C) : R := fst z * fst z + snd z * snd z.

Lemma bond_expansion z z' : expansion (fun t => dot (tilted S1 e1 e2 e3 z t) (mvec J (tilted S2 e1' e2' e3' z' t)))
  (bil e3 J e3')
  (sqrt (2 / S2) * bil e3 J (across e1' e2' z') + sqrt (2 / S1) * bil (across e1 e2 z) J e3')
  (- (size2 z / S1 + size2 z' / S2) * bil e3 J e3' + sqrt (2 / S1) * sqrt (2 / S2) * bil (across e1 e2 z) J (across e1' e2' z')).
Proof.
  assert (K : forall S (s : C), 0 < S -> 0 <= 2 * size2 s / S).
  { intros S [a b] HS. unfold size2; cbn [fst snd]. apply Rmult_le_pos; [nra|]. left. apply Rinv_0_lt_compat. exact HS. }
  set (k1 := 2 * size2 z / S1). set (k2 := 2 * size2 z' / S2).
  set (g1 := fun t => sqrt (1 - k1 * (t * t))). set (g2 := fun t => sqrt (1 - k2 * (t * t))).
  assert (G1 : expansion g1 1 0 (- k1 / 2)) by apply expansion_sqrt, K, P1.
  assert (G2 : expansion g2 1 0 (- k2 / 2)) by apply expansion_sqrt, K, P2.
  eapply expansion_ext with (f := fun t => bil e3 J e3' * (g1 t * g2 t) + (sqrt (2 / S2) * bil e3 J (across e1' e2' z')) * (t * g1 t)
     + (sqrt (2 / S1) * bil (across e1 e2 z) J e3') * (t * g2 t) + (sqrt (2 / S1) * sqrt (2 / S2) * bil (across e1 e2 z) J (across e1' e2' z')) * (t * t)).
  - intros t. change (dot (tilted S1 e1 e2 e3 z t) (mvec J (tilted S2 e1' e2' e3' z' t))) with (bil (tilted S1 e1 e2 e3 z t) J (tilted S2 e1' e2' e3' z' t)).
    unfold tilted. fold (size2 z) (size2 z') (across e1 e2 z) (across e1' e2' z') k1 k2. rewrite bil_comb. unfold g1, g2. ring.
  - assert (V := expansion_var).
    assert (A := expansion_scale (bil e3 J e3') _ _ _ _ (expansion_mult _ _ _ _ _ _ _ _ G1 G2)).
    assert (B := expansion_scale (sqrt (2 / S2) * bil e3 J (across e1' e2' z')) _ _ _ _ (expansion_mult _ _ _ _ _ _ _ _ V G1)).
    assert (C := expansion_scale (sqrt (2 / S1) * bil (across e1 e2 z) J e3') _ _ _ _ (expansion_mult _ _ _ _ _ _ _ _ V G2)).
    assert (D := expansion_scale (sqrt (2 / S1) * sqrt (2 / S2) * bil (across e1 e2 z) J (across e1' e2' z')) _ _ _ _ (expansion_mult _ _ _ _ _ _ _ _ V V)).
    eapply expansion_coef; [apply (expansion_plus _ _ _ _ _ _ _ _ (expansion_plus _ _ _ _ _ _ _ _ (expansion_plus _ _ _ _ _ _ _ _ A B) C) D)| | |].
    + ring.
    + ring.
    + unfold k1, k2. field. lra.
Qed.

(** Cosine and sine part of the deviation. *)
Definition cos_part (f1 f2 : V3 R) (x y : C) : V3 R := vadd (vscale (fst x + fst y) f1) (vscale (snd x - snd y) f2).
Definition sin_part (f1 f2 : V3 R) (x y : C) : V3 R := vadd (vscale (- (snd x + snd y)) f1) (vscale (fst x - fst y) f2).
Definition turns (f1 f2 : V3 R) (x y : C) (al : R) : V3 R * V3 R :=
  (vadd (vscale (cos al) (cos_part f1 f2 x y)) (vscale (sin al) (sin_part f1 f2 x y)),
   vadd (vscale (- sin al) (cos_part f1 f2 x y)) (vscale (cos al) (sin_part f1 f2 x y))).
Lemma across_deviation f1 f2 x y al phi : across f1 f2 (deviation x y (phi + al)) =
  vadd (vscale (cos phi) (fst (turns f1 f2 x y al))) (vscale (sin phi) (snd (turns f1 f2 x y al))).
Proof.
  destruct x as [x1 x2], y as [y1 y2], f1 as [a1 a2 a3], f2 as [b1 b2 b3]. unfold across, deviation, phase, turns, cos_part, sin_part, vadd, vscale, vmap, vmap2, Cplus, Cmult, Cconj; cbn [fst snd Scalar.fadd Scalar.fmul vx vy vz].
  rewrite cos_plus, sin_plus. cbn. f_equal; ring.
Qed.
Definition amount (x y : C) : R := size2 x + size2 y.
Definition re_cos (x y : C) al : R := cos al * (fst x + fst y) - sin al * (snd x + snd y).
Definition re_sin (x y : C) al : R := - sin al * (fst x + fst y) - cos al * (snd x + snd y).
Definition im_cos (x y : C) al : R := cos al * (snd x - snd y) + sin al * (fst x - fst y).
Definition im_sin (x y : C) al : R := - sin al * (snd x - snd y) + cos al * (fst x - fst y).
Lemma size2_deviation x y al phi : size2 (deviation x y (phi + al)) =
  cos phi * cos phi * (re_cos x y al * re_cos x y al + im_cos x y al * im_cos x y al)
  + sin phi * sin phi * (re_sin x y al * re_sin x y al + im_sin x y al * im_sin x y al)
  + sin phi * cos phi * (2 * (re_cos x y al * re_sin x y al + im_cos x y al * im_sin x y al)).
Proof.
  destruct x as [x1 x2], y as [y1 y2]. unfold size2, deviation, phase, Cplus, Cmult, Cconj, re_cos, re_sin, im_cos, im_sin; cbn [fst snd].
  rewrite cos_plus, sin_plus. ring.
Qed.
Lemma size2_mean x y al : (re_cos x y al * re_cos x y al + im_cos x y al * im_cos x y al) + (re_sin x y al * re_sin x y al + im_sin x y al * im_sin x y al) = 2 * amount x y.
Proof.
  unfold amount, size2, re_cos, re_sin, im_cos, im_sin. assert (B := sin2_cos2 al). unfold Rsqr in B.
  destruct x as [x1 x2], y as [y1 y2]; cbn [fst snd]. set (s := sin al) in *. set (c := cos al) in *.
  transitivity ((s * s + c * c) * (2 * (x1 * x1 + x2 * x2 + (y1 * y1 + y2 * y2)))); [ring|]. rewrite B. ring.
Qed.

(** First order: the mean is zero. Second order. *)
Variables (x y x' y' : C) (al be : R).
Definition first_order (phi : R) : R :=
  sqrt (2 / S2) * bil e3 J (across e1' e2' (deviation x' y' (phi + be))) + sqrt (2 / S1) * bil (across e1 e2 (deviation x y (phi + al))) J e3'.
Definition second_order (phi : R) : R :=
  - (size2 (deviation x y (phi + al)) / S1 + size2 (deviation x' y' (phi + be)) / S2) * bil e3 J e3'
  + sqrt (2 / S1) * sqrt (2 / S2) * bil (across e1 e2 (deviation x y (phi + al))) J (across e1' e2' (deviation x' y' (phi + be))).

Lemma bil_l a u b u' v : bil (vadd (vscale a u) (vscale b u')) J v = a * bil u J v + b * bil u' J v.
Proof. destruct u, u', v, J. unfold bil, dot, mvec, vadd, vscale, vmap, vmap2, mrow1, mrow2, mrow3, dot; cbn. ring. Qed.
Lemma bil_r a u b u' v : bil v J (vadd (vscale a u) (vscale b u')) = a * bil v J u + b * bil v J u'.
Proof. destruct u, u', v, J. unfold bil, dot, mvec, vadd, vscale, vmap, vmap2, mrow1, mrow2, mrow3, dot; cbn. ring. Qed.

Lemma first_order_mean : is_RInt first_order 0 (2 * PI) 0.
Proof.
  set (U := turns e1 e2 x y al). set (U' := turns e1' e2' x' y' be).
  apply (is_RInt_ext (fun phi => 0 + (cos phi * (sqrt (2 / S2) * bil e3 J (fst U') + sqrt (2 / S1) * bil (fst U) J e3')
    + sin phi * (sqrt (2 / S2) * bil e3 J (snd U') + sqrt (2 / S1) * bil (snd U) J e3') + cos phi * cos phi * 0 + sin phi * sin phi * 0 + sin phi * cos phi * 0))).
  - intros phi _. unfold first_order. rewrite !across_deviation. fold U U'. rewrite bil_l, bil_r. match goal with |- ?a = ?b => change (@eq R a b) end. ring.
  - assert (T := trig_integral 0 (sqrt (2 / S2) * bil e3 J (fst U') + sqrt (2 / S1) * bil (fst U) J e3')
      (sqrt (2 / S2) * bil e3 J (snd U') + sqrt (2 / S1) * bil (snd U) J e3') 0 0 0).
    assert (Z : 2 * PI * (0 + / 2 * (0 + 0)) = 0) by ring. rewrite Z in T. exact T.
Qed.

Definition overlap (th : R) : R :=
  let P := cos_part e1 e2 x y in let Q := sin_part e1 e2 x y in let P' := cos_part e1' e2' x' y' in let Q' := sin_part e1' e2' x' y' in
  cos th * (bil P J P' + bil Q J Q') + sin th * (bil P J Q' - bil Q J P').
Definition second_mean (th : R) : R :=
  - (amount x y / S1 + amount x' y' / S2) * bil e3 J e3' + sqrt (2 / S1) * sqrt (2 / S2) * (overlap th / 2).

Lemma second_order_mean : is_RInt second_order 0 (2 * PI) (2 * PI * second_mean (be - al)).
Proof.
  set (U := turns e1 e2 x y al). set (U' := turns e1' e2' x' y' be).
  set (q := sqrt (2 / S1) * sqrt (2 / S2)). set (v := bil e3 J e3').
  set (a3 := - ((re_cos x y al * re_cos x y al + im_cos x y al * im_cos x y al) / S1 + (re_cos x' y' be * re_cos x' y' be + im_cos x' y' be * im_cos x' y' be) / S2) * v
     + q * bil (fst U) J (fst U')).
  set (a4 := - ((re_sin x y al * re_sin x y al + im_sin x y al * im_sin x y al) / S1 + (re_sin x' y' be * re_sin x' y' be + im_sin x' y' be * im_sin x' y' be) / S2) * v
     + q * bil (snd U) J (snd U')).
  set (a5 := - ((2 * (re_cos x y al * re_sin x y al + im_cos x y al * im_sin x y al)) / S1 + (2 * (re_cos x' y' be * re_sin x' y' be + im_cos x' y' be * im_sin x' y' be)) / S2) * v
     + q * (bil (fst U) J (snd U') + bil (snd U) J (fst U'))).
  apply (is_RInt_ext (fun phi => 0 + (cos phi * 0 + sin phi * 0 + cos phi * cos phi * a3 + sin phi * sin phi * a4 + sin phi * cos phi * a5))).
  - intros phi _. unfold second_order. rewrite !across_deviation, !size2_deviation. fold U U'. rewrite bil_comb. fold q v. unfold a3, a4, a5. match goal with |- ?a = ?b => change (@eq R a b) end. field. lra.
  - replace (2 * PI * second_mean (be - al)) with (2 * PI * (0 + / 2 * (a3 + a4))); [exact (trig_integral 0 0 0 a3 a4 a5)|].
    f_equal. assert (M1 := size2_mean x y al). assert (M2 := size2_mean x' y' be).
    assert (B : bil (fst U) J (fst U') + bil (snd U) J (snd U') = overlap (be - al)).
    { unfold U, U', turns; cbn [fst snd]. rewrite !bil_comb. unfold overlap; cbn zeta. rewrite cos_minus, sin_minus. ring. }
    unfold second_mean. fold q v. rewrite <- B. unfold a3, a4.
    transitivity (- / 2 * (((re_cos x y al * re_cos x y al + im_cos x y al * im_cos x y al) + (re_sin x y al * re_sin x y al + im_sin x y al * im_sin x y al)) / S1
      + ((re_cos x' y' be * re_cos x' y' be + im_cos x' y' be * im_cos x' y' be) + (re_sin x' y' be * re_sin x' y' be + im_sin x' y' be * im_sin x' y' be)) / S2) * v
      + q * ((bil (fst U) J (fst U') + bil (snd U) J (snd U')) / 2)); [field; lra|].
    rewrite M1, M2. field. lra.
Qed.
End Bond.
