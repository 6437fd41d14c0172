(** Classical stability makes the magnon matrix positive semidefinite at every wave vector. *)
From Coq Require Import List Bool ZArith Reals Lra Lia Permutation Arith String.
From Coquelicot Require Import Coquelicot.
From Verif.Base Require Import Scalar ScalarR Linear3 PyDict PyString.
From Verif.Model Require Import MatrixParam Hamiltonian EnergyInit Energy Dispersion.
From Verif.Spec Require Import HamSpec NotationSpec HistorySpec EnergySpec DispersionSpec SpinWaveSpec RotationSpec StableSpec.
From Verif.Proofs Require Import HamBasics HamDcEnergy HistoryProofs EnergyInitProofs OptimizerProofs DispersionMatrix DispersionInit DispersionAxes DispersionModes EnergyFunctional SpinWaveLocal SpinWaveProofs StableWave.
From Coq Require Import List.
Import ListNotations.
Local Open Scope R_scope.

Lemma total_ext (w : world) sn ef of_ f f' g g' : (forall b J, In b (bonds w) -> f b J = f' b J) -> (forall a A, In a (sites w) -> g a A = g' a A) ->
  total f g w sn ef of_ = total f' g' w sn ef of_.
Proof.
  intros Hf Hg. unfold total. f_equal; f_equal; f_equal; apply map_ext_in; intros b I; [rewrite (Hf b _ I)|rewrite (Hg b _ I)]; reflexivity.
Qed.
Lemma list_bound {A} (f : A -> R) (l : list A) : (exists K, 0 <= K /\ forall a, In a l -> f a <= K).
Proof.
  induction l as [|a l [K [P H]]]; [exists 0; split; [lra|intros ? []]|]. exists (Rmax K (f a)). split; [eapply Rle_trans; [exact P|apply Rmax_l]|].
  intros b [<-|I]; [apply Rmax_r|]. eapply Rle_trans; [apply H, I|apply Rmax_l].
Qed.
Lemma cadd_comm r c : cadd r c = cadd c r.
Proof. destruct r as [[? ?] ?], c as [[? ?] ?]. cbn. rewrite (Z.add_comm z1), (Z.add_comm z0), (Z.add_comm z). reflexivity. Qed.
Lemma phase_turn m x : phase (2 * PI * IZR m + x) = phase x.
Proof. rewrite phase_add, phase_period. apply Cmult_1_l. Qed.

(** k fits into the supercell. *)
Definition fits (cell : M3 R) (k : V3 R) (L : size3) : Prop :=
  let '(n1, n2, n3) := L in exists m1 m2 m3 : Z,
    shift_of cell k (Z.of_nat n1, 0, 0)%Z = 2 * PI * IZR m1 /\ shift_of cell k (0, Z.of_nat n2, 0)%Z = 2 * PI * IZR m2 /\ shift_of cell k (0, 0, Z.of_nat n3)%Z = 2 * PI * IZR m3.

Lemma wave_periodic cell pos k Sl e1 e2 e3 x y L t phi : fits cell k L -> periodic L (spin_wave cell pos k Sl e1 e2 e3 x y t phi).
Proof.
  destruct L as [[n1 n2] n3]. intros (m1 & m2 & m3 & H1 & H2 & H3) a r.
  assert (G : forall c m, shift_of cell k c = 2 * PI * IZR m -> spin_wave cell pos k Sl e1 e2 e3 x y t phi a (cadd r c) = spin_wave cell pos k Sl e1 e2 e3 x y t phi a r).
  { intros c m H. unfold spin_wave. rewrite cadd_comm, place_shift, H. unfold deviation.
    replace (phi + (2 * PI * IZR m + dot k (place cell pos a r))) with (2 * PI * IZR m + (phi + dot k (place cell pos a r))) by ring. rewrite !phase_turn. reflexivity. }
  splits; eapply G; eassumption.
Qed.

Section Stable.
Variables (order : list atom -> list atom) (cell : M3 R) (pos : atom -> V3 R) (sv : atom -> option (V3 R)) (w w1 : world) (D : dispersion) (dc sn : bool) (ef of_ : R) (Sl : atom -> R).
Hypotheses (W : wf w) (U : unshared w) (Sp : spins_defined w) (St : reciprocal_storage w dc) (O : symmetric_onsite w) (No : notation_is w dc sn ef of_) (Ne : ef <> 0) (Nf : of_ <> 0).
Hypotheses (Hs : forall a, carries w a -> spin_of w a = Some (Sl a)) (Hv : forall a s, carries w a -> sv a = Some s -> norm s = Sl a).
Hypothesis H : dispersion_init order cell pos sv w = (w1, Ret D).
Hypothesis Sh : forall a s, carries w a -> sv a = Some s -> sharp s.
Hypothesis Stable : classically_stable w (uniform (pointing sv)).

Lemma fits_semidefinite k n1 n2 n3 psi : (0 < n1)%nat -> (0 < n2)%nat -> (0 < n3)%nat -> fits cell k (n1, n2, n3) ->
  0 <= fst (quad (2 * d_N D) (d_h (w_store w1) D k) psi).
Proof.
  intros P1 P2 P3 Fit. destruct (quad_world order cell pos sv w w1 D dc sn ef of_ Sl W U Sp St O No Ne Nf Hs Hv H) as (atoms & Cov & _ & _ & Ax & Q).
  assert (Pos : forall a, carries w a -> 0 < Sl a).
  { intros a I. destruct (Ax a (Cov a I)) as (_ & s & Es & Hn). rewrite <- (Hv a s I Es). apply norm_pos, Hn. }
  assert (Axes : forall a, carries w a -> right_handed (ax1 sv a) (ax2 sv a) (ax3 sv a) /\ ax3 sv a = pointing sv a).
  { intros a I. destruct (Ax a (Cov a I)) as (_ & s & Es & Hn). destruct (axes_true s Hn) as (f1 & f2 & f3 & E & Rh & T).
    unfold ax1, ax2, ax3, axes_of, pointing. rewrite Es, E. cbn [fst snd]. split; [exact Rh|]. apply T. exact (Sh a s I Es). }
  rewrite Q. set (x := fun a => psi (pindex atoms a)). set (y := fun a => psi (d_N D + pindex atoms a)%nat).
  set (L := (n1, n2, n3)) in *.
  assert (V : 0 < volume L) by (unfold L, volume; repeat apply Rmult_lt_0_compat; apply lt_0_INR; assumption).
  set (T := total _ _ w sn ef of_). assert (I2 := box_second cell pos k Sl (ax1 sv) (ax2 sv) (ax3 sv) x y w Pos sn ef of_ L). fold T in I2.
  assert (Pi := PI_RGT_0).
  assert (G : 0 <= 2 * PI * (volume L * T)).
  { apply (is_RInt_ge_0 _ 0 (2 * PI) _ ltac:(lra) I2). intros phi _.
    apply (minimum_second _ _ _ _ (box_expansion cell pos k Sl (ax1 sv) (ax2 sv) (ax3 sv) x y w Pos sn ef of_ L phi)).
    destruct (Stable n1 n2 n3 P1 P2 P3) as (eps & He & Min).
    destruct (list_bound (fun a => 2 * (2 * amount (x a) (y a)) / Sl a) atoms) as (K & HK & Bd).
    set (m := Rmin 1 (eps * eps / 2)). assert (Hm : 0 < m) by (unfold m; apply Rmin_glb_lt; nra).
    exists (Rmin 1 (m / (K + 1))). assert (Hd : 0 < m / (K + 1)) by (apply Rdiv_lt_0_compat; lra). split; [apply Rmin_glb_lt; lra|].
    intros t Ht. assert (T1 : Rabs t < 1) by (eapply Rlt_le_trans; [exact Ht|apply Rmin_l]). assert (T2 : Rabs t < m / (K + 1)) by (eapply Rlt_le_trans; [exact Ht|apply Rmin_r]).
    assert (Kt : K * (t * t) <= m).
    { assert (A : t * t = Rabs t * Rabs t) by (rewrite <- Rabs_mult; symmetry; apply Rabs_pos_eq; nra). rewrite A. assert (N := Rabs_pos t).
      assert (B : Rabs t * (K + 1) <= m). { left. apply (Rmult_lt_compat_r (K + 1)) in T2; [|lra]. replace (m / (K + 1) * (K + 1)) with m in T2 by (field; lra). exact T2. }
      assert (Rabs t * Rabs t <= Rabs t) by nra. assert (K * (Rabs t * Rabs t) <= K * Rabs t) by (apply Rmult_le_compat_l; lra). nra. }
    assert (Small : forall a, carries w a -> 2 * (2 * amount (x a) (y a)) / Sl a * (t * t) <= m).
    { intros a I. eapply Rle_trans; [|exact Kt]. apply Rmult_le_compat_r; [nra|]. apply Bd, Cov, I. }
    assert (Ms : m <= 1 /\ m <= eps * eps / 2) by (split; [apply Rmin_l|apply Rmin_r]).
    refine (Min (spin_wave cell pos k Sl (ax1 sv) (ax2 sv) (ax3 sv) x y t phi) _ (EL0 (ax3 sv) w sn ef of_ L) _ _ _ _ _).
    - apply wave_periodic, Fit.
    - intros a r I. destruct (Axes a I) as [Rh _]. apply tilted_unit; [exact Rh|apply Pos, I|]. set (z := deviation _ _ _). change (fst z * fst z + snd z * snd z) with (size2 z).
      assert (Bz : size2 z <= 2 * amount (x a) (y a)) by apply deviation_bound. specialize (Small a I). assert (Ps := Pos a I).
      assert (X : 2 * (2 * amount (x a) (y a)) * (t * t) <= Sl a).
      { assert (Y : 2 * (2 * amount (x a) (y a)) / Sl a * (t * t) <= 1) by lra. apply (Rmult_le_compat_r (Sl a)) in Y; [|lra].
        replace (2 * (2 * amount (x a) (y a)) / Sl a * (t * t) * Sl a) with (2 * (2 * amount (x a) (y a)) * (t * t)) in Y by (field; lra). lra. }
      assert (0 <= t * t) by nra. nra.
    - intros a r I. destruct (Axes a I) as [Rh E3]. unfold uniform. rewrite <- E3. specialize (Small a I).
      eapply Rle_trans; [apply (tilt_distance (Sl a) _ _ _ _ t (2 * amount (x a) (y a)) Rh (Pos a I)); [apply deviation_bound|lra]|]. lra.
    - exact (genergy_total _ _ w dc sn ef of_ W Sp No).
    - eapply eq_trans; [exact (genergy_total (pair_energy L (uniform (pointing sv))) (site_energy L (uniform (pointing sv))) w dc sn ef of_ W Sp No)|]. f_equal.
      apply total_ext.
      + intros b J I. assert (Cf : carries w (b_from b)) by (left; eauto). assert (Ct : carries w (b_to b)) by (left; eauto).
        unfold pair_energy, uniform. rewrite <- (proj2 (Axes _ Cf)), <- (proj2 (Axes _ Ct)). reflexivity.
      + intros a A I. assert (Ca : carries w a) by (right; exact I). unfold site_energy, uniform. rewrite <- (proj2 (Axes _ Ca)). reflexivity. }
  apply Rnot_lt_le. intros N. assert (volume L * T < 0) by nra. nra.
Qed.

(** ** All wave vectors *)
Lemma lim_fsum {A} (f : nat -> A -> R) (g : A -> R) l : (forall a, In a l -> is_lim_seq (fun n => f n a) (g a)) ->
  is_lim_seq (fun n => fsum (map (f n) l)) (fsum (map g l)).
Proof.
  induction l as [|a l IH]; intros Hl; [apply is_lim_seq_const|]. cbn [map]. rewrite fsum_cons.
  apply (is_lim_seq_ext (fun n => f n a + fsum (map (f n) l))); [reflexivity|]. apply is_lim_seq_plus'; [apply Hl; left; reflexivity|apply IH; intros; apply Hl; right; assumption].
Qed.
Lemma lim_scale c (f : nat -> R) (l : R) : is_lim_seq f l -> is_lim_seq (fun n => c * f n) (c * l).
Proof. intros Hl. apply is_lim_seq_mult'; [apply is_lim_seq_const|exact Hl]. Qed.
Lemma lim_total f (f0 : bkey -> M3 R -> R) g (g0 : atom -> M3 R -> R) : (forall b J, In b (bonds w) -> is_lim_seq (fun n => f n b J) (f0 b J)) -> (forall a A, In a (sites w) -> is_lim_seq (fun n => g n a A) (g0 a A)) ->
  is_lim_seq (fun n => total (f n) (g n) w sn ef of_) (total f0 g0 w sn ef of_).
Proof.
  intros Hf Hg. unfold total. apply is_lim_seq_plus'.
  - apply lim_scale. apply (lim_fsum (fun n b => bond_weight sn w b * f n b (vdef (bond_value w b)))). intros b I. apply lim_scale, Hf, I.
  - apply lim_scale. apply (lim_fsum (fun n a => site_weight sn w a * g n a (vdef (onsite_value w a)))). intros b I. apply lim_scale, Hg, I.
Qed.
Definition lim3 (f : nat -> V3 R) (k : V3 R) : Prop := is_lim_seq (fun n => vx (f n)) (vx k) /\ is_lim_seq (fun n => vy (f n)) (vy k) /\ is_lim_seq (fun n => vz (f n)) (vz k).
Lemma lim_dot f k d : lim3 f k -> is_lim_seq (fun n => dot (f n) d) (dot k d).
Proof.
  intros (H1 & H2 & H3). destruct d as [d1 d2 d3]. unfold dot. cbn [vx vy vz].
  apply is_lim_seq_plus'; [apply is_lim_seq_plus'|]; (apply is_lim_seq_mult'; [assumption|apply is_lim_seq_const]).
Qed.
Lemma lim_pe f k b J e1 e2 e3 x y : lim3 f k -> is_lim_seq (fun n => pe cell pos (f n) Sl e1 e2 e3 x y b J) (pe cell pos k Sl e1 e2 e3 x y b J).
Proof.
  intros L. unfold pe, second_mean, overlap; cbn zeta. assert (Ld := lim_dot f k (displacement cell pos b) L).
  assert (Lc : is_lim_seq (fun n => cos (dot (f n) (displacement cell pos b))) (cos (dot k (displacement cell pos b)))) by (apply is_lim_seq_continuous; [apply continuity_cos|exact Ld]).
  assert (Ls : is_lim_seq (fun n => sin (dot (f n) (displacement cell pos b))) (sin (dot k (displacement cell pos b)))) by (apply is_lim_seq_continuous; [apply continuity_sin|exact Ld]).
  apply is_lim_seq_plus'; [apply is_lim_seq_const|]. apply is_lim_seq_mult'; [apply is_lim_seq_const|]. unfold Rdiv. apply is_lim_seq_mult'; [|apply is_lim_seq_const].
  apply is_lim_seq_plus'; (apply is_lim_seq_mult'; [assumption|apply is_lim_seq_const]).
Qed.

(** The wave vector with a_i k = 2 pi floor(n a_i k / 2 pi) / n. *)
Definition adjugate_vec (c : M3 R) (v : V3 R) : V3 R :=
  vscale (/ mdet c) (mkV
    ((myy c * mzz c - myz c * mzy c) * vx v - (mxy c * mzz c - mxz c * mzy c) * vy v + (mxy c * myz c - mxz c * myy c) * vz v)
    (- (myx c * mzz c - myz c * mzx c) * vx v + (mxx c * mzz c - mxz c * mzx c) * vy v - (mxx c * myz c - mxz c * myx c) * vz v)
    ((myx c * mzy c - myy c * mzx c) * vx v - (mxx c * mzy c - mxy c * mzx c) * vy v + (mxx c * myy c - mxy c * myx c) * vz v)).
Lemma adjugate_ok c v : mdet c <> 0 -> dot (mrow1 c) (adjugate_vec c v) = vx v /\ dot (mrow2 c) (adjugate_vec c v) = vy v /\ dot (mrow3 c) (adjugate_vec c v) = vz v.
Proof.
  destruct c as [c1 c2 c3 c4 c5 c6 c7 c8 c9], v as [v1 v2 v3]. unfold adjugate_vec, mdet, dot, mrow1, mrow2, mrow3, vscale, vmap; cbn. intros N. splits; field; exact N.
Qed.
Definition below (n : nat) (t : R) : R := t - 2 * PI * IZR (Int_part (INR (S n) * t / (2 * PI))) / INR (S n).
Lemma below_small n t : 0 <= below n t <= 2 * PI / INR (S n).
Proof.
  unfold below. assert (P := PI_RGT_0). assert (N : 0 < INR (S n)) by (apply lt_0_INR; lia). set (N_ := INR (S n)) in *. set (u := N_ * t / (2 * PI)). destruct (base_Int_part u) as [A B].
  set (z := IZR (Int_part u)) in *. assert (E : t = 2 * PI / N_ * u) by (unfold u; field; split; lra). assert (F : 0 < 2 * PI / N_) by (apply Rdiv_lt_0_compat; lra).
  replace (2 * PI * z / N_) with (2 * PI / N_ * z) by (field; lra). rewrite E. clearbody u z. nra.
Qed.
Lemma below_lim t : is_lim_seq (fun n => below n t) 0.
Proof.
  apply (is_lim_seq_le_le (fun _ => 0) _ (fun n => 2 * PI * / INR (S n))); [intros n; apply below_small|apply is_lim_seq_const|].
  replace (Finite 0) with (Finite (2 * PI * 0)) by (f_equal; ring). apply is_lim_seq_mult'; [apply is_lim_seq_const|].
  apply (is_lim_seq_incr_1 (fun n => / INR n)). apply (is_lim_seq_inv _ _ is_lim_seq_INR). discriminate.
Qed.
Hypothesis Cell : mdet cell <> 0.
Definition near (k : V3 R) (n : nat) : V3 R :=
  vsub k (adjugate_vec cell (mkV (below n (dot (mrow1 cell) k)) (below n (dot (mrow2 cell) k)) (below n (dot (mrow3 cell) k)))).
Lemma near_lim k : lim3 (near k) k.
Proof.
  assert (L1 := below_lim (dot (mrow1 cell) k)). assert (L2 := below_lim (dot (mrow2 cell) k)). assert (L3 := below_lim (dot (mrow3 cell) k)).
  assert (G : forall c a b d, is_lim_seq (fun n => c - / mdet cell * (a * below n (dot (mrow1 cell) k) + b * below n (dot (mrow2 cell) k) + d * below n (dot (mrow3 cell) k))) c).
  { intros c a b d. replace (Finite c) with (Finite (c - / mdet cell * (a * 0 + b * 0 + d * 0))) by (f_equal; ring).
    apply is_lim_seq_minus'; [apply is_lim_seq_const|]. apply lim_scale. apply is_lim_seq_plus'; [apply is_lim_seq_plus'|]; apply lim_scale; assumption. }
  unfold lim3. set (c := cell) in *. splits.
  - eapply is_lim_seq_ext; [|apply (G (vx k) (myy c * mzz c - myz c * mzy c) (- (mxy c * mzz c - mxz c * mzy c)) (mxy c * myz c - mxz c * myy c))]. intros n. unfold near, adjugate_vec. fold c. set (dd := / mdet c). cbn. ring.
  - eapply is_lim_seq_ext; [|apply (G (vy k) (- (myx c * mzz c - myz c * mzx c)) (mxx c * mzz c - mxz c * mzx c) (- (mxx c * myz c - mxz c * myx c)))]. intros n. unfold near, adjugate_vec. fold c. set (dd := / mdet c). cbn. ring.
  - eapply is_lim_seq_ext; [|apply (G (vz k) (myx c * mzy c - myy c * mzx c) (- (mxx c * mzy c - mxy c * mzx c)) (mxx c * myy c - mxy c * myx c))]. intros n. unfold near, adjugate_vec. fold c. set (dd := / mdet c). cbn. ring.
Qed.
Lemma near_fits k n : fits cell (near k n) (S n, S n, S n).
Proof.
  assert (N : 0 < INR (S n)) by (apply lt_0_INR; lia). assert (P := PI_RGT_0).
  destruct (adjugate_ok cell (mkV (below n (dot (mrow1 cell) k)) (below n (dot (mrow2 cell) k)) (below n (dot (mrow3 cell) k))) Cell) as (A1 & A2 & A3). cbn [vx vy vz] in *.
  set (v := adjugate_vec _ _) in *.
  assert (G : forall r t, dot r v = below n t -> dot r k = t -> INR (S n) * dot r (vsub k v) = 2 * PI * IZR (Int_part (INR (S n) * t / (2 * PI)))).
  { intros r t E F. replace (dot r (vsub k v)) with (dot r k - dot r v) by (destruct r, k, v; unfold dot, vsub, vmap2; cbn; ring). rewrite E, F. unfold below. field. lra. }
  exists (Int_part (INR (S n) * dot (mrow1 cell) k / (2 * PI))), (Int_part (INR (S n) * dot (mrow2 cell) k / (2 * PI))), (Int_part (INR (S n) * dot (mrow3 cell) k / (2 * PI))).
  unfold shift_of, near. fold v. rewrite <- (INR_IZR_INZ (S n)). splits.
  - eapply eq_trans; [|exact (G (mrow1 cell) _ A1 eq_refl)]. set (u := vsub k v). destruct cell as [c1 c2 c3 c4 c5 c6 c7 c8 c9], u as [u1 u2 u3]. unfold dot, vmat, mvec, mtrans, mrow1, mrow2, mrow3, dot; cbn -[INR]. ring.
  - eapply eq_trans; [|exact (G (mrow2 cell) _ A2 eq_refl)]. set (u := vsub k v). destruct cell as [c1 c2 c3 c4 c5 c6 c7 c8 c9], u as [u1 u2 u3]. unfold dot, vmat, mvec, mtrans, mrow1, mrow2, mrow3, dot; cbn -[INR]. ring.
  - eapply eq_trans; [|exact (G (mrow3 cell) _ A3 eq_refl)]. set (u := vsub k v). destruct cell as [c1 c2 c3 c4 c5 c6 c7 c8 c9], u as [u1 u2 u3]. unfold dot, vmat, mvec, mtrans, mrow1, mrow2, mrow3, dot; cbn -[INR]. ring.
Qed.

Lemma stable_semidefinite k psi : 0 <= fst (quad (2 * d_N D) (d_h (w_store w1) D k) psi).
Proof.
  destruct (quad_world order cell pos sv w w1 D dc sn ef of_ Sl W U Sp St O No Ne Nf Hs Hv H) as (atoms & _ & _ & _ & _ & Q).
  assert (L : is_lim_seq (fun n => fst (quad (2 * d_N D) (d_h (w_store w1) D (near k n)) psi)) (fst (quad (2 * d_N D) (d_h (w_store w1) D k) psi))).
  { rewrite Q. eapply is_lim_seq_ext; [intros n; symmetry; apply Q|]. apply lim_total; intros; unfold se; apply lim_pe, near_lim. }
  apply (is_lim_seq_le (fun _ => 0) _ 0 _ (fun n => fits_semidefinite (near k n) (S n) (S n) (S n) psi (Nat.lt_0_succ n) (Nat.lt_0_succ n) (Nat.lt_0_succ n) (near_fits k n)) (is_lim_seq_const 0) L).
Qed.
End Stable.
