(** The magnon matrix is the second-order term of the classical energy. *)
From Coq Require Import List Bool ZArith Reals Lra Lia Permutation Arith String.
From Coquelicot Require Import Coquelicot.
From Verif.Base Require Import Scalar ScalarR Linear3 PyDict PyString.
From Verif.Model Require Import MatrixParam Hamiltonian EnergyInit Energy Dispersion.
From Verif.Spec Require Import HamSpec NotationSpec HistorySpec EnergySpec DispersionSpec SpinWaveSpec.
From Verif.Proofs Require Import DictProofs HamBasics HamSetters HamDouble HamDcEnergy NotationProofs HistoryProofs CallProofs FilterProofs FrameProofs
  HamGlue EnergyInitProofs OptimizerProofs DispersionMatrix DispersionInit DispersionAxes DispersionModes EnergyFunctional SpinWaveLocal SpinWaveQuad.
From Coq Require Import List.
Import ListNotations.
Local Open Scope R_scope.

(** ** Sums over bonds *)
Lemma fsum_cons (x : R) l : fsum (x :: l) = x + fsum l.
Proof. reflexivity. Qed.
Lemma expansion_fsum {A} (f : A -> R -> R) a0 a1 a2 l : (forall x, In x l -> expansion (f x) (a0 x) (a1 x) (a2 x)) ->
  expansion (fun t => fsum (map (fun x => f x t) l)) (fsum (map a0 l)) (fsum (map a1 l)) (fsum (map a2 l)).
Proof.
  induction l as [|x l IH]; intros H; [exact (expansion_const 0)|]. cbn [map]. rewrite !fsum_cons.
  apply expansion_ext with (f := fun t => f x t + fsum (map (fun x => f x t) l)); [reflexivity|].
  apply expansion_plus; [apply H; left; reflexivity|apply IH; intros; apply H; right; assumption].
Qed.
Lemma is_RInt_fsum {A} (f : A -> R -> R) (v : A -> R) a b l : (forall x, In x l -> is_RInt (f x) a b (v x)) ->
  is_RInt (fun t => fsum (map (fun x => f x t) l)) a b (fsum (map v l)).
Proof.
  induction l as [|x l IH]; intros H; cbn [map].
  - assert (K := @is_RInt_const R_NormedModule a b 0). replace (scal (b - a) (0 : R_NormedModule)) with (0 : R) in K by (unfold scal; cbn; unfold mult; cbn; ring). exact K.
  - rewrite fsum_cons. apply (is_RInt_ext (fun t => plus (f x t) (fsum (map (fun x => f x t) l)))); [reflexivity|].
    apply (is_RInt_plus (V := R_NormedModule)); [apply H; left; reflexivity|apply IH; intros; apply H; right; assumption].
Qed.

Lemma total_expansion (w : world) sn ef of_ f g f0 f1 f2 g0 g1 g2 :
  (forall k, In k (bonds w) -> forall J, expansion (fun t => f t k J) (f0 k J) (f1 k J) (f2 k J)) ->
  (forall a, In a (sites w) -> forall A, expansion (fun t => g t a A) (g0 a A) (g1 a A) (g2 a A)) ->
  expansion (fun t => total (f t) (g t) w sn ef of_) (total f0 g0 w sn ef of_) (total f1 g1 w sn ef of_) (total f2 g2 w sn ef of_).
Proof.
  intros Hf Hg. unfold total. apply expansion_plus.
  - apply expansion_scale. apply (expansion_fsum (fun k t => bond_weight sn w k * f t k (vdef (bond_value w k)))). intros k I. apply expansion_scale, Hf, I.
  - apply expansion_scale. apply (expansion_fsum (fun a t => site_weight sn w a * g t a (vdef (onsite_value w a)))). intros k I. apply expansion_scale, Hg, I.
Qed.
Lemma total_RInt (w : world) sn ef of_ f g vf vg a b :
  (forall k, In k (bonds w) -> forall J, is_RInt (fun t => f t k J) a b (vf k J)) ->
  (forall s, In s (sites w) -> forall A, is_RInt (fun t => g t s A) a b (vg s A)) ->
  is_RInt (fun t => total (f t) (g t) w sn ef of_) a b (total vf vg w sn ef of_).
Proof.
  intros Hf Hg. unfold total.
  assert (Sc : forall c h v, is_RInt h a b v -> is_RInt (fun t => c * h t) a b (c * v)) by (intros c h v H; apply (is_RInt_scal (V := R_NormedModule)), H).
  apply (is_RInt_plus (V := R_NormedModule)).
  - apply Sc. apply (is_RInt_fsum (fun k t => bond_weight sn w k * f t k (vdef (bond_value w k)))). intros k I. apply Sc, Hf, I.
  - apply Sc. apply (is_RInt_fsum (fun s t => site_weight sn w s * g t s (vdef (onsite_value w s)))). intros k I. apply Sc, Hg, I.
Qed.
Lemma total_scale (w : world) sn ef of_ c f g : total (fun k J => c * f k J) (fun a A => c * g a A) w sn ef of_ = c * total f g w sn ef of_.
Proof.
  assert (G : forall {A} (h : A -> R) (u : A -> R) l, fsum (map (fun x => u x * (c * h x)) l) = c * fsum (map (fun x => u x * h x) l)).
  { intros A h u l. induction l as [|x l IH]; cbn [map]; [cbn; ring|]. rewrite !fsum_cons, IH. ring. }
  unfold total. cbn [Scalar.fadd Scalar.fmul R_Scalar]. rewrite (G _ (fun k => f k (vdef (bond_value w k))) (bond_weight sn w)), (G _ (fun k => g k (vdef (onsite_value w k))) (site_weight sn w)). ring.
Qed.

Lemma pair_energy_one (s : config) k (J : M3 R) : pair_energy (1, 1, 1)%nat s k J = dot (s (b_from k) (0, 0, 0)%Z) (mvec J (s (b_to k) (b_cell k))).
Proof.
  unfold pair_energy. cbn [sum_box sum_upto]. replace (cadd (Z.of_nat 0, Z.of_nat 0, Z.of_nat 0) (b_cell k)) with (b_cell k) by (destruct (b_cell k) as [[? ?] ?]; reflexivity).
  cbn -[dot mvec]. ring.
Qed.
Lemma site_energy_one (s : config) a (A : M3 R) : site_energy (1, 1, 1)%nat s a A = dot (s a (0, 0, 0)%Z) (mvec A (s a (0, 0, 0)%Z)).
Proof. unfold site_energy. cbn [sum_box sum_upto]. cbn -[dot mvec]. ring. Qed.

(** ** The wave *)
Section Wave.
Variables (cell : M3 R) (pos : atom -> V3 R) (k : V3 R) (Sl : atom -> R) (e1 e2 e3 : atom -> V3 R) (x y : atom -> C).
Definition at_phase (a : atom) (r : cell3) : R := dot k (place cell pos a r).
Definition fo_bond (phi : R) (b : bkey) (J : M3 R) : R :=
  first_order (Sl (b_from b)) (Sl (b_to b)) (e1 (b_from b)) (e2 (b_from b)) (e3 (b_from b)) (e1 (b_to b)) (e2 (b_to b)) (e3 (b_to b)) J
    (x (b_from b)) (y (b_from b)) (x (b_to b)) (y (b_to b)) (at_phase (b_from b) (0, 0, 0)%Z) (at_phase (b_to b) (b_cell b)) phi.
Definition so_bond (phi : R) (b : bkey) (J : M3 R) : R :=
  second_order (Sl (b_from b)) (Sl (b_to b)) (e1 (b_from b)) (e2 (b_from b)) (e3 (b_from b)) (e1 (b_to b)) (e2 (b_to b)) (e3 (b_to b)) J
    (x (b_from b)) (y (b_from b)) (x (b_to b)) (y (b_to b)) (at_phase (b_from b) (0, 0, 0)%Z) (at_phase (b_to b) (b_cell b)) phi.
Definition pe (b : bkey) (J : M3 R) : R :=
  second_mean (Sl (b_from b)) (Sl (b_to b)) (e1 (b_from b)) (e2 (b_from b)) (e3 (b_from b)) (e1 (b_to b)) (e2 (b_to b)) (e3 (b_to b)) J
    (x (b_from b)) (y (b_from b)) (x (b_to b)) (y (b_to b)) (dot k (displacement cell pos b)).
Definition own (a : atom) : bkey := mkB a a (0, 0, 0)%Z.
Definition se (a : atom) (A : M3 R) : R := pe (own a) A.

Lemma phase_difference b : at_phase (b_to b) (b_cell b) - at_phase (b_from b) (0, 0, 0)%Z = dot k (displacement cell pos b).
Proof.
  unfold at_phase, place, displacement, lattice_vector. destruct (b_cell b) as [[i j] n]. rewrite !fZ_IZR.
  destruct k as [k1 k2 k3], cell as [c1 c2 c3 c4 c5 c6 c7 c8 c9], (pos (b_to b)) as [p1 p2 p3], (pos (b_from b)) as [q1 q2 q3].
  unfold dot, vadd, vsub, vmap2, vmat, mvec, mtrans, mrow1, mrow2, mrow3, dot; cbn [vx vy vz mxx mxy mxz myx myy myz mzx mzy mzz]. cbn. ring.
Qed.

Lemma pe_scale b c J : pe b (mscale c J) = c * pe b J.
Proof. unfold pe, second_mean, overlap. rewrite !bil_scale. unfold Rdiv. ring. Qed.
Lemma pe_mirror b J : pe (mirror b) (mtrans J) = pe b J.
Proof.
  unfold pe. rewrite displacement_mirror, dot_opp_r. unfold mirror; cbn [b_from b_to]. unfold second_mean, overlap; cbn zeta.
  rewrite !bil_trans, cos_neg, sin_neg. unfold Rdiv. ring.
Qed.

Variable w : world.
Hypothesis positive : forall a, carries w a -> 0 < Sl a.
Lemma pos_from b : In b (bonds w) -> 0 < Sl (b_from b).
Proof. intros I. apply positive. left. eauto. Qed.
Lemma pos_to b : In b (bonds w) -> 0 < Sl (b_to b).
Proof. intros I. apply positive. left. eauto. Qed.
Lemma pos_site a : In a (sites w) -> 0 < Sl a.
Proof. intros I. apply positive. right. exact I. Qed.
Variables (sn : bool) (ef of_ : R).
Let wv := spin_wave cell pos k Sl e1 e2 e3 x y.

Definition E_ (t phi : R) : R := total (pair_energy (1, 1, 1)%nat (wv t phi)) (site_energy (1, 1, 1)%nat (wv t phi)) w sn ef of_.
Definition E1_ (phi : R) : R := total (fo_bond phi) (fun a A => fo_bond phi (own a) A) w sn ef of_.
Definition E2_ (phi : R) : R := total (so_bond phi) (fun a A => so_bond phi (own a) A) w sn ef of_.
Lemma wave_expansion phi : expansion (fun t => E_ t phi) (total (fun b J => bil (e3 (b_from b)) J (e3 (b_to b))) (fun a A => bil (e3 a) A (e3 a)) w sn ef of_) (E1_ phi) (E2_ phi).
Proof.
  unfold E_, E1_, E2_. apply (total_expansion w sn ef of_ (fun t => pair_energy (1, 1, 1)%nat (wv t phi)) (fun t => site_energy (1, 1, 1)%nat (wv t phi))).
  - intros b I J. eapply expansion_ext; [intros t; apply pair_energy_one|]. apply bond_expansion; [apply pos_from|apply pos_to]; exact I.
  - intros a I A. eapply expansion_ext; [intros t; apply site_energy_one|]. apply bond_expansion; apply pos_site, I.
Qed.
Lemma wave_first : is_RInt E1_ 0 (2 * PI) 0.
Proof.
  assert (Z : total (fun _ _ => 0) (fun _ _ => 0) w sn ef of_ = 0).
  { assert (T := total_scale w sn ef of_ 0 (fun _ _ => 0) (fun _ _ => 0)). rewrite !Rmult_0_l in T. exact T. }
  rewrite <- Z at 2. apply total_RInt; intros; apply first_order_mean.
Qed.
Lemma wave_second : is_RInt E2_ 0 (2 * PI) (2 * PI * total pe se w sn ef of_).
Proof.
  rewrite <- total_scale. unfold E2_. apply (total_RInt w sn ef of_ so_bond (fun phi a A => so_bond phi (own a) A)).
  - intros b I J. unfold so_bond, pe. rewrite <- phase_difference. apply second_order_mean; [apply pos_from|apply pos_to]; exact I.
  - intros a I A. unfold so_bond, se, pe. rewrite <- phase_difference. apply second_order_mean; apply pos_site, I.
Qed.
End Wave.

(** ** The matrix *)
Lemma wave_parts e1 e2 x y : cv_lin x (cv_conj (complex_vec e1 e2)) y (complex_vec e1 e2) = complex_vec (cos_part e1 e2 x y) (vopp (sin_part e1 e2 x y)).
Proof.
  destruct e1 as [a1 a2 a3], e2 as [b1 b2 b3], x as [x1 x2], y as [y1 y2].
  unfold cv_lin, cv_conj, complex_vec, cos_part, sin_part, vopp, vadd, vscale, vmap, vmap2, Cplus, Cmult, Cconj; cbn. f_equal; f_equal; ring.
Qed.
Lemma form_parts a b J c d : form (complex_vec a b) J (complex_vec c d) = (bil a J c - bil b J d, bil a J d + bil b J c).
Proof.
  destruct a as [a1 a2 a3], b as [b1 b2 b3], c as [c1 c2 c3], d as [d1 d2 d3], J as [j1 j2 j3 j4 j5 j6 j7 j8 j9].
  unfold form, cbil, cv_mat, cv_dot, cm_scale, complex_vec, bil, dot, mvec, mrow1, mrow2, mrow3, dot, Cplus, Cmult, RtoC; cbn. f_equal; ring.
Qed.
Lemma conj_parts a b : cv_conj (complex_vec a b) = complex_vec a (vopp b).
Proof. destruct a, b. unfold cv_conj, complex_vec, Cconj, vopp, vmap; cbn. reflexivity. Qed.
Lemma bil_opp_l a J b : bil (vopp a) J b = - bil a J b.
Proof. destruct a, b, J. unfold bil, dot, mvec, vopp, vmap, mrow1, mrow2, mrow3, dot; cbn. ring. Qed.
Lemma bil_opp_r a J b : bil a J (vopp b) = - bil a J b.
Proof. destruct a, b, J. unfold bil, dot, mvec, vopp, vmap, mrow1, mrow2, mrow3, dot; cbn. ring. Qed.
Lemma bil_zero_l J b : bil vzero J b = 0.
Proof. destruct b, J. unfold bil, dot, mvec, vzero, mrow1, mrow2, mrow3, dot; cbn. ring. Qed.
Lemma fst_lsum l : fst (lsum l) = fsum (map fst l).
Proof. induction l as [|z l IH]; [reflexivity|]. cbn [map]. rewrite fsum_cons, <- IH. reflexivity. Qed.
Lemma fsum_perm_R (l l' : list R) : Permutation l l' -> fsum l = fsum l'.
Proof. intros P. apply fsum_perm, P. Qed.

Lemma sqrt_weight s s' : 0 < s -> 0 < s' -> s * s' * (sqrt (2 / s) * sqrt (2 / s')) = 2 * sqrt (s * s').
Proof.
  intros H H'. assert (P : 0 < s * s') by nra. rewrite !sqrt_div_alt by assumption. rewrite sqrt_mult by lra.
  assert (A := sqrt_lt_R0 s H). assert (B := sqrt_lt_R0 s' H'). assert (T : sqrt 2 * sqrt 2 = 2) by (apply sqrt_sqrt; lra).
  assert (A2 : sqrt s * sqrt s = s) by (apply sqrt_sqrt; lra). assert (B2 : sqrt s' * sqrt s' = s') by (apply sqrt_sqrt; lra).
  rewrite <- A2 at 1. rewrite <- B2 at 1. transitivity ((sqrt 2 * sqrt 2) * (sqrt s * sqrt s')); [field; lra|]. rewrite T. reflexivity.
Qed.

Section Assembly.
Variables (order : list atom -> list atom) (cell : M3 R) (pos : atom -> V3 R) (sv : atom -> option (V3 R)) (w w1 : world) (D : dispersion)
  (w4 : world) (atoms : list atom).
Hypothesis md : made order cell pos sv w w1 D w4 atoms.

Definition axes_of (a : atom) : V3 R * V3 R * V3 R :=
  match sv a with Some s => match span_orthonormal_set s with Ret e => e | Raise _ => (vzero, vzero, vzero) end | None => (vzero, vzero, vzero) end.
Definition ax1 a := fst (fst (axes_of a)).
Definition ax2 a := snd (fst (axes_of a)).
Definition ax3 a := snd (axes_of a).

Lemma axes_at a : In a atoms -> exists s, sv a = Some s /\ norm s <> 0 /\ S_ D (pindex atoms a) = s /\
  u_ D (pindex atoms a) = complex_vec (ax1 a) (ax2 a) /\ v_ D (pindex atoms a) = complex_vec (ax3 a) vzero /\ (pindex atoms a < d_N D)%nat.
Proof.
  intros I. destruct (position_In a atoms I) as (i & Ei & Hn). unfold pindex. rewrite Ei.
  destruct (md_lengths _ _ _ _ _ _ _ _ _ md) as (L1 & L2 & L3). assert (Fa := md_axes _ _ _ _ _ _ _ _ _ md).
  assert (Li : (i < List.length atoms)%nat) by (apply nth_error_Some; congruence).
  assert (Hc : nth i (combine (combine (d_S D) (d_u D)) (d_v D)) (vzero, cv_zero, cv_zero) = (S_ D i, u_ D i, v_ D i)).
  { rewrite combine_nth by (rewrite combine_length; lia). rewrite combine_nth by lia. reflexivity. }
  assert (G : forall (P : atom -> V3 R * V3 C * V3 C -> Prop) l l' i d, Forall2 P l l' -> nth_error l i = Some a -> P a (nth i l' d)).
  { clear. intros P l l' i d F2. revert i. induction F2 as [|x y l l' H F2 IH]; intros [|i] E; cbn in *; try discriminate; [injection E as <-; exact H|auto]. }
  specialize (G _ _ _ i (vzero, cv_zero, cv_zero) Fa Hn). destruct G as (s & e1 & e2 & e3 & Es & Ex & E). rewrite Hc in E. exists s.
  assert (E' : S_ D i = s /\ u_ D i = complex_vec e1 e2 /\ v_ D i = complex_vec e3 vzero) by (split; [|split]; congruence). destruct E' as (X1 & X2 & X3).
  unfold ax1, ax2, ax3, axes_of. rewrite Es, Ex. cbn [fst snd]. splits; auto.
  - intros Z. rewrite (span_zero s Z) in Ex. discriminate.
  - rewrite (md_N _ _ _ _ _ _ _ _ _ md). exact Li.
Qed.

Variable Sl : atom -> R.
Lemma listed a : carries w4 a -> In a atoms.
Proof. intros H. apply (md_covers _ _ _ _ _ _ _ _ _ md). destruct H; auto. Qed.
Hypothesis carried : forall a, carries w4 a -> forall s, sv a = Some s -> norm s = Sl a.
Variables (k : V3 R) (psi : nat -> C).
Notation N := (d_N D).
Definition x_ a := psi (pindex atoms a).
Definition y_ a := psi (N + pindex atoms a)%nat.
Definition entry_at (kJ : bkey * M3 R) : entry := (pindex atoms (b_from (fst kJ)), pindex atoms (b_to (fst kJ)), displacement cell pos (fst kJ), snd kJ).
Definition real_bond (e : entry) : R := fst (bond_part D k psi (fst (ends e)) (snd (ends e)) e).
Notation pe_ := (pe cell pos k Sl ax1 ax2 ax3 x_ y_).

Lemma number_at a : number D psi (pindex atoms a) = RtoC (amount (x_ a) (y_ a)).
Proof.
  unfold number. fold (x_ a) (y_ a). destruct (x_ a) as [x1 x2], (y_ a) as [y1 y2]. unfold amount, size2, RtoC, Cplus, Cmult, Cconj; cbn. f_equal; ring.
Qed.

Lemma real_bond_at b J : carries w4 (b_from b) -> carries w4 (b_to b) ->
  real_bond (entry_at (b, J)) =
    sqrt (Sl (b_from b) * Sl (b_to b)) * overlap (ax1 (b_from b)) (ax2 (b_from b)) (ax1 (b_to b)) (ax2 (b_to b)) J (x_ (b_from b)) (y_ (b_from b)) (x_ (b_to b)) (y_ (b_to b))
       (dot k (displacement cell pos b))
    - 2 * Sl (b_to b) * bil (ax3 (b_from b)) J (ax3 (b_to b)) * amount (x_ (b_from b)) (y_ (b_from b)).
Proof.
  intros I1 I2. destruct (axes_at _ (listed _ I1)) as (s & Es & _ & HS & HU & HV & _). destruct (axes_at _ (listed _ I2)) as (s' & Es' & _ & HS' & HU' & HV' & _).
  unfold real_bond, entry_at; cbn [fst snd ends bond_part]. rewrite HS, HS', HV, HV', (carried _ I1 _ Es), (carried _ I2 _ Es').
  unfold wave. rewrite HU, HU', !wave_parts, conj_parts, !form_parts, number_at, dot_opp_l.
  replace (dot vzero (displacement cell pos b)) with 0 by (destruct (displacement cell pos b); unfold dot, vzero; cbn; ring).
  fold (x_ (b_from b)) (y_ (b_from b)) (x_ (b_to b)) (y_ (b_to b)).
  unfold cexp_neg. rewrite cos_neg, sin_neg, cos_0, sin_0. rewrite ?bil_opp_l, ?bil_opp_r, ?bil_zero_l. unfold overlap; cbn zeta.
  unfold Cminus, Cplus, Cmult, Copp, RtoC; cbn [fst snd]. rewrite ?bil_opp_l, ?bil_opp_r, ?bil_zero_l. ring.
Qed.

Hypothesis positive : forall a, carries w4 a -> 0 < Sl a.
Lemma real_bond_pe b J : carries w4 (b_from b) -> carries w4 (b_to b) ->
  real_bond (entry_at (b, J)) + real_bond (flip (entry_at (b, J))) = 2 * (Sl (b_from b) * Sl (b_to b) * pe_ b J).
Proof.
  intros I1 I2. replace (flip (entry_at (b, J))) with (entry_at (mirror b, mtrans J)) by (unfold entry_at, flip; cbn [fst snd]; rewrite displacement_mirror; reflexivity).
  rewrite !real_bond_at by (cbn; assumption). rewrite displacement_mirror, dot_opp_r. unfold mirror; cbn [b_from b_to].
  unfold pe, second_mean, overlap; cbn zeta. rewrite !bil_trans, cos_neg, sin_neg. rewrite (Rmult_comm (Sl (b_to b)) (Sl (b_from b))).
  assert (P1 := positive _ I1). assert (P2 := positive _ I2). assert (W := sqrt_weight _ _ P1 P2).
  set (q := sqrt (2 / Sl (b_from b)) * sqrt (2 / Sl (b_to b))) in *. set (r := sqrt (Sl (b_from b) * Sl (b_to b))) in *.
  replace r with (Sl (b_from b) * Sl (b_to b) * q / 2) by lra. field. lra.
Qed.

Hypothesis Fu : full w4 true false 1 1.
Hypothesis spins : forall a, carries w4 a -> spin_of w4 a = Some (Sl a).

Lemma fsum_half {A} (f g h : A -> R) l : (forall x, In x l -> f x + g x = 2 * h x) -> fsum (map f l) + fsum (map g l) = 2 * fsum (map h l).
Proof.
  induction l as [|z l IH]; intros H; cbn [map]; [cbn; ring|]. rewrite !fsum_cons. specialize (IH (fun x I => H x (or_intror I))). specialize (H z (or_introl eq_refl)). lra.
Qed.
Lemma fsum_app_R (l l' : list R) : fsum (l ++ l') = fsum l + fsum l'.
Proof. induction l as [|z l IH]; cbn [app]; [cbn; ring|]. rewrite !fsum_cons, IH. ring. Qed.
Lemma own_displacement a : dot k (displacement cell pos (own a)) = 0.
Proof. rewrite <- phase_difference. unfold own; cbn [b_from b_to b_cell]. ring. Qed.

Lemma quad_total : fst (quad (2 * N) (d_h (w_store w1) D k) psi) = total pe_ (se cell pos k Sl ax1 ax2 ax3 x_ y_) w4 false 1 1.
Proof.
  assert (BE := made_both_ends _ _ _ _ _ _ _ _ _ md). assert (En := md_entries _ _ _ _ _ _ _ _ _ md).
  set (L := map (fun a => (mkB a a (0, 0, 0)%Z, vdef (onsite_value w4 a))) (sites w4) ++ map (fun b => (b, vdef (bond_value w4 b))) (bonds w4)) in *.
  change (entries (w_store w1) D = map entry_at L) in En.
  assert (InL : forall kJ, In kJ L -> carries w4 (b_from (fst kJ)) /\ carries w4 (b_to (fst kJ))).
  { intros kJ I. unfold L in I. apply in_app_or in I as [I|I]; apply in_map_iff in I as (z & <- & I); cbn [fst b_from b_to].
    - split; right; exact I.
    - split; left; exists z; auto. }
  rewrite (quad_entries (w_store w1) D k psi BE).
  2:{ rewrite En. apply Forall_forall. intros e I. apply in_map_iff in I as (kJ & <- & I). destruct (InL _ I) as [I1 I2]. unfold entry_at; cbn [ends fst snd].
      destruct (axes_at _ (listed _ I1)) as (_ & _ & _ & _ & _ & _ & X). destruct (axes_at _ (listed _ I2)) as (_ & _ & _ & _ & _ & _ & Y). auto. }
  rewrite fst_lsum, map_map. change (fsum (map real_bond (entries (w_store w1) D)) = total pe_ (se cell pos k Sl ax1 ax2 ax3 x_ y_) w4 false 1 1).
  assert (H2 : fsum (map real_bond (entries (w_store w1) D)) + fsum (map (fun e => real_bond (flip e)) (entries (w_store w1) D)) =
     2 * fsum (map (fun kJ => Sl (b_from (fst kJ)) * Sl (b_to (fst kJ)) * pe_ (fst kJ) (snd kJ)) L)).
  { rewrite En, !map_map. apply fsum_half. intros [b J] I. destruct (InL _ I) as [I1 I2]. apply real_bond_pe; assumption. }
  assert (H1 : fsum (map real_bond (entries (w_store w1) D)) = fsum (map (fun e => real_bond (flip e)) (entries (w_store w1) D))).
  { rewrite <- (map_map flip real_bond). apply fsum_perm_R, Permutation_map, BE. }
  rewrite <- H1 in H2. assert (H3 : fsum (map real_bond (entries (w_store w1) D)) = fsum (map (fun kJ => Sl (b_from (fst kJ)) * Sl (b_to (fst kJ)) * pe_ (fst kJ) (snd kJ)) L)) by lra.
  rewrite H3. unfold L, total. rewrite map_app, fsum_app_R, !map_map. cbn [fst snd b_from b_to].
  assert (Sw : forall a, carries w4 a -> sdef (slen false (w_ham w4) a) = Sl a).
  { intros a I. unfold slen. assert (X := spins a I). unfold spin_of in X. rewrite X. reflexivity. }
  cbn [Scalar.fadd Scalar.fmul R_Scalar]. rewrite Rplus_comm, !Rmult_1_l. f_equal.
  - f_equal. apply map_ext_in. intros b I. unfold bond_weight. rewrite !Sw by (left; eauto). reflexivity.
  - f_equal. apply map_ext_in. intros a I. unfold site_weight. rewrite !Sw by (right; exact I). reflexivity.
Qed.
End Assembly.

(** ** The theorem *)
Lemma axes_true s : norm s <> 0 -> exists e1 e2 e3, span_orthonormal_set s = Ret (e1, e2, e3) /\ right_handed e1 e2 e3 /\
  (~ near_pole (direction_of s) \/ direction_of s = mkV 0 0 1 \/ direction_of s = mkV 0 0 (-1) -> e3 = direction_of s).
Proof.
  intros H. destruct (span_spec s H) as (e1 & e2 & e3 & E & Rh & NP & _). exists e1, e2, e3. splits; auto. intros [X|X]; [auto|].
  unfold span_orthonormal_set in E. destruct (Req_EM_T (norm s) 0); [contradiction|]. cbn zeta in E. rewrite unit_direction in E. assert (P := small_pos).
  destruct X as [X|X]; rewrite X in *.
  - assert (Y : allclose (mkV 0 0 1) (mkV 0 0 1) = true) by (apply close_up; cbn; rewrite !Rminus_diag_eq, Rabs_R0 by reflexivity; lra). rewrite Y in E. congruence.
  - destruct (allclose (mkV 0 0 (-1)) (mkV 0 0 1)) eqn:Y.
    + apply close_up in Y as (_ & _ & Y). cbn in Y. rewrite Rabs_left in Y by lra. exfalso. assert (/ 10 ^ 8 <= 1) by (rewrite <- Rinv_1; apply Rinv_le_contravar; lra).
      assert (/ 10 ^ 5 <= / 10) by (apply Rinv_le_contravar; lra). assert (/ 10 < 1 / 2) by lra. lra.
    + assert (Z : allclose (mkV 0 0 (-1)) (mkV 0 0 (-1)) = true) by (apply close_down; cbn; replace (-1 + 1) with 0 by ring; rewrite !Rabs_R0; lra). rewrite Z in E. congruence.
Qed.

(** The quadratic form of [h(k)] as a sum over the parameters of the given Hamiltonian. *)
Lemma quad_world order cell pos sv (w w1 : world) D dc sn ef of_ Sl :
  wf w -> unshared w -> spins_defined w -> reciprocal_storage w dc -> symmetric_onsite w -> notation_is w dc sn ef of_ -> ef <> 0 -> of_ <> 0 ->
  (forall a, carries w a -> spin_of w a = Some (Sl a)) -> (forall a s, carries w a -> sv a = Some s -> norm s = Sl a) ->
  dispersion_init order cell pos sv w = (w1, Ret D) ->
  exists atoms : list atom,
    (forall a, carries w a -> In a atoms) /\ d_N D = List.length atoms /\
    ((forall l, Permutation (order l) l) -> NoDup atoms /\ forall a, In a atoms -> carries w a) /\
    (forall a, In a atoms -> (pindex atoms a < d_N D)%nat /\ exists s, sv a = Some s /\ norm s <> 0) /\
    (forall k psi, fst (quad (2 * d_N D) (d_h (w_store w1) D k) psi) =
      total (pe cell pos k Sl (ax1 sv) (ax2 sv) (ax3 sv) (fun a => psi (pindex atoms a)) (fun a => psi (d_N D + pindex atoms a)%nat))
        (se cell pos k Sl (ax1 sv) (ax2 sv) (ax3 sv) (fun a => psi (pindex atoms a)) (fun a => psi (d_N D + pindex atoms a)%nat)) w sn ef of_).
Proof.
  intros W U Sp St O No Ne Nf Hs Hv H.
  assert (Rc : reciprocal w).
  { destruct St as (S1 & S2 & S3). destruct dc; [apply S3|]. intros b J J' E E'.
    assert (I : In b (bonds w)) by (apply (bond_value_stored w b W); eauto). assert (I' : In (mirror b) (bonds w)) by (apply (bond_value_stored w _ W); eauto).
    exfalso. exact (kept_mirror_absent w b S1 S2 I (proj2 (canonical_kept b) (S3 b I)) (proj2 (canonical_kept _) (S3 _ I'))). }
  assert (Sy : Sym w) by (unfold Sym; splits; assumption).
  destruct (dispersion_made order cell pos sv w w1 D Sy H) as (w4 & atoms & md).
  (* the copy *)
  assert (CP := copy_ok (w_store w) (w_ham w)). assert (Hc := md_copied _ _ _ _ _ _ _ _ _ md).
  replace (mkW (w_store w) (w_ham w)) with w in CP by (destruct w; reflexivity). specialize (CP W).
  destruct (copy_ham (w_store w) (w_ham w)) as [st h] eqn:Ec.
  destruct CP as (_ & Wc & C1 & C2 & C3 & C4 & C5 & C6 & Bc & Sc & SPc & Uc & _). specialize (Uc U). set (wc := mkW st h) in *.
  assert (Fc : full wc dc sn ef of_).
  { destruct No as (N1 & N2 & N3 & N4). apply full_intro; auto.
    - destruct Sp as [Sp1 Sp2]. unfold spins_defined, spin_of in *. cbn [w_ham wc]. rewrite C5, Bc, Sc. split; assumption.
    - destruct St as (S1 & S2 & S3). unfold reciprocal_storage, distinct_indices, mirror_closed, reciprocal. rewrite Bc. splits; auto.
      destruct dc; [|exact S3]. destruct S3 as [S3 S4]. split; [exact S3|]. destruct SPc as [Vb _]. intros b J J'. rewrite !Vb. apply S4.
    - unfold notation_is. cbn [w_ham wc]. rewrite C1, C2, C3, C4. auto. }
  assert (nz : (1 : R) <> @f0 R R_Scalar) by exact R1_neq_R0.
  destruct (set_notation_full wc dc sn ef of_ true false 1 1 Fc nz nz) as (w4' & E4 & F4 & SP4).
  assert (w4' = w4) as ->.
  { replace (set_notation (NStr "SpinW") wc) with (set_notation (N4 true false (1 : R) 1) wc) in Hc by reflexivity. rewrite E4 in Hc. congruence. }
  assert (Sp4 : forall a, spin_of w4 a = spin_of w a).
  { intros a. destruct SP4 as (X & _). unfold spin_of. rewrite X. cbn [w_ham wc]. rewrite C5. reflexivity. }
  (* who carries *)
  destruct (md_spinw _ _ _ _ _ _ _ _ _ md) as [(W4 & _) _ _ [fe Hb] [fo Ho]].
  assert (Cb : forall b, In b (bonds w4) <-> In b (bonds w) \/ In (mirror b) (bonds w)).
  { intros b. rewrite (bond_value_stored w4 b W4), Hb. unfold mirrored_value. destruct (dmem (h_exch (w_ham w)) (mirror b)) eqn:Em.
    - apply dmem_key in Em. assert (Em' := Em). apply (bond_value_stored w _ W) in Em' as [Jm ->]. cbn [option_map]. split; [intros _; right; exact Em|eauto].
    - apply dmem_key_false in Em. rewrite (bond_value_stored w b W). destruct (bond_value w b); cbn [option_map]; (split; [intros [? Y]; try discriminate Y; eauto|intros [[? Y]|X]; [try discriminate Y; eauto|contradiction]]). }
  assert (Cs : forall a, In a (sites w4) <-> In a (sites w)).
  { intros a. rewrite (onsite_value_stored w4 a W4), (onsite_value_stored w a W), Ho. destruct (onsite_value w a); cbn [option_map]; split; intros [? X]; eauto; discriminate. }
  assert (Ca : forall a, carries w4 a <-> carries w a).
  { intros a. unfold carries. rewrite Cs. split; (intros [(b & I & Hb')|I]; [left|right; exact I]).
    - apply Cb in I as [I|I]; [eauto|]. exists (mirror b). split; [exact I|]. cbn. tauto.
    - exists b. split; [apply Cb; auto|exact Hb']. }
  assert (Cov : forall a, carries w a -> In a atoms).
  { intros a I. apply (md_covers _ _ _ _ _ _ _ _ _ md). apply Ca in I. destruct I; auto. }
  assert (Back : forall a, carries w4 a -> carries w a) by (intros a; apply Ca).
  exists atoms. splits.
  - exact Cov.
  - exact (md_N _ _ _ _ _ _ _ _ _ md).
  - intros P. destruct (magnetic_atoms_exact order w4 P) as (r & Er & Nd & _ & Ir). rewrite (md_atoms _ _ _ _ _ _ _ _ _ md) in Er.
    assert (r = atoms) as -> by congruence. split; [exact Nd|]. intros a I. apply Ca. apply Ir in I. destruct I; [left|right]; assumption.
  - intros a I. destruct (axes_at _ _ _ _ _ _ _ _ _ md a I) as (s & Es & Hn & _ & _ & _ & X). eauto.
  - intros k psi. set (x := fun a => psi (pindex atoms a)). set (y := fun a => psi (d_N D + pindex atoms a)%nat).
    assert (Pos : forall a, carries w a -> 0 < Sl a).
    { intros a I. destruct (axes_at _ _ _ _ _ _ _ _ _ md a (Cov a I)) as (s & Es & Hn & _). rewrite <- (Hv a s I Es). apply norm_pos, Hn. }
    rewrite (quad_total order cell pos sv w w1 D w4 atoms md Sl (fun a I s Es => Hv a s (Back a I) Es) k psi (fun a I => Pos a (Back a I)) (fun a I => eq_trans (Sp4 a) (Hs a (Back a I)))).
    assert (G : genergy (pe cell pos k Sl (ax1 sv) (ax2 sv) (ax3 sv) x y) (se cell pos k Sl (ax1 sv) (ax2 sv) (ax3 sv) x y) wc =
       Some (total (pe cell pos k Sl (ax1 sv) (ax2 sv) (ax3 sv) x y) (se cell pos k Sl (ax1 sv) (ax2 sv) (ax3 sv) x y) w sn ef of_)).
    { rewrite <- (genergy_total _ _ w dc sn ef of_ W Sp No). apply g_energy_equal; auto. }
    destruct (g_notation_energy (pe cell pos k Sl (ax1 sv) (ax2 sv) (ax3 sv) x y) (se cell pos k Sl (ax1 sv) (ax2 sv) (ax3 sv) x y)
      (pe_scale cell pos k Sl (ax1 sv) (ax2 sv) (ax3 sv) x y) (fun a => pe_scale cell pos k Sl (ax1 sv) (ax2 sv) (ax3 sv) x y (own a)) (pe_mirror cell pos k Sl (ax1 sv) (ax2 sv) (ax3 sv) x y)
      wc dc sn ef of_ (N4 true false 1 1) true false 1 1 Wc Uc (fu_sp _ _ _ _ _ Fc) (fu_st _ _ _ _ _ Fc) (fu_no _ _ _ _ _ Fc) Ne Nf eq_refl nz nz) as (w5 & E5 & _ & G5).
    assert (w5 = w4) as -> by (rewrite E4 in E5; congruence).
    apply G5 in G. rewrite (genergy_total _ _ w4 true false 1 1 W4 (fu_sp _ _ _ _ _ F4) (fu_no _ _ _ _ _ F4)) in G.
    assert (X : forall a b : R, Some a = Some b -> b = a) by congruence. symmetry. exact (X _ _ G).
Qed.

Lemma hessian order cell pos sv (w w1 : world) D dc sn ef of_ Sl :
  wf w -> unshared w -> spins_defined w -> reciprocal_storage w dc -> symmetric_onsite w -> notation_is w dc sn ef of_ -> ef <> 0 -> of_ <> 0 ->
  (forall a, carries w a -> spin_of w a = Some (Sl a)) -> (forall a s, carries w a -> sv a = Some s -> norm s = Sl a) ->
  dispersion_init order cell pos sv w = (w1, Ret D) ->
  exists (index : atom -> nat) (e1 e2 e3 : atom -> V3 R),
    (forall a, carries w a -> (index a < d_N D)%nat) /\
    (forall a b, carries w a -> carries w b -> index a = index b -> a = b) /\
    (forall a, carries w a -> exists s, sv a = Some s /\ right_handed (e1 a) (e2 a) (e3 a) /\
       (~ near_pole (direction_of s) \/ direction_of s = mkV 0 0 1 \/ direction_of s = mkV 0 0 (-1) -> e3 a = direction_of s)) /\
    forall k psi, exists E E1 E2,
      (forall t phi, energy w (1, 1, 1)%nat (spin_wave cell pos k Sl e1 e2 e3 (fun a => psi (index a)) (fun a => psi (d_N D + index a)%nat) t phi) = Some (E t phi)) /\
      (forall phi, expands (fun t => E t phi) (E 0 phi) (E1 phi) (E2 phi)) /\
      is_RInt E1 0 (2 * PI) 0 /\ is_RInt E2 0 (2 * PI) (2 * PI * fst (quad (2 * d_N D) (d_h (w_store w1) D k) psi)).
Proof.
  intros W U Sp St O No Ne Nf Hs Hv H.
  destruct (quad_world order cell pos sv w w1 D dc sn ef of_ Sl W U Sp St O No Ne Nf Hs Hv H) as (atoms & Cov & _ & _ & Ax & Q).
  exists (pindex atoms), (ax1 sv), (ax2 sv), (ax3 sv). splits.
  - intros a I. exact (proj1 (Ax a (Cov a I))).
  - intros a b Ia Ib E. destruct (position_In a atoms (Cov a Ia)) as (i & Ei & Hi). destruct (position_In b atoms (Cov b Ib)) as (j & Ej & Hj).
    unfold pindex in E. rewrite Ei, Ej in E. subst j. congruence.
  - intros a I. destruct (Ax a (Cov a I)) as (_ & s & Es & Hn). exists s. split; [exact Es|].
    destruct (axes_true s Hn) as (e1 & e2 & e3 & E & Rh & T). unfold ax1, ax2, ax3, axes_of. rewrite Es, E. cbn [fst snd]. auto.
  - intros k psi. set (x := fun a => psi (pindex atoms a)). set (y := fun a => psi (d_N D + pindex atoms a)%nat).
    assert (Pos : forall a, carries w a -> 0 < Sl a).
    { intros a I. destruct (Ax a (Cov a I)) as (_ & s & Es & Hn). rewrite <- (Hv a s I Es). apply norm_pos, Hn. }
    exists (E_ cell pos k Sl (ax1 sv) (ax2 sv) (ax3 sv) x y w sn ef of_), (E1_ cell pos k Sl (ax1 sv) (ax2 sv) (ax3 sv) x y w sn ef of_), (E2_ cell pos k Sl (ax1 sv) (ax2 sv) (ax3 sv) x y w sn ef of_).
    splits.
    + intros t phi. exact (genergy_total _ _ w dc sn ef of_ W Sp No).
    + intros phi. assert (X := wave_expansion cell pos k Sl (ax1 sv) (ax2 sv) (ax3 sv) x y w Pos sn ef of_ phi). apply expansion_expands.
      eapply expansion_coef; [exact X| |reflexivity|reflexivity]. destruct X as (h' & d & Hd & _ & _ & Hf). rewrite (Hf 0) by (rewrite Rabs_R0; exact Hd). ring.
    + apply wave_first.
    + rewrite Q. apply wave_second. exact Pos.
Qed.

Lemma tilted_unit Sv e1 e2 e3 z t : right_handed e1 e2 e3 -> 0 < Sv -> 2 * (fst z * fst z + snd z * snd z) * (t * t) <= Sv ->
  dot (tilted Sv e1 e2 e3 z t) (tilted Sv e1 e2 e3 z t) = 1.
Proof.
  intros (A & B & C & D) P H. destruct z as [z1 z2]; cbn [fst snd] in *.
  assert (E : dot e3 e3 = 1 /\ dot e3 e1 = 0 /\ dot e3 e2 = 0).
  { subst e3. splits.
    - transitivity (dot e1 e1 * dot e2 e2 - dot e1 e2 * dot e1 e2); [destruct e1, e2; unfold dot, cross; cbn; ring|]. rewrite A, B, C. ring.
    - destruct e1, e2; unfold dot, cross; cbn; ring.
    - destruct e1, e2; unfold dot, cross; cbn; ring. }
  destruct E as (E3 & E1 & E2). set (c := 2 * (z1 * z1 + z2 * z2) / Sv * (t * t)).
  assert (Hc : 0 <= 1 - c).
  { unfold c. assert (2 * (z1 * z1 + z2 * z2) / Sv * (t * t) <= 1); [|lra]. apply (Rmult_le_reg_r Sv); [exact P|].
    replace (2 * (z1 * z1 + z2 * z2) / Sv * (t * t) * Sv) with (2 * (z1 * z1 + z2 * z2) * (t * t)) by (field; lra). lra. }
  unfold tilted; cbn [fst snd]. fold c. set (g := sqrt (1 - c)). set (q := sqrt (2 / Sv)).
  assert (G : g * g = 1 - c) by (apply sqrt_sqrt, Hc).
  assert (Q : q * q = 2 / Sv) by (apply sqrt_sqrt; left; apply Rdiv_lt_0_compat; lra).
  transitivity (g * g * dot e3 e3 + 2 * g * (t * q) * (z1 * dot e3 e1 + z2 * dot e3 e2) + (t * t) * (q * q) * (z1 * z1 * dot e1 e1 + 2 * z1 * z2 * dot e1 e2 + z2 * z2 * dot e2 e2)).
  - destruct e1, e2, e3; unfold dot, vadd, vscale, vmap, vmap2; cbn. ring.
  - rewrite A, B, C, E1, E2, E3, G, Q. unfold c. field. lra.
Qed.
