(** A two-atom ferromagnet with ferromagnetic bonds and an easy axis: the closed form holds at every k. *)
From Coq Require Import List Bool ZArith Reals Lra Lia Permutation Arith.
From Coquelicot Require Import Complex.
From Verif.Base Require Import Scalar ScalarR Linear3 PyDict.
From Verif.Model Require Import MatrixParam Hamiltonian History EnergyInit Energy Dispersion Solver.
From Verif.Spec Require Import HamSpec HistorySpec NotationSpec EnergySpec DispersionSpec SpinWaveSpec OmegaSpec TextbookSpec SublatticeSpec ParallelSpec.
From Verif.Proofs Require Import TextbookProofs SublatticeProofs ParallelProofs DispersionAxes DispersionGlue StableGlue EnergyInitProofs.
From Coq Require Import List.
Import ListNotations.
Local Open Scope R_scope.

Lemma sum_cons {A} (x : A) l f : sum_over (x :: l) f = f x + sum_over l f.
Proof. reflexivity. Qed.
Lemma sum_le {A} (l : list A) f g : (forall x, In x l -> f x <= g x) -> sum_over l f <= sum_over l g.
Proof.
  induction l as [|x l IH]; intros H; [right; reflexivity|]. rewrite !sum_cons. assert (A1 := H x (or_introl eq_refl)). assert (A2 := IH (fun y I => H y (or_intror I))). lra.
Qed.
Lemma sum_lt {A} (l : list A) f g : (forall x, In x l -> f x <= g x) -> (exists x, In x l /\ f x < g x) -> sum_over l f < sum_over l g.
Proof.
  induction l as [|x l IH]; intros H (y & I & L); [destruct I|]. rewrite !sum_cons. assert (A1 := H x (or_introl eq_refl)).
  assert (A2 := sum_le l f g (fun y I => H y (or_intror I))). destruct I as [->|I]; [lra|].
  assert (A3 := IH (fun y I => H y (or_intror I)) (ex_intro _ y (conj I L))). lra.
Qed.
Lemma sum_zero {A} (l : list A) : sum_over l (fun _ => 0) = 0.
Proof. induction l as [|x l IH]; [reflexivity|]. rewrite sum_cons, IH. ring. Qed.

Lemma phase_sum {A} (l : list A) (u v m : A -> R) : (forall x, In x l -> 0 <= m x /\ u x * u x + v x * v x <= m x * m x) ->
  Cmod (sum_over l u, sum_over l v) <= sum_over l m.
Proof.
  induction l as [|x l IH]; intros H.
  - cbn [sum_over fold_right]. unfold Cmod; cbn [fst snd]. replace (0 ^ 2 + 0 ^ 2) with 0 by ring. rewrite sqrt_0. right; reflexivity.
  - rewrite !sum_cons. assert (A2 := IH (fun y I => H y (or_intror I))). destruct (H x (or_introl eq_refl)) as [P Q].
    change (u x + sum_over l u, v x + sum_over l v) with (Cplus (u x, v x) (sum_over l u, sum_over l v)).
    eapply Rle_trans; [apply Cmod_triangle|]. apply Rplus_le_compat; [|exact A2].
    rewrite <- (sqrt_square (m x)) by exact P. unfold Cmod; cbn [fst snd]. apply sqrt_le_1_alt. nra.
Qed.

Section Stable.
Variables (w : @world R) (theta x z : bkey -> R) (a b : atom).
Hypothesis Dab : a <> b.
Hypothesis fx : forall k, In k (bonds w) -> x k <= 0.
Hypothesis fz : forall k, In k (bonds w) -> z k <= 0.
Hypothesis axis : exists k, In k (bonds w) /\ (joins a b k || joins b a k) = true /\ z k < 0.
Lemma not_both k : joins a b k = true -> joins b a k = true -> False.
Proof. unfold joins, same. destruct (eq_dec (b_from k) a), (eq_dec (b_from k) b); cbn; congruence. Qed.
Lemma structure_bound : Cmod (structure w theta x a b) < - sum_over (bonds w) (fun k => only (joins a b k || joins b a k) (x k + z k)).
Proof.
  apply Rle_lt_trans with (sum_over (bonds w) (fun k => only (joins a b k || joins b a k) (- x k))).
  - apply phase_sum. intros k I. assert (X := fx k I). assert (T := sin2_cos2 (theta k)). unfold Rsqr in T. assert (N := not_both k).
    destruct (joins a b k), (joins b a k); cbn [only orb]; try (exfalso; apply N; reflexivity); (split; [lra|]); [right|right|lra];
    transitivity (x k * x k * (sin (theta k) * sin (theta k) + cos (theta k) * cos (theta k))); (ring || (rewrite T; ring)).
  - replace (- sum_over (bonds w) (fun k => only (joins a b k || joins b a k) (x k + z k))) with (sum_over (bonds w) (fun k => only (joins a b k || joins b a k) (- x k - z k))).
    + apply sum_lt.
      * intros k I. assert (Z := fz k I). destruct (joins a b k || joins b a k); cbn [only]; lra.
      * destruct axis as (k & I & J & Z). exists k. rewrite J. cbn [only]. split; [exact I|lra].
    + clear fx fz axis. induction (bonds w) as [|k l IH]; [cbn; ring|]. rewrite !sum_cons, IH. destruct (joins a b k || joins b a k); cbn [only]; ring.
Qed.
Lemma own_bonds c : 0 <= sum_over (bonds w) (fun k => only (joins c c k) (x k * (cos (theta k) - 1) - z k)).
Proof.
  rewrite <- (sum_zero (bonds w)). apply sum_le. intros k I. assert (X := fx k I). assert (Z := fz k I). assert (T := COS_bound (theta k)). destruct (joins c c k); cbn [only]; nra.
Qed.
End Stable.
Lemma own_sites (w : @world R) (y : atom -> R) c : (forall e, In e (sites w) -> y e <= 0) -> sum_over (sites w) (fun e => only (same e c) (y e)) <= 0.
Proof.
  intros H. rewrite <- (sum_zero (sites w)). apply sum_le. intros e I. assert (Y := H e I). destruct (same e c); cbn [only]; lra.
Qed.

Lemma energy_bound (w : @world R) ef of_ theta x z y c d S sig sig' X : 0 < ef -> 0 < of_ -> 0 < S -> 0 < sig -> 0 < sig' ->
  (forall k, In k (bonds w) -> x k <= 0) -> (forall k, In k (bonds w) -> z k <= 0) -> (forall e, In e (sites w) -> y e <= 0) ->
  sum_over (bonds w) (fun k => only (joins c d k || joins d c k) (x k + z k)) = - X ->
  ef * (sig * sig') / S * X <= sublattice_energy w ef of_ theta x z y c d S sig (- sig').
Proof.
  intros P1 P2 P3 P4 P5 Fx Fz Fy E. unfold sublattice_energy. rewrite E. clear E.
  assert (B1 := own_bonds w theta x z Fx Fz c). assert (B2 := own_sites w y c Fy). match type of B1 with 0 <= ?u => set (U := u) in * end. match type of B2 with ?v <= 0 => set (V := v) in * end. clearbody U V.
  replace (sig / S * (ef * (2 * sig * U + - sig' * - X) - of_ * (2 * sig * V))) with (ef * (sig * sig') / S * X + sig / S * (ef * (2 * sig * U) - of_ * (2 * sig * V))) by (field; lra).
  assert (0 <= sig / S) by (left; apply Rdiv_lt_0_compat; assumption). assert (0 <= ef * (2 * sig * U)) by (repeat apply Rmult_le_pos; lra).
  assert (0 <= of_ * (2 * sig * - V)) by (repeat apply Rmult_le_pos; lra).
  assert (0 <= sig / S * (ef * (2 * sig * U) - of_ * (2 * sig * V))) by (apply Rmult_le_pos; lra). lra.
Qed.

Lemma stable_conditions (w : @world R) ef of_ theta x z y a b S S' sig sig' : a <> b -> 0 < ef -> 0 < of_ -> 0 < S -> 0 < S' -> 0 < sig -> 0 < sig' ->
  (forall k, In k (bonds w) -> x k <= 0) -> (forall k, In k (bonds w) -> z k <= 0) -> (forall e, In e (sites w) -> y e <= 0) ->
  (exists k, In k (bonds w) /\ (joins a b k || joins b a k) = true /\ z k < 0) ->
  let al := sublattice_energy w ef of_ theta x z y a b S sig (- sig') in
  let be := sublattice_energy w ef of_ theta x z y b a S' sig' (- sig) in
  let g := coupling w ef theta x a b S S' sig sig' in
  0 < al /\ g * g < al * be.
Proof.
  intros D P1 P2 P3 P3' P4 P5 Fx Fz Fy Ax al be g. assert (B := structure_bound w theta x z a b D Fx Fz Ax).
  set (X := - sum_over (bonds w) (fun k => only (joins a b k || joins b a k) (x k + z k))) in *.
  assert (E1 : sum_over (bonds w) (fun k => only (joins a b k || joins b a k) (x k + z k)) = - X) by (unfold X; ring).
  assert (E2 : sum_over (bonds w) (fun k => only (joins b a k || joins a b k) (x k + z k)) = - X).
  { rewrite <- E1. apply sum_ext. intros. rewrite orb_comm. reflexivity. }
  assert (B1 := energy_bound w ef of_ theta x z y a b S sig sig' X P1 P2 P3 P4 P5 Fx Fz Fy E1). assert (B2 := energy_bound w ef of_ theta x z y b a S' sig' sig X P1 P2 P3' P5 P4 Fx Fz Fy E2).
  fold al in B1. fold be in B2. assert (M := Cmod_ge_0 (structure w theta x a b)). assert (Px : 0 < X) by lra.
  set (m := ef * (sig * sig')). assert (Pm : 0 < m) by (unfold m; repeat apply Rmult_lt_0_compat; assumption).
  replace (ef * (sig' * sig)) with m in B2 by (unfold m; ring). fold m in B1.
  assert (Q1 : 0 < m / S * X) by (apply Rmult_lt_0_compat; [apply Rdiv_lt_0_compat|]; assumption). assert (Q2 : 0 < m / S' * X) by (apply Rmult_lt_0_compat; [apply Rdiv_lt_0_compat|]; assumption).
  split; [lra|]. apply Rlt_le_trans with (m / S * X * (m / S' * X)).
  - unfold g, coupling. fold m. assert (Ps : 0 < S * S') by nra. set (r := sqrt (S * S')). assert (Pr : 0 < r) by (apply sqrt_lt_R0, Ps). assert (Sr : r * r = S * S') by (apply sqrt_sqrt; lra).
    set (c := Cmod (structure w theta x a b)) in *.
    replace (m / r * c * (m / r * c)) with (m * m / (S * S') * (c * c)) by (rewrite <- Sr; field; lra).
    replace (m / S * X * (m / S' * X)) with (m * m / (S * S') * (X * X)) by (field; lra).
    apply Rmult_lt_compat_l; [apply Rdiv_lt_0_compat; nra|nra].
  - apply Rmult_le_compat; lra.
Qed.

Lemma easy_axis_ferromagnet : forall order cell pos sv (w w1 : @world R) D dc sn ef of_ a b sa sb np, numpy_works np ->
  wf w -> unshared w -> spins_defined w -> reciprocal_storage w dc -> notation_is w dc sn ef of_ -> 0 < ef -> 0 < of_ ->
  (forall l, Permutation (order l) l) -> a <> b -> carries w a -> carries w b -> (forall c, carries w c -> c = a \/ c = b) ->
  sv a = Some sa -> sv b = Some sb -> norm sa <> 0 -> norm sb <> 0 -> spin_of w a = Some (norm sa) -> spin_of w b = Some (norm sb) ->
  direction_of sb = direction_of sa -> (~ near_pole (direction_of sa) \/ direction_of sa = mkV 0 0 1 \/ direction_of sa = mkV 0 0 (-1)) ->
  dispersion_init order cell pos sv w = (w1, Ret D) ->
  forall x z y, (forall k J, bond_value w k = Some J -> J = madd (mscale (x k) mid) (mscale (z k) (projector (direction_of sa)))) ->
  (forall c A, onsite_value w c = Some A -> A = mscale (y c) (projector (direction_of sa))) ->
  (forall k, In k (bonds w) -> x k <= 0 /\ z k <= 0) -> (forall e, In e (sites w) -> y e <= 0) ->
  (exists k, In k (bonds w) /\ b_from k <> b_to k /\ z k < 0) ->
  forall k zeros_to_none return_imaginary,
    let theta c := dot k (displacement cell pos c) in
    let sg s := if sn then 1 else norm s in
    let al := sublattice_energy w ef of_ theta x z y a b (norm sa) (sg sa) (- sg sb) in
    let be := sublattice_energy w ef of_ theta x z y b a (norm sb) (sg sb) (- sg sa) in
    let g := coupling w ef theta x a b (norm sa) (norm sb) (sg sa) (sg sb) in
    fst (omega (colpa_solver np (d_N D)) (d_N D) (d_h (w_store w1) D k) zeros_to_none false return_imaginary) = map (fun e => chop (Num (RtoC e))) (optical_and_acoustic al be g)
    /\ forall e, In e (optical_and_acoustic al be g) -> 0 < e.
Proof.
  intros order cell pos sv w w1 D dc sn ef of_ a b sa sb np Np W U Sp St No Pe Po P Dab Ha Hb two Ea Eb Na Nb Hsa Hsb para pl H x z y exch site Fxz Fy Ax k zn ri theta sg al be g.
  assert (Posa := norm_pos sa Na). assert (Posb := norm_pos sb Nb).
  assert (Sa : 0 < sg sa) by (unfold sg; destruct sn; lra). assert (Sb : 0 < sg sb) by (unfold sg; destruct sn; lra).
  assert (Ax' : exists k, In k (bonds w) /\ (joins a b k || joins b a k) = true /\ z k < 0).
  { destruct Ax as (h & I & Dh & Zh). exists h. split; [exact I|]. split; [|exact Zh].
    assert (Cf : carries w (b_from h)) by (left; eauto). assert (Ct : carries w (b_to h)) by (left; eauto). unfold joins.
    destruct (two _ Cf) as [Ef|Ef], (two _ Ct) as [Et|Et]; rewrite Ef, Et in *; try contradiction; rewrite !same_refl; cbn [andb orb]; [reflexivity|apply orb_true_r]. }
  destruct (stable_conditions w ef of_ theta x z y a b (norm sa) (norm sb) (sg sa) (sg sb) Dab Pe Po Posa Posb Sa Sb (fun h I => proj1 (Fxz h I)) (fun h I => proj2 (Fxz h I)) Fy Ax') as [C1 C2].
  fold al be g in C1, C2. split.
  - eapply ferromagnet_two; eauto; lra.
  - assert (Pg : 0 <= g * g) by nra. assert (Pb : 0 < be) by (apply (Rmult_lt_reg_l al); lra).
    set (r := sqrt ((al - be) / 2 * ((al - be) / 2) + g * g)). assert (Pr : 0 <= r) by apply sqrt_pos.
    assert (Sr : r * r = (al - be) / 2 * ((al - be) / 2) + g * g) by (apply sqrt_sqrt; assert (Y := Rle_0_sqr ((al - be) / 2)); unfold Rsqr in Y; lra).
    assert (Lr : r < (al + be) / 2) by (apply Rsqr_incrst_0; [unfold Rsqr; lra|exact Pr|lra]).
    intros e [<-|[<-|[]]]; fold r; lra.
Qed.
