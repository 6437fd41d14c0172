(** Energies of a Hamiltonian with one magnetic atom, through construction, matrix and diagonalization. *)
From Coq Require Import List Bool ZArith Reals Lra Lia Permutation.
From Coquelicot Require Import Complex.
From Verif.Base Require Import Scalar ScalarR Linear3 PyDict.
From Verif.Model Require Import MatrixParam Hamiltonian History EnergyInit Energy Dispersion Solver.
From Verif.Spec Require Import HamSpec HistorySpec NotationSpec EnergySpec DispersionSpec SpinWaveSpec OmegaSpec TextbookSpec.
From Verif.Proofs Require Import HamBasics HistoryProofs HamDouble HamGlue FrameProofs CallProofs DispersionInit SpinWaveProofs TextbookProofs ModesProofs.
From Coq Require Import List.
Import ListNotations.
Local Open Scope R_scope.

Lemma two_definite (h : nat -> nat -> C) a d b : hermitian 2 h -> h 0%nat 0%nat = RtoC a -> h 1%nat 1%nat = RtoC d -> h 0%nat 1%nat = b ->
  0 < a -> Cmod b * Cmod b < a * d -> positive_definite 2 h.
Proof.
  intros He Ea Ed Eb Pa Pd. split; [exact He|]. intros x (p & Hp & Hx).
  assert (E10 := He 0%nat 1%nat ltac:(lia) ltac:(lia)). unfold quad, csum. rewrite E10, Ea, Ed, Eb.
  assert (Q : Cmod b * Cmod b = fst b * fst b + snd b * snd b) by (unfold Cmod; rewrite sqrt_sqrt; nra). rewrite Q in Pd. clear Q Ea Ed Eb E10 He.
  assert (Nz : fst (x 0%nat) * fst (x 0%nat) + snd (x 0%nat) * snd (x 0%nat) + (fst (x 1%nat) * fst (x 1%nat) + snd (x 1%nat) * snd (x 1%nat)) > 0).
  { assert (Z : forall z : C, z <> RtoC 0 -> fst z * fst z + snd z * snd z > 0).
    { intros [u v] N. cbn [fst snd]. destruct (Req_dec u 0); [|nra]. destruct (Req_dec v 0); [|nra]. subst. exfalso. apply N. reflexivity. }
    specialize (Z _ Hx). destruct p as [|[|p]]; [| |lia]; nra. }
  destruct (x 0%nat) as [x1 x2], (x 1%nat) as [y1 y2], b as [b1 b2]. unfold Cplus, Cmult, Cconj, RtoC; cbn [fst snd] in *.
  apply (Rmult_lt_reg_l a); [exact Pa|]. rewrite Rmult_0_r.
  match goal with |- 0 < a * ?q => assert (Id : a * q = (a * x1 + (b1 * y1 - b2 * y2)) * (a * x1 + (b1 * y1 - b2 * y2)) + (a * x2 + (b1 * y2 + b2 * y1)) * (a * x2 + (b1 * y2 + b2 * y1))
     + (a * d - (b1 * b1 + b2 * b2)) * (y1 * y1 + y2 * y2)) by ring end. rewrite Id. clear Id.
  set (c := a * d - (b1 * b1 + b2 * b2)). assert (Pc : 0 < c) by (unfold c; lra).
  destruct (Req_dec (y1 * y1 + y2 * y2) 0) as [Zy|Zy].
  - assert (y1 = 0) by (apply Rsqr_0_uniq; unfold Rsqr; nra). assert (y2 = 0) by (apply Rsqr_0_uniq; unfold Rsqr; nra). subst. assert (0 < a * a * (x1 * x1 + x2 * x2)) by (apply Rmult_lt_0_compat; nra). nra.
  - assert (0 < c * (y1 * y1 + y2 * y2)) by (apply Rmult_lt_0_compat; nra).
    assert (Sq : forall r : R, 0 <= r * r) by (intros; nra). assert (S1 := Sq (a * x1 + (b1 * y1 - b2 * y2))). assert (S2 := Sq (a * x2 + (b1 * y2 + b2 * y1))). lra.
Qed.

Section OneAtom.
Variables (order : list atom -> list atom) (cell : M3 R) (pos : atom -> V3 R) (sv : atom -> option (V3 R)) (w w1 : world) (D : dispersion)
  (dc sn : bool) (ef of_ : R) (a : atom) (s : V3 R) (np : numpy).
Hypothesis Np : numpy_works np.
Hypothesis W : wf w.
Hypothesis U : unshared w.
Hypothesis Sp : spins_defined w.
Hypothesis St : reciprocal_storage w dc.
Hypothesis O : symmetric_onsite w.
Hypothesis No : notation_is w dc sn ef of_.
Hypothesis Ne : ef <> 0.
Hypothesis Nf : of_ <> 0.
Hypothesis P : forall l, Permutation (order l) l.
Hypothesis Ha : carries w a.
Hypothesis only : forall b, carries w b -> b = a.
Hypothesis Es : sv a = Some s.
Hypothesis Hs : spin_of w a = Some (norm s).
Hypothesis H : dispersion_init order cell pos sv w = (w1, Ret D).

Let M := one_matrix order cell pos sv w w1 D dc sn ef of_ a s W U Sp St O No Ne Nf P Ha only Es Hs H.
Let Q := one_quad order cell pos sv w w1 D dc sn ef of_ a s W U Sp St O No Ne Nf P Ha only Es Hs H.

Lemma one_axes : right_handed (ax1 sv a) (ax2 sv a) (ax3 sv a) /\
  (~ near_pole (direction_of s) \/ direction_of s = mkV 0 0 1 \/ direction_of s = mkV 0 0 (-1) -> ax3 sv a = direction_of s).
Proof.
  destruct (axes_true s (proj1 (proj2 Q))) as (e1 & e2 & e3 & E & Rh & T). unfold ax1, ax2, ax3, axes_of. rewrite Es, E. cbn [fst snd]. auto.
Qed.

Lemma one_atom_energies : d_N D = 1%nat /\ exists e1 e2 e3 : V3 R, right_handed e1 e2 e3 /\
  (~ near_pole (direction_of s) \/ direction_of s = mkV 0 0 1 \/ direction_of s = mkV 0 0 (-1) -> e3 = direction_of s) /\
  forall k zeros_to_none return_imaginary,
    let theta b := dot k (displacement cell pos b) in
    let sig := if sn then 1 else norm s in
    let here := normal_part w ef of_ sig (norm s) theta e1 e2 e3 in
    let there := normal_part w ef of_ sig (norm s) (fun b => - theta b) e1 e2 e3 in
    let pairs := pair_part w ef of_ sig (norm s) theta e1 e2 in
    0 < here -> Cmod pairs * Cmod pairs < here * there ->
    fst (omega (colpa_solver np (d_N D)) (d_N D) (d_h (w_store w1) D k) zeros_to_none false return_imaginary) =
    [chop (Num (RtoC (bogoliubov_energy here there pairs)))].
Proof.
  destruct Q as (N1 & _). split; [exact N1|]. exists (ax1 sv a), (ax2 sv a), (ax3 sv a). destruct one_axes as [R1 R2]. split; [exact R1|]. split; [exact R2|].
  intros k z rI theta sig here there pairs Hp Hd. rewrite N1. destruct (M k) as (He & E0 & E1 & E2).
  rewrite (one_boson z rI Np (two_definite _ here there pairs He E0 E1 E2 Hp Hd)). rewrite E0, E1, E2. reflexivity.
Qed.

Variable x : bkey -> R.
Hypothesis iso : forall b J, bond_value w b = Some J -> J = mscale (x b) mid.
Hypothesis no_site : forall c, onsite_value w c = None.
Lemma one_ferromagnet : forall k zeros_to_none return_imaginary,
  fst (omega (colpa_solver np (d_N D)) (d_N D) (d_h (w_store w1) D k) zeros_to_none false return_imaginary) =
  [chop (Num (RtoC (ferromagnet_energy w ef (if sn then 1 else norm s) (norm s) (fun b => dot k (displacement cell pos b)) x)))].
Proof.
  intros k z rI. destruct Q as (N1 & Hn & _). destruct (M k) as (He & E0 & E1 & E2). rewrite N1. assert (Ax := one_axes). clear Q M.
  assert (Ns : sites w = []).
  { destruct (sites w) as [|c l] eqn:Ec; [reflexivity|]. exfalso. assert (I : In c (sites w)) by (rewrite Ec; left; reflexivity).
    apply (onsite_value_stored w c W) in I as [A EA]. rewrite no_site in EA. discriminate. }
  destruct Ax as [(A1 & A2 & A3 & A4) _].
  assert (A5 : dot (ax3 sv a) (ax3 sv a) = 1).
  { rewrite <- A4. transitivity (dot (ax1 sv a) (ax1 sv a) * dot (ax2 sv a) (ax2 sv a) - dot (ax1 sv a) (ax2 sv a) * dot (ax1 sv a) (ax2 sv a)).
    - destruct (ax1 sv a), (ax2 sv a); unfold dot, cross; cbn; ring.
    - rewrite A1, A2, A3. ring. }
  assert (Bt : forall c u v, between u (mscale c mid) v = c * dot u v).
  { intros c [] []. unfold between, dot, mvec, mscale, mmap, mid, mrow1, mrow2, mrow3, dot; cbn. ring. }
  assert (A6 : dot (ax2 sv a) (ax1 sv a) = 0) by (rewrite <- A3; destruct (ax1 sv a), (ax2 sv a); unfold dot; cbn; ring).
  assert (Jv : forall b, In b (bonds w) -> stored (bond_value w b) = mscale (x b) mid).
  { intros b I. apply (bond_value_stored w b W) in I as [J EJ]. rewrite EJ. exact (iso b J EJ). }
  set (th := fun b => dot k (displacement cell pos b)) in *. set (sig := if sn then 1 else norm s) in *.
  assert (Nm : forall t : bkey -> R, normal_part w ef of_ sig (norm s) t (ax1 sv a) (ax2 sv a) (ax3 sv a) = ferromagnet_energy w ef sig (norm s) t x).
  { intros t. unfold normal_part, ferromagnet_energy. rewrite Ns.
    rewrite (sum_ext (bonds w) _ (fun b => 2 * (x b * (cos (t b) - 1)) + 0 * 0)).
    2:{ intros b I. unfold diagonal. rewrite (Jv b I), !Bt, A1, A2, A3, A5, A6. ring. }
    rewrite sum_lin with (g := fun _ => 0). cbn [sum_over fold_right]. field. exact Hn. }
  rewrite Nm in E0, E1.
  assert (Ev : ferromagnet_energy w ef sig (norm s) (fun b => - th b) x = ferromagnet_energy w ef sig (norm s) th x).
  { unfold ferromagnet_energy. f_equal. apply sum_ext. intros b _. rewrite cos_neg. reflexivity. }
  assert (E1' := eq_trans E1 (f_equal RtoC Ev)). clear E1.
  assert (Z : pair_part w ef of_ sig (norm s) th (ax1 sv a) (ax2 sv a) = RtoC 0).
  { assert (T : forall f : M3 R -> R, (forall c, f (mscale c mid) = 0) -> pair_term w ef of_ sig (norm s) th f = 0).
    { intros f Hf. unfold pair_term. rewrite Ns. rewrite (sum_ext (bonds w) _ (fun b => 0 * 0 + 0 * 0)).
      2:{ intros b I. rewrite (Jv b I), Hf. ring. }
      rewrite sum_lin with (f := fun _ => 0) (g := fun _ => 0). cbn [sum_over fold_right]. ring. }
    unfold pair_part. rewrite !T; [reflexivity|intros c; rewrite !Bt, A3, A6; ring|intros c; rewrite !Bt, A1, A2; ring]. }
  assert (E2' := eq_trans E2 Z). clear E2. assert (E3 := He 0%nat 1%nat ltac:(lia) ltac:(lia)). rewrite E2' in E3.
  rewrite (scalar_omega Np (e := ferromagnet_energy w ef sig (norm s) th x)); [reflexivity|lia|].
  intros p q Hp Hq. destruct p as [|[|p]]; [| |lia]; (destruct q as [|[|q]]; [| |lia]); cbn [Nat.eqb]; try assumption.
  rewrite E3. unfold Cconj, RtoC; cbn. f_equal. ring.
Qed.
End OneAtom.
