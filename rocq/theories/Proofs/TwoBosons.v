(** Energies in closed form: two bosons, each paired with the conjugate of the other. *)
From Coq Require Import Reals Lra Lia.
From mathcomp Require Import all_ssreflect all_fingroup all_algebra complex.
From Coquelicot Require Import Complex.
From Verif.Base Require Import RealField.
From Verif.Model Require Import Colpa Solver Dispersion.
From Verif.Spec Require Import DispersionSpec RotationSpec ColpaSpec SpectrumSpec OmegaSpec TextbookSpec.
From Verif.Proofs Require Import ColpaProofs SpectrumProofs OmegaProofs OmegaSolver GoldstoneProofs ModesProofs.
Set Implicit Arguments.
Unset Strict Implicit.
Unset Printing Implicit Defensive.
Import GRing.Theory Num.Theory Order.TTheory.
Local Open Scope ring_scope.

Lemma det_two (T : comRingType) (M : 'M[T]_2) : \det M = M 0 0 * M 1 1 - M 0 1 * M 1 0.
Proof.
  rewrite (expand_det_row _ 0) big_ord_recl big_ord1 /cofactor !det_mx11 !mxE /= !expr0 mul1r /bump /= !expr1 mulN1r mulrN.
  by congr (_ * M _ _ - M _ _ * M _ _); apply: val_inj.
Qed.
Lemma two_roots (T : comRingType) (X u v : T) : (X - u) * (X - v) = X * X - X * (u + v) + u * v.
Proof. rewrite mulrBl !mulrBr opprB mulrDr opprD [u * X]mulrC -!addrA. congr (_ + _). by rewrite addrC -addrA addrC -addrA. Qed.

Lemma char_two (A : 'M[RC]_2) x y : x + y = A 0 0 + A 1 1 -> x * y = A 0 0 * A 1 1 - A 0 1 * A 1 0 ->
  char_poly A = ('X - x%:P) * ('X - y%:P).
Proof.
  move=> E1 E2. rewrite /char_poly det_two /char_poly_mx !mxE /= !mulr1n !mulr0n !sub0r mulrNN !two_roots -!polyCM -!polyCD E1 E2 polyCB.
  by rewrite -addrA.
Qed.

Lemma char_blocks (D : 'M[RC]_(2 + 2)) : ursubmx D = 0 -> char_poly D = char_poly (ulsubmx D) * char_poly (drsubmx D).
Proof.
  move=> H. rewrite /char_poly -[in LHS](submxK D) H /char_poly_mx scalar_mx_block map_block_mx opp_block_mx add_block_mx.
  by rewrite map_mx0 oppr0 addr0 det_lblock.
Qed.

Lemma char_perm n (D : 'M[RC]_n) (s : 'S_n) : char_poly (\matrix_(i, j) D (s i) (s j)) = char_poly D.
Proof.
  apply: (@similar_char_poly _ _ _ _ (perm_mx s)); first exact: unitmx_perm.
  have -> : (\matrix_(i, j) D (s i) (s j)) = row_perm s (col_perm s D) by apply/matrixP => i j; rewrite !mxE.
  rewrite row_permE col_permE -!mulmxA -perm_mxM mulVg perm_mx1 mulmx1. by [].
Qed.

Lemma bogoliubov_facts (a d : R) (b : C) : Rlt R0 a -> Rlt (Cmod b * Cmod b)%coqR (a * d)%coqR ->
  [/\ Rlt R0 (bogoliubov_energy a d b), Rlt R0 (bogoliubov_energy d a b), (bogoliubov_energy a d b - bogoliubov_energy d a b = a - d)%coqR &
      (bogoliubov_energy a d b * bogoliubov_energy d a b = a * d - Cmod b * Cmod b)%coqR].
Proof.
  move=> Ha Hb. have Pb : Rle R0 (Cmod b * Cmod b)%coqR by apply: Rmult_le_pos; apply: Cmod_ge_0.
  have Hd : Rlt R0 d by apply: (Rmult_lt_reg_l a) => //; lra.
  rewrite /bogoliubov_energy [(d + a)%coqR]Rplus_comm. set B := (Cmod b * Cmod b)%coqR in Hb Pb *. clearbody B.
  have S2 := Rle_0_sqr (a - d)%coqR. rewrite /Rsqr in S2. set r := sqrt _.
  have Pr : (r * r = (a + d) / 2 * ((a + d) / 2) - B)%coqR by apply: sqrt_sqrt; lra.
  have Rr : Rle R0 r by apply: sqrt_pos.
  have K : Rlt (Rabs ((a - d) / 2)) r.
    apply: Rsqr_incrst_0 => //; last by apply: Rabs_pos. rewrite -Rsqr_abs /Rsqr Pr. lra.
  have [K1 K2] := Rabs_def2 _ _ K. clearbody r. split; lra.
Qed.

Definition sparse (h : nat -> nat -> C) : Prop :=
  h 0%N 1%N = RtoC R0 /\ h 0%N 2%N = RtoC R0 /\ h 1%N 3%N = RtoC R0 /\ h 2%N 3%N = RtoC R0.

Definition swap13 : 'S_(2 + 2) := tperm (inord 1) (inord 3).
Lemma swap13E (i : 'I_(2 + 2)) : val (swap13 i) = if val i == 1%N then 3%N else if val i == 3%N then 1%N else val i.
Proof.
  rewrite /swap13. have I1 : val (inord 1 : 'I_(2 + 2)) = 1%N by rewrite /= inordK. have I3 : val (inord 3 : 'I_(2 + 2)) = 3%N by rewrite /= inordK.
  case: tpermP => [->|->|N1 N3]; rewrite ?I1 ?I3 //=.
  case: eqP => [E|_]; first by case: N1; apply: val_inj; rewrite I1. case: eqP => [E|_] //. by case: N3; apply: val_inj; rewrite I3.
Qed.

Section Two.
Variable h : nat -> nat -> C.
Hypothesis Hh : hermitian 4 h.
Hypothesis Sp : sparse h.
Lemma at_real p : (p < 4)%coq_nat -> h p p = RtoC (fst (h p p)).
Proof. move=> Hp. have := Hh Hp Hp. case: (h p p) => u v /=. rewrite /Cconj /RtoC /= => -[] Z. congr pair. lra. Qed.
Lemma zero_conj : Cconj (RtoC R0) = RtoC R0.
Proof. rewrite /Cconj /RtoC /=. congr pair. lra. Qed.

Lemma sparse_char (D := g RC 2 *m as_matrix 2 h) x1 y1 x2 y2 :
  (x1 - y1 = fst (h 0%N 0%N) - fst (h 3%N 3%N))%coqR -> (x1 * y1 = fst (h 0%N 0%N) * fst (h 3%N 3%N) - Cmod (h 0%N 3%N) * Cmod (h 0%N 3%N))%coqR ->
  (x2 - y2 = fst (h 1%N 1%N) - fst (h 2%N 2%N))%coqR -> (x2 * y2 = fst (h 1%N 1%N) * fst (h 2%N 2%N) - Cmod (h 1%N 2%N) * Cmod (h 1%N 2%N))%coqR ->
  char_poly D = ('X - (to_mc (RtoC x1))%:P) * ('X - (to_mc (RtoC (- y1)%coqR))%:P) * (('X - (to_mc (RtoC x2))%:P) * ('X - (to_mc (RtoC (- y2)%coqR))%:P)).
Proof.
  move=> E1 E2 E3 E4. rewrite -(char_perm D swap13). set D' := (\matrix_(i, j) _).
  pose f (p : nat) := if p == 1%N then 3%N else if p == 3%N then 1%N else p.
  have Dg i j : D' i j = (if (f (val i) < 2)%N then 1 else -1) * to_mc (h (f (val i)) (f (val j))).
    by rewrite mxE /D g_diag mul_diag_mx !mxE !swap13E.
  clearbody D'.
  have [Z1 [Z2 [Z3 Z4]]] := Sp.
  have Q b : (Cmod b * Cmod b = fst b * fst b + snd b * snd b)%coqR by rewrite /Cmod sqrt_sqrt; nra.
  have H30 : h 3%N 0%N = Cconj (h 0%N 3%N) by apply: Hh; lia. have H21 : h 2%N 1%N = Cconj (h 1%N 2%N) by apply: Hh; lia.
  have H32 : h 3%N 2%N = RtoC R0 by rewrite (Hh (p := 2%N) (q := 3%N)) ?Z4 ?zero_conj //; lia.
  have H31 : h 3%N 1%N = RtoC R0 by rewrite (Hh (p := 1%N) (q := 3%N)) ?Z3 ?zero_conj //; lia.
  have Z : to_mc (RtoC R0) = 0 by [].
  have Re p : (p < 4)%coq_nat -> to_mc (h p p) = to_mc (RtoC (fst (h p p))) by move=> Hp; rewrite {1}at_real.
  rewrite char_blocks; last first.
    apply/matrixP => i j. rewrite /ursubmx /rsubmx /usubmx !mxE Dg /f /=.
    case: i => -[|[|i]] Hi //; case: j => -[|[|j]] Hj //=; by rewrite ?Z1 ?Z2 ?H31 ?H32 Z mulr0.
  congr (_ * _).
  - apply: char_two; rewrite /ulsubmx /lsubmx /usubmx !mxE !Dg /f /= !mul1r !mulN1r ?H30 !Re; try lia; rewrite -?mc_opp -?mc_mul -?mc_opp -?mc_add; apply/f_equal.
    + apply: injective_projections => /=; lra.
    + apply: injective_projections => /=; rewrite ?Q in E2 *; lra.
  - rewrite mulrC. apply: char_two; rewrite /drsubmx /rsubmx /dsubmx !mxE !Dg /f /= !addn0 !mul1r !mulN1r ?H21 !Re; try lia; rewrite -?mc_opp -?mc_mul -?mc_opp -?mc_add; apply/f_equal.
    + apply: injective_projections => /=; lra.
    + apply: injective_projections => /=; rewrite ?Q in E4 *; lra.
Qed.
End Two.

Section Four.
Variables (T : comRingType) (a b c d : T).
Lemma four1 : a * b * (c * d) = c * a * b * d. Proof. by rewrite mulrA; congr (_ * _); rewrite mulrC mulrA. Qed.
Lemma four2 : a * b * (c * d) = c * a * d * b. Proof. by rewrite four1 mulrAC. Qed.
Lemma four3 : a * b * (c * d) = a * c * b * d. Proof. by rewrite mulrA; congr (_ * _); rewrite mulrAC. Qed.
Lemma four4 : a * b * (c * d) = a * c * d * b. Proof. by rewrite four3 mulrAC. Qed.
End Four.

Lemma sorted_energies np h z rI : numpy_works np -> DispersionSpec.positive_definite 4 h -> sparse h ->
  let e1 := bogoliubov_energy (fst (h 0 0)%N) (fst (h 3 3)%N) (h 0 3)%N in let e2 := bogoliubov_energy (fst (h 1 1)%N) (fst (h 2 2)%N) (h 1 2)%N in
  Rlt R0 (fst (h 0 0)%N) -> Rlt (Cmod (h 0 3)%N * Cmod (h 0 3)%N)%coqR (fst (h 0 0)%N * fst (h 3 3)%N)%coqR ->
  Rlt R0 (fst (h 1 1)%N) -> Rlt (Cmod (h 1 2)%N * Cmod (h 1 2)%N)%coqR (fst (h 1 1)%N * fst (h 2 2)%N)%coqR ->
  fst (omega (colpa_solver np 2) 2 h z false rI) = [:: chop (Num (RtoC (Rmax e1 e2))); chop (Num (RtoC (Rmin e1 e2)))].
Proof.
  move=> W Hd Sp e1 e2 A1 B1 A2 B2. have Pd : ColpaSpec.positive_definite (as_matrix 2 h) by apply/definite_matrix.
  have [h1 [h2 [h3 _]]] := W 2%N. case: (outcome_cases 2 h W) => [[_ [E [G [Hs Ho]]]]|[A _]] //.
  have [L [HE _ HS [V HV HL]]] := spectrum_facts h1 h2 h3 Hs. have [Hh _] := Hd.
  have [P1 Q1 S1 T1] := bogoliubov_facts A1 B1. have [P2 Q2 S2 T2] := bogoliubov_facts A2 B2.
  have Ch := sparse_char Hh Sp S1 T1 S2 T2. rewrite -/e1 -/e2 in P1 P2 S1 T1 S2 T2 Ch.
  set y1 := bogoliubov_energy _ _ _ in Q1 S1 T1 Ch. set y2 := bogoliubov_energy _ _ _ in Q2 S2 T2 Ch.
  pose m (x : R) : RC := to_mc (RtoC x).
  pose s := [:: m (Rmax e1 e2); m (Rmin e1 e2); m (- Rmin y1 y2)%coqR; m (- Rmax y1 y2)%coqR].
  pose L' : 'rV[RC]_(2 + 2) := \row_i s`_i.
  have Le x y : Rle x y -> m x <= m y by move=> H; rewrite lecE /= eqxx; apply/RlebP.
  have EL : L = L'.
    apply: descending_unique => // [i j|].
    - rewrite !mxE. have R1 := Rmax_l e1 e2. have R2 := Rmin_l e1 e2. have R3 := Rmin_r e1 e2. have R4 := Rmax_l y1 y2. have R5 := Rmin_l y1 y2. have R6 := Rmin_r y1 y2.
      have R7 := Rmin_glb_lt _ _ _ P1 P2. have R8 := Rmin_glb_lt _ _ _ Q1 Q2.
      case: i => -[|[|[|[|i]]]] Hi //; case: j => -[|[|[|[|j]]]] Hj //= _; apply: Le; lra.
    - rewrite -!char_poly_diag -(similar_char_poly HV HL) Ch char_poly_diag !big_ord_recr big_ord0 /= mul1r !mxE /=. rewrite /m /Rmax /Rmin.
      case: Rle_dec => _; case: Rle_dec => _; [exact: four1|exact: four2|exact: four3|exact: four4].
  have E0 : E 0 0 = m (Rmax e1 e2) by rewrite HE g_row EL !mxE mul1r.
  have E1 : E 0 (inord 1) = m (Rmin e1 e2) by rewrite HE g_row EL !mxE /= inordK //= mul1r.
  have [t El] : exists t, as_list E = [:: RtoC (Rmax e1 e2), RtoC (Rmin e1 e2) & t].
    rewrite /as_list. have -> : enum 'I_(2 + 2) = [:: 0; inord 1; inord 2; inord 3].
      apply: (inj_map val_inj). by rewrite val_enum_ord /= !inordK.
    rewrite /= E0 E1 !of_to. by eexists.
  rewrite /omega /attempts Ho /pos_result El. have Re x : real_part (chop (Num (RtoC x))) = chop (Num (RtoC x)) by rewrite /chop; case: Rle_dec.
  case: rI; cbn [fst snd List.map List.firstn]; by rewrite ?Re.
Qed.
