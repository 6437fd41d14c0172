(** Energies in closed form: two bosons that hop between each other, without pairing. *)
From Coq Require Import Reals Lra Lia.
From mathcomp Require Import all_ssreflect all_fingroup all_algebra complex.
From Coquelicot Require Import Complex.
From Verif.Base Require Import RealField.
From Verif.Model Require Import Colpa Solver Dispersion.
From Verif.Spec Require Import DispersionSpec RotationSpec ColpaSpec SpectrumSpec OmegaSpec TextbookSpec.
From Verif.Proofs Require Import ColpaProofs SpectrumProofs OmegaProofs OmegaSolver GoldstoneProofs ModesProofs TwoBosons.
Set Implicit Arguments.
Unset Strict Implicit.
Unset Printing Implicit Defensive.
Import GRing.Theory Num.Theory Order.TTheory.
Local Open Scope ring_scope.

Definition unpaired (h : nat -> nat -> C) : Prop :=
  h 0%N 2%N = RtoC R0 /\ h 0%N 3%N = RtoC R0 /\ h 1%N 2%N = RtoC R0 /\ h 1%N 3%N = RtoC R0.

Section Two.
Variable h : nat -> nat -> C.
Hypothesis Hh : hermitian 4 h.
Hypothesis Sp : unpaired h.

Lemma unpaired_char (D := g RC 2 *m as_matrix 2 h) x1 y1 x2 y2 :
  (x1 + y1 = fst (h 0%N 0%N) + fst (h 1%N 1%N))%coqR -> (x1 * y1 = fst (h 0%N 0%N) * fst (h 1%N 1%N) - Cmod (h 0%N 1%N) * Cmod (h 0%N 1%N))%coqR ->
  (x2 + y2 = fst (h 2%N 2%N) + fst (h 3%N 3%N))%coqR -> (x2 * y2 = fst (h 2%N 2%N) * fst (h 3%N 3%N) - Cmod (h 2%N 3%N) * Cmod (h 2%N 3%N))%coqR ->
  char_poly D = ('X - (to_mc (RtoC x1))%:P) * ('X - (to_mc (RtoC y1))%:P) * (('X - (to_mc (RtoC (- x2)%coqR))%:P) * ('X - (to_mc (RtoC (- y2)%coqR))%:P)).
Proof.
  move=> E1 E2 E3 E4.
  have Dg i j : D i j = (if (val i < 2)%N then 1 else -1) * to_mc (h (val i) (val j)).
    by rewrite /D g_diag mul_diag_mx !mxE.
  clearbody D.
  have [Z1 [Z2 [Z3 Z4]]] := Sp.
  have Q b : (Cmod b * Cmod b = fst b * fst b + snd b * snd b)%coqR by rewrite /Cmod sqrt_sqrt; nra.
  have H10 : h 1%N 0%N = Cconj (h 0%N 1%N) by apply: Hh; lia. have H32 : h 3%N 2%N = Cconj (h 2%N 3%N) by apply: Hh; lia.
  have Z : to_mc (RtoC R0) = 0 by [].
  have Re p : (p < 4)%coq_nat -> to_mc (h p p) = to_mc (RtoC (fst (h p p))) by move=> Hp; rewrite {1}(at_real Hh).
  have m12 : (1 %% 2)%N = 1%N by [].
  rewrite char_blocks; last first.
    apply/matrixP => i j. rewrite /ursubmx /rsubmx /usubmx !mxE Dg /=.
    case: i => -[|[|i]] Hi //; case: j => -[|[|j]] Hj //=; by rewrite ?Z1 ?Z2 ?Z3 ?Z4 Z mulr0.
  congr (_ * _).
  - apply: char_two; rewrite /ulsubmx /lsubmx /usubmx !mxE !Dg /= ?m12 !mul1r ?H10 !Re; try lia; rewrite -?mc_opp -?mc_mul -?mc_opp -?mc_add; apply/f_equal.
    + apply: injective_projections => /=; lra.
    + apply: injective_projections => /=; rewrite ?Q in E2 *; lra.
  - apply: char_two; rewrite /drsubmx /rsubmx /dsubmx !mxE !Dg /= ?m12 ?addn0 ?addn1 !mulN1r ?mulrNN ?H32 !Re; try lia; rewrite -?mc_mul -?mc_opp -?mc_opp -?mc_add; apply/f_equal.
    + apply: injective_projections => /=; lra.
    + apply: injective_projections => /=; rewrite ?Q in E4 *; lra.
Qed.
End Two.

(** Roots of a Hermitian two by two matrix with diagonal a, d and squared modulus B off the diagonal. *)
Lemma hop_roots (a d B : R) (r := sqrt ((a - d) / 2 * ((a - d) / 2) + B)%coqR) : Rlt R0 a -> Rle R0 B -> Rlt B (a * d)%coqR ->
  [/\ Rle R0 r, Rlt R0 ((a + d) / 2 - r)%coqR & (((a + d) / 2 + r) * ((a + d) / 2 - r) = a * d - B)%coqR].
Proof.
  move=> Ha Pb Hb. have Hd : Rlt R0 d by apply: (Rmult_lt_reg_l a) => //; lra.
  have S2 := Rle_0_sqr (a - d)%coqR. rewrite /Rsqr in S2.
  have Pr : (r * r = (a - d) / 2 * ((a - d) / 2) + B)%coqR by apply: sqrt_sqrt; lra.
  have Rr : Rle R0 r by apply: sqrt_pos.
  have K : Rlt r ((a + d) / 2)%coqR.
    apply: Rsqr_incrst_0 => //; last by lra. rewrite /Rsqr Pr. lra.
  clearbody r. split; lra.
Qed.

Lemma hopping_energies np h z rI (a d B : R) : numpy_works np -> DispersionSpec.positive_definite 4 h -> unpaired h ->
  Rlt R0 a -> Rlt B (a * d)%coqR ->
  fst (h 0 0)%N = a -> fst (h 1 1)%N = d -> fst (h 2 2)%N = a -> fst (h 3 3)%N = d ->
  (Cmod (h 0 1)%N * Cmod (h 0 1)%N)%coqR = B -> (Cmod (h 2 3)%N * Cmod (h 2 3)%N)%coqR = B ->
  let r := sqrt ((a - d) / 2 * ((a - d) / 2) + B)%coqR in
  fst (omega (colpa_solver np 2) 2 h z false rI) = [:: chop (Num (RtoC ((a + d) / 2 + r)%coqR)); chop (Num (RtoC ((a + d) / 2 - r)%coqR))].
Proof.
  move=> W Hd Sp Pa Pb A0 A1 A2 A3 B1 B2 r. have Pd : ColpaSpec.positive_definite (as_matrix 2 h) by apply/definite_matrix.
  have [h1 [h2 [h3 _]]] := W 2%N. case: (outcome_cases 2 h W) => [[_ [E [G [Hs Ho]]]]|[A _]] //.
  have [L [HE _ HS [V HV HL]]] := spectrum_facts h1 h2 h3 Hs. have [Hh _] := Hd.
  have B0 : Rle R0 B by rewrite -B1; apply: Rmult_le_pos; apply: Cmod_ge_0.
  have [R0' Rp Rm] := hop_roots Pa B0 Pb. rewrite -/r in R0' Rp Rm.
  set e1 := ((a + d) / 2 + r)%coqR in Rm *. set e2 := ((a + d) / 2 - r)%coqR in Rp Rm *.
  have Sm : (e1 + e2 = a + d)%coqR by rewrite /e1 /e2; lra. have Le21 : Rle e2 e1 by rewrite /e1 /e2; lra.
  have Ch := @unpaired_char h Hh Sp e1 e2 e2 e1. rewrite A0 A1 A2 A3 B1 B2 in Ch.
  have {Ch} Ch := Ch Sm Rm (etrans (Rplus_comm _ _) Sm) (etrans (Rmult_comm _ _) Rm).
  clearbody e1 e2.
  pose m (x : R) : RC := to_mc (RtoC x).
  pose s := [:: m e1; m e2; m (- e2)%coqR; m (- e1)%coqR].
  pose L' : 'rV[RC]_(2 + 2) := \row_i s`_i.
  have Le x y : Rle x y -> m x <= m y by move=> H; rewrite lecE /= eqxx; apply/RlebP.
  have EL : L = L'.
    apply: descending_unique => // [i j|].
    - rewrite !mxE. case: i => -[|[|[|[|i]]]] Hi //; case: j => -[|[|[|[|j]]]] Hj //= _; apply: Le; lra.
    - by rewrite -!char_poly_diag -(similar_char_poly HV HL) Ch char_poly_diag !big_ord_recr big_ord0 /= mul1r !mxE /= mulrA.
  have E0 : E 0 0 = m e1 by rewrite HE g_row EL !mxE mul1r.
  have E1 : E 0 (inord 1) = m e2 by rewrite HE g_row EL !mxE /= inordK //= mul1r.
  have [t El] : exists t, as_list E = [:: RtoC e1, RtoC e2 & t].
    rewrite /as_list. have -> : enum 'I_(2 + 2) = [:: 0; inord 1; inord 2; inord 3].
      apply: (inj_map val_inj). by rewrite val_enum_ord /= !inordK.
    rewrite /= E0 E1 !of_to. by eexists.
  rewrite /omega /attempts Ho /pos_result El. have Re x : real_part (chop (Num (RtoC x))) = chop (Num (RtoC x)) by rewrite /chop; case: Rle_dec.
  case: rI; cbn [fst snd List.map List.firstn]; by rewrite ?Re.
Qed.
