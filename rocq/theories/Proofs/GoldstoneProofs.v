(** A zero mode of the matrix is a zero among the energies that omega returns. *)
From Coq Require Import Reals Lra Lia.
From mathcomp Require Import all_ssreflect all_fingroup all_algebra complex.
From Coquelicot Require Import Complex.
From Verif.Base Require Import RealField.
From Verif.Model Require Import Colpa Solver Dispersion.
From Verif.Spec Require Import DispersionSpec RotationSpec ColpaSpec SpectrumSpec OmegaSpec.
From Verif.Proofs Require Import ColpaProofs SpectrumProofs OmegaProofs OmegaSolver.
Set Implicit Arguments.
Unset Strict Implicit.
Unset Printing Implicit Defensive.
Import GRing.Theory Num.Theory Order.TTheory.
Local Open Scope ring_scope.

Lemma mc_eps : 0 < to_mc (RtoC mu).
Proof. apply/mc_pos. rewrite /mu /=. split=> //. lra. Qed.

Lemma some_entry n (x : 'cV[RC]_n) : x != 0 -> exists i, x i 0 != 0.
Proof.
  move=> Hx. apply/existsP. apply: contraNT Hx. rewrite negb_exists => /forallP Z. apply/eqP/matrixP => i j. rewrite mxE ord1.
  by apply/eqP; rewrite -[_ == _]negbK.
Qed.

Lemma nth_firstn' A n i (l : list A) d : (i < n)%coq_nat -> List.nth i (List.firstn n l) d = List.nth i l d.
Proof. elim: n i l => [|n IH] [|i] [|x l] //= H; try lia. apply: IH. lia. Qed.
Lemma nth_as_list n (E : 'rV[RC]_n) (i : 'I_n) d : List.nth i (as_list E) d = of_mc (E 0 i).
Proof.
  have -> : forall (l : seq C) k, List.nth k l d = nth d l k by elim=> [|x l IH] [|k] //=; exact: IH.
  by rewrite /as_list (nth_map i) ?size_enum_ord // nth_ord_enum.
Qed.

Lemma in_real l : List.In (Num (RtoC R0)) l -> List.In (Num (RtoC R0)) (List.map real_part l).
Proof. exact: (List.in_map real_part). Qed.

Lemma map_rep A B (f : A -> B) x n : List.map f (List.repeat x n) = List.repeat (f x) n.
Proof. by elim: n => //= n ->. Qed.

Section Mode.
Variables (N : nat) (h : nat -> nat -> C) (c : 'cV[RC]_(N + N)).
Hypothesis Hc : c != 0.
Hypothesis Hlow : forall i : 'I_(N + N), (N <= i)%N -> c i 0 = 0.
Hypothesis Hz : as_matrix N h *m c = 0.

Lemma pos_norm : 0 < (dagger c *m c) 0 0.
Proof.
  have [i Hi] := some_entry Hc.
  have E : (dagger c *m c) 0 0 = \sum_j `|c j 0| ^+ 2 by rewrite mxE; apply: eq_bigr => j _; rewrite !mxE normCKC.
  rewrite E (bigD1 i) //=. apply: ltr_paddr; last by rewrite exprn_gt0 // normr_gt0.
  by apply: sumr_ge0 => j _; rewrite exprn_ge0.
Qed.
Lemma not_definite (m : nat -> nat -> C) (a : RC) : as_matrix N m *m c = a *: c -> ~~ (0 < a) -> ~ positive_definite (as_matrix N m).
Proof.
  move=> Hm Ha [_ /(_ _ Hc)]. rewrite -mulmxA Hm -scalemxAr mxE. by rewrite (pmulr_lgt0 _ pos_norm) (negbTE Ha).
Qed.
Lemma low_sign : g RC N *m c = c.
Proof.
  apply/matrixP => i j. rewrite g_diag mul_diag_mx !mxE ord1. case: (ltnP i N) => H; first by rewrite mul1r.
  by rewrite Hlow // mulr0.
Qed.
Lemma zero_energy np E G : numpy_works np -> solve_via_colpa (@np_cholesky np N) (@np_eig np N) (@np_sort np N) (as_matrix N (shift mu h)) = Solved E G ->
  exists i : 'I_(N + N), (i < N)%N /\ E 0 i = to_mc (RtoC mu).
Proof.
  move=> /(_ N) [h1 [h2 [h3 _]]] Hs. have [P _] := colpa_energies h1 h2 h3 Hs. have [L [HE _ _ [V HV HL]]] := spectrum_facts h1 h2 h3 Hs.
  set e := to_mc (RtoC mu) in HL *. set D := as_matrix N (shift mu h) in HL.
  have HD : g RC N *m D *m c = e *: c by rewrite -mulmxA /D mx_shift mulmxDl Hz add0r mul_scalar_mx -scalemxAr low_sign.
  pose y := invmx V *m c. have Hy : y != 0. { apply: contraNneq Hc => Z. by rewrite -[c]mul1mx -(mulmxV HV) -mulmxA -/y Z mulmx0. }
  have Ey : diag_mx L *m y = e *: y.
    have Ec : c = V *m y by rewrite /y mulmxA mulmxV // mul1mx.
    rewrite -[LHS]mul1mx -(mulVmx HV) -mulmxA [V *m _]mulmxA -HL -mulmxA -Ec HD -scalemxAr. by [].
  clearbody y. have [i Hi] := some_entry Hy.
  have Li : L 0 i = e. { move/matrixP: Ey => /(_ i 0). rewrite mul_diag_mx !mxE. exact: (mulIf Hi). }
  exists i. have := P i. rewrite HE g_row Li !mxE. case: (i < N)%N => H; first by rewrite mul1r.
  exfalso. move: H. rewrite mulN1r oppr_gt0 => H. by have := lt_trans H mc_eps; rewrite ltxx.
Qed.

Lemma omega_zero np z rG rI : numpy_works np -> List.In (Num (RtoC R0)) (fst (omega (colpa_solver np N) N h z rG rI)) \/
  (z = true /\ forall x, List.In x (fst (omega (colpa_solver np N) N h z rG rI)) -> x = NaN).
Proof.
  move=> W.
  have H1 : colpa_solver np N h = None. { case: (outcome_cases N h W) => [[A _]|[]] //. by case: (@not_definite h 0); rewrite ?scale0r ?ltxx. }
  have H3 : colpa_solver np N (mat_opp h) = None. { case: (outcome_cases N (mat_opp h) W) => [[A _]|[]] //. by case: (@not_definite (mat_opp h) 0); rewrite ?scale0r ?ltxx // mx_opp mulNmx Hz oppr0. }
  have H4 : colpa_solver np N (shift (- mu)%coqR (mat_opp h)) = None.
    case: (outcome_cases N (shift (- mu)%coqR (mat_opp h)) W) => [[A _]|[]] //. case: (@not_definite _ (- to_mc (RtoC mu)) _ _ A).
    - rewrite mx_shift mx_opp mulmxDl mulNmx Hz oppr0 add0r mul_scalar_mx. congr (_ *: _). rewrite -mc_opp. congr to_mc. rewrite /Copp /RtoC /=. congr pair. lra.
    - rewrite oppr_gt0. apply/negP => H. by have := lt_trans H mc_eps; rewrite ltxx.
  rewrite /omega /attempts -/mu H1 H3 H4.
  case: (outcome_cases N (shift mu h) W) => [[_ [E [G [Hs ->]]]]|[_ ->]].
  - have [i [Hi EE]] := zero_energy W Hs. rewrite /pos_result. cbn [fst].
    have I : List.In (Num (RtoC R0)) (List.firstn N (List.map chop (List.map Num (as_list E)))).
      have Hl : (i < List.length (as_list E))%coq_nat. { rewrite -[List.length _]/(size _) size_map size_enum_ord. exact/ssrnat.ltP/ltn_ord. }
      have -> : Num (RtoC R0) = List.nth i (List.firstn N (List.map chop (List.map Num (as_list E)))) NaN.
        rewrite nth_firstn'; last exact/ssrnat.ltP. rewrite -[NaN]/(chop NaN) List.map_nth (List.nth_indep _ NaN (Num (RtoC R0))); last by rewrite List.map_length.
        rewrite List.map_nth. have -> : List.nth i (as_list E) (RtoC R0) = RtoC mu by rewrite nth_as_list EE of_to.
        rewrite /chop Cmod_R -/mu Rabs_pos_eq; last by rewrite /mu; lra. case: Rle_dec => // X. by case: X; right.
      apply: List.nth_In. rewrite List.firstn_length (List.map_length chop) (List.map_length Num). move/ssrnat.ltP: Hi => Hi. by apply: PeanoNat.Nat.min_glb_lt.
    have I2 : List.In (Num (RtoC R0)) (List.map chop (List.map Num (as_list E))).
      rewrite -(List.firstn_skipn N (List.map _ _)). by apply: List.in_or_app; left.
    left. case: rI; case: rG; cbn [fst]; [exact: I2|exact: I|exact: in_real|by rewrite List.firstn_map; apply: in_real].
  - case: z.
      right. split=> // x. have K k y : List.In y (List.map real_part (List.map chop (List.repeat NaN k))) \/ List.In y (List.map chop (List.repeat NaN k)) -> y = NaN.
        rewrite !map_rep /= => -[] X; exact: (List.repeat_spec _ _ _ X).
      case: rI; case: rG; cbn [fst] => I; apply: (K (Nat.mul 2 N)); try (by left); try (by right).
      - right. by rewrite -(List.firstn_skipn N (List.map _ _)); apply: List.in_or_app; left.
      - left. by rewrite -(List.firstn_skipn N (List.map real_part _)); apply: List.in_or_app; left.
    left. have [i _] := some_entry Hc. have HN : (0 < N)%coq_nat. { have := ord2 i. lia. }
    have I : List.In (Num (RtoC R0)) (List.repeat (Num (RtoC R0)) N) by move: HN; clear; case: N => [|n] H; [lia|left].
    have I2 : List.In (Num (RtoC R0)) (List.map chop (List.repeat (Num (RtoC R0)) N)).
      have X := List.in_map chop _ _ I. have Y : chop (Num (RtoC R0)) = Num (RtoC R0) by rewrite /chop; case: Rle_dec. by rewrite Y in X.
    have I3 : List.firstn N (List.map chop (List.repeat (Num (RtoC R0)) N)) = List.map chop (List.repeat (Num (RtoC R0)) N).
      by apply: List.firstn_all2; rewrite List.map_length List.repeat_length.
    case: rI; case: rG; cbn [fst]; [exact: I2|by rewrite I3|exact: in_real|by rewrite List.firstn_map I3; apply: in_real].
Qed.
End Mode.

Lemma mode_omega np N h x z rG rI : numpy_works np ->
  (exists p, (p < N)%coq_nat /\ x p <> RtoC R0) -> (forall p, (N <= p)%coq_nat -> x p = RtoC R0) ->
  (forall p, (p < Nat.mul 2 N)%coq_nat -> mat_vec (Nat.mul 2 N) h x p = RtoC R0) ->
  List.In (Num (RtoC R0)) (fst (omega (colpa_solver np N) N h z rG rI)) \/
  (z = true /\ forall y, List.In y (fst (omega (colpa_solver np N) N h z rG rI)) -> y = NaN).
Proof.
  move=> W [p [Hp Hx]] Hl Hm. apply: (@omega_zero N h (column N x)) => //.
  - have Hp2 : (p < N + N)%N by apply/ssrnat.ltP; rewrite -plusE; lia.
    apply/eqP => /matrixP /(_ (Ordinal Hp2) 0). rewrite !mxE /= => Z. apply: Hx. apply: mc_inj. by rewrite Z.
  - move=> i /ssrnat.leP Hi. by rewrite mxE Hl.
  - apply/matrixP => i j. have := Hm i (ord2 i). rewrite double /mat_vec => /(congr1 to_mc). rewrite mc_sum mc_0 => E. rewrite !mxE -[RHS]E.
    apply: eq_bigr => k _. by rewrite !mxE mc_mul.
Qed.
