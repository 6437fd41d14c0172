(** Energies in closed form: multiples of the identity and one boson. *)
From Coq Require Import Reals Lra Lia.
From mathcomp Require Import all_ssreflect all_fingroup all_algebra complex.
From Coquelicot Require Import Complex.
From Verif.Base Require Import RealField.
From Verif.Model Require Import Colpa Solver Dispersion.
From Verif.Spec Require Import DispersionSpec RotationSpec ColpaSpec SpectrumSpec OmegaSpec TextbookSpec.
From Verif.Proofs Require Import ColpaProofs SpectrumProofs OmegaProofs OmegaSolver GoldstoneProofs.
Set Implicit Arguments.
Unset Strict Implicit.
Unset Printing Implicit Defensive.
Import GRing.Theory Num.Theory Order.TTheory.
Local Open Scope ring_scope.

(** ** Multiples of the identity *)
Lemma mc_gt0 (e : R) : (0 < to_mc (RtoC e)) = Rltb R0 e.
Proof. by rewrite ltcE /= eqxx. Qed.
Lemma scalar_energies N (cholesky : 'M[RC]_(N + N) -> option 'M[RC]_(N + N)) eig sort (e : RC) E G : cholesky_contract cholesky -> eig_contract eig -> sort_contract sort -> 0 < e ->
  solve_via_colpa cholesky eig sort (e%:M : 'M[RC]_(N + N)) = Solved E G -> forall i, E 0 i = e.
Proof.
  move=> h1 h2 h3 He Hs i. have [L [-> _ HS [V HV HL]]] := spectrum_facts h1 h2 h3 Hs.
  have Ed : g RC N *m e%:M = diag_mx (e *: sgn RC N) by rewrite scalar_mxC mul_scalar_mx g_diag -linearZ.
  have EL : L = e *: sgn RC N.
    apply: descending_unique => // [a b Hab|].
    - rewrite !mxE. apply: ler_wpmul2l; first exact: ltW. case: ltnP => Hb; first by rewrite (leq_ltn_trans Hab Hb).
      by case: ltnP => // _; apply: (@le_trans _ _ 0); rewrite ?oppr_le0 ?ler01.
    - by rewrite -!char_poly_diag -(similar_char_poly HV HL) Ed.
  have Ei : L 0 i = e * sgn RC N 0 i by rewrite EL mxE. by rewrite g_row Ei mulrCA sgn2 mulr1.
Qed.

Lemma rep_out N (rI : bool) (l : list num) y : l = List.repeat y (N + N)%N -> real_part (chop y) = chop y ->
  List.firstn N (if rI then List.map chop l else List.map real_part (List.map chop l)) = List.repeat (chop y) N.
Proof.
  move=> -> H. have K (x : num) : List.firstn N (List.repeat x (N + N)%N) = List.repeat x N.
    rewrite -plusE List.repeat_app List.firstn_app List.repeat_length PeanoNat.Nat.sub_diag List.app_nil_r. apply: List.firstn_all2. by rewrite List.repeat_length.
  by case: rI; rewrite !map_rep ?H K.
Qed.

Section Scalar.
Variables (np : numpy) (N : nat) (e : R).
Hypothesis W : numpy_works np.
Definition scalar (m : nat -> nat -> C) (x : R) : Prop := forall p q, (p < Nat.mul 2 N)%coq_nat -> (q < Nat.mul 2 N)%coq_nat -> m p q = if Nat.eqb p q then RtoC x else RtoC R0.
Lemma scalar_mx_of m x : scalar m x -> as_matrix N m = (to_mc (RtoC x))%:M.
Proof.
  move=> H. apply/matrixP => i j. rewrite !mxE H; try exact: ord2. case: PeanoNat.Nat.eqb_spec => X.
  - by rewrite (val_inj X) eqxx mulr1n.
  - case: eqP => [Y|_]; last by rewrite mulr0n. by case: X; rewrite Y.
Qed.
Lemma scalar_solved m x : (0 < N)%coq_nat -> scalar m x ->
  (Rlt R0 x /\ exists G, colpa_solver np N m = Some (List.repeat (RtoC x) (N + N)%N, G)) \/ (~ Rlt R0 x /\ colpa_solver np N m = None).
Proof.
  move=> HN Hm. have HM := scalar_mx_of Hm. have [h1 [h2 [h3 _]]] := W N.
  case: (outcome_cases N m W) => [[[_ P] [E [G [Hs ->]]]]|[NP ->]]; [left|right; split=> // Hx].
  - have Hx : Rlt R0 x.
      have Hn : (0 < N + N)%N by apply/ssrnat.ltP; rewrite -plusE; lia.
      pose c : 'cV[RC]_(N + N) := delta_mx (Ordinal Hn) 0.
      have Hc : c != 0. { apply/eqP => /matrixP /(_ (Ordinal Hn) 0) /eqP. rewrite !mxE !eqxx /=. by rewrite oner_eq0. }
      have := P c Hc. rewrite HM -mulmxA mul_scalar_mx -scalemxAr mxE (pmulr_lgt0 _ (pos_norm Hc)) mc_gt0. by move/RltbP.
    split=> //. exists (as_entries G). congr Some. congr pair. rewrite /as_list.
    have He : 0 < to_mc (RtoC x) by rewrite mc_gt0; apply/RltbP.
    move: Hs. rewrite HM => Hs. have K := scalar_energies h1 h2 h3 He Hs.
    rewrite (eq_map (f2 := fun _ => RtoC x)); last by move=> i; rewrite K of_to.
    transitivity (List.repeat (RtoC x) (size (enum 'I_(N + N)))); last by rewrite size_enum_ord.
    move: (enum _) => l. by elim: l => //= a l ->.
  - apply: NP. rewrite HM. split.
    + by apply/matrixP => i j; rewrite !mxE eq_sym; case: eqP => _; rewrite ?mulr1n ?mulr0n ?rmorph0 ?mc_realconj.
    + move=> c Hc. rewrite -mulmxA mul_scalar_mx -scalemxAr mxE. apply: mulr_gt0; last exact: pos_norm. by rewrite mc_gt0; apply/RltbP.
Qed.

Lemma scalar_omega h z rI : (0 < N)%coq_nat -> scalar h e -> fst (omega (colpa_solver np N) N h z false rI) = List.repeat (chop (Num (RtoC e))) N.
Proof.
  move=> HN Hh.
  have Hs x c m : scalar m x -> scalar (shift c m) (x + c)%coqR.
    move=> H p q Hp Hq. rewrite /shift. case: PeanoNat.Nat.eqb_spec => X.
    - subst q. rewrite H // PeanoNat.Nat.eqb_refl. by rewrite RtoC_plus.
    - rewrite H //. by case: PeanoNat.Nat.eqb_spec.
  have Ho x m : scalar m x -> scalar (mat_opp m) (- x)%coqR.
    move=> H p q Hp Hq. rewrite /mat_opp H //. case: PeanoNat.Nat.eqb_spec => X; first by rewrite RtoC_opp.
    rewrite /Copp /RtoC /=. congr pair; lra.
  have Re x : real_part (chop (Num (RtoC x))) = chop (Num (RtoC x)) by rewrite /chop; case: Rle_dec.
  have Pm : Rlt R0 mu by rewrite /mu; lra.
  have Zero x : Rle (Rabs x) mu -> chop (Num (RtoC x)) = Num (RtoC R0) by move=> H; rewrite /chop Cmod_R -/mu; case: Rle_dec.
  rewrite /omega /attempts -/mu.
  case: (scalar_solved HN Hh) => [[He [G ->]]|[He ->]].
    cbn [pos_result fst snd]. by apply: rep_out; rewrite ?map_rep.
  case: (scalar_solved HN (Hs _ mu _ Hh)) => [[Hm [G ->]]|[Hm ->]].
    cbn [pos_result fst snd]. rewrite (@rep_out N rI _ (Num (RtoC (e + mu)%coqR))) ?map_rep //. rewrite !Zero //; apply: Rabs_le; lra.
  case: (scalar_solved HN (Ho _ _ Hh)) => [[Hn [G ->]]|[Hn _]]; last by exfalso; lra.
  cbn [neg_result fst snd]. have E2 : num_opp (Num (RtoC (- e)%coqR)) = Num (RtoC e) by rewrite /num_opp -RtoC_opp Ropp_involutive.
  apply: rep_out => //. by rewrite map_rep E2.
Qed.
End Scalar.

(** ** One boson *)
Lemma det2 (M : 'M[RC]_(1 + 1)) : \det M = M 0 0 * M 1 1 - M 0 1 * M 1 0.
Proof.
  rewrite (expand_det_row _ 0) big_ord_recl big_ord1 /cofactor !det_mx11 !mxE /= !expr0 mul1r /bump /= !expr1 mulN1r mulrN.
  by congr (_ * M _ _ - M _ _ * M _ _); apply: val_inj.
Qed.

Lemma two_energies (D V : 'M[RC]_(1 + 1)) (L : 'rV[RC]_(1 + 1)) : V \in unitmx -> D *m V = V *m diag_mx L ->
  L 0 0 + L 0 1 = D 0 0 + D 1 1 /\ L 0 0 * L 0 1 = D 0 0 * D 1 1 - D 0 1 * D 1 0.
Proof.
  move=> HV H. have ED : D = V *m diag_mx L *m invmx V by rewrite -H -mulmxA mulmxV // mulmx1. split.
  - have T : \tr D = \tr (diag_mx L) by rewrite ED mxtrace_mulC mulmxA mulVmx // mul1mx.
    move: T. rewrite mxtrace_diag /mxtrace !big_ord_recl !big_ord0 !addr0 => T. have Z : fintype.lift ord0 (ord0 : 'I_1) = 1 :> 'I_2 by apply: val_inj.
    by move: T; rewrite !Z.
  - have T : \det D = \det (diag_mx L). { rewrite ED !det_mulmx det_inv mulrAC mulfV ?mul1r //. }
    rewrite -det2 T det_diag !big_ord_recl big_ord0 mulr1. by congr (_ * L _ _); apply: val_inj.
Qed.

Lemma one_boson np h z rI : numpy_works np -> DispersionSpec.positive_definite 2 h ->
  fst (omega (colpa_solver np 1) 1 h z false rI) = [:: chop (Num (RtoC (bogoliubov_energy (fst (h 0 0)%N) (fst (h 1 1)%N) (h 0 1)%N)))].
Proof.
  move=> W Hd. have Pd : ColpaSpec.positive_definite (as_matrix 1 h) by apply/definite_matrix.
  have [h1 [h2 [h3 _]]] := W 1%N. case: (outcome_cases 1 h W) => [[_ [E [G [Hs Ho]]]]|[A _]] //.
  have [P _] := colpa_energies h1 h2 h3 Hs. have [L [HE _ _ [V HV HL]]] := spectrum_facts h1 h2 h3 Hs.
  have [T1 T2] := two_energies HV HL.
  have EL0 : L 0 0 = E 0 0 by rewrite HE g_row !mxE mul1r.
  have EL1 : L 0 1 = - E 0 1 by rewrite HE g_row !mxE mulN1r opprK.
  have Real i : exists x, E 0 i = to_mc (RtoC x) /\ Rlt R0 x.
    have := P i. rewrite -[E 0 i]to_of => /mc_pos [A B]. exists (fst (of_mc (E 0 i))). split=> //. congr to_mc. by rewrite [LHS]surjective_pairing A.
  have [x [Ex Hx]] := Real 0. have [y [Ey Hy]] := Real 1.
  have Dg i j : (g RC 1 *m as_matrix 1 h) i j = sgn RC 1 0 i * to_mc (h i j) by rewrite g_diag mul_diag_mx !mxE.
  have [Hh _] := Hd. have H00 : h 0%N 0%N = RtoC (fst (h 0%N 0%N)). { have := Hh 0%N 0%N. case: (h 0 0)%N => u v /=. rewrite /Cconj /RtoC /= => /(_ ltac:(lia) ltac:(lia)) [] Z. congr pair. lra. }
  have H11 : h 1%N 1%N = RtoC (fst (h 1%N 1%N)). { have := Hh 1%N 1%N. case: (h 1 1)%N => u v /=. rewrite /Cconj /RtoC /= => /(_ ltac:(lia) ltac:(lia)) [] Z. congr pair. lra. }
  have H10 : h 1%N 0%N = Cconj (h 0%N 1%N) by apply: Hh; lia.
  set a := fst (h 0 0)%N in H00 *. set d := fst (h 1 1)%N in H11 *. set b := h 0%N 1%N in H10 *.
  have [R1 R2] : (x - y = a - d /\ x * y = a * d - Cmod b * Cmod b)%coqR.
    move: T1 T2. rewrite EL0 EL1 !Dg Ex Ey !mxE /= !mul1r !mulN1r H00 H11 H10 -/b -!mc_opp -!mc_mul -!mc_opp -!mc_add => /mc_inj T1 /mc_inj T2.
    have Q : (Cmod b * Cmod b = fst b * fst b + snd b * snd b)%coqR. { rewrite /Cmod sqrt_sqrt; nra. }
    split; first by move: (congr1 fst T1) => /=; lra.
    rewrite Q. move: (congr1 fst T2). rewrite /Cplus /Copp /Cmult /Cconj /RtoC /=. nra.
  have Eb : bogoliubov_energy a d b = x.
    rewrite /bogoliubov_energy. have -> : ((a + d) / 2 * ((a + d) / 2) - Cmod b * Cmod b = Rsqr ((x + y) / 2))%coqR.
      rewrite /Rsqr. have : (a = d + (x - y))%coqR by lra. have : (Cmod b * Cmod b = a * d - x * y)%coqR by lra. move=> -> ->. field.
    rewrite sqrt_Rsqr; last by lra. lra.
  have El : as_list E = [:: RtoC x; of_mc (E 0 1)].
    rewrite /as_list. have -> : enum 'I_(1 + 1) = [:: 0; 1]. { apply: (inj_map val_inj). by rewrite val_enum_ord. } by rewrite /= Ex of_to.
  rewrite /omega /attempts Ho /pos_result El Eb. have Re : real_part (chop (Num (RtoC x))) = chop (Num (RtoC x)) by rewrite /chop; case: Rle_dec.
  case: rI; cbn [fst snd List.map List.firstn]; by rewrite ?Re.
Qed.
