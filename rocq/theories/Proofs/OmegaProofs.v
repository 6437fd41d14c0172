(** The energies returned by omega for matrices that describe the same bosons. *)
From Coq Require Import Reals Lra Lia.
From mathcomp Require Import all_ssreflect all_fingroup all_algebra complex.
From Coquelicot Require Import Complex.
From Verif.Base Require Import RealField.
From Verif.Model Require Import Colpa Solver Dispersion.
From Verif.Spec Require Import DispersionSpec RotationSpec ColpaSpec SpectrumSpec OmegaSpec.
From Verif.Proofs Require Import ColpaProofs SpectrumProofs.
Set Implicit Arguments.
Unset Strict Implicit.
Unset Printing Implicit Defensive.
Import GRing.Theory Num.Theory Order.TTheory.

Delimit Scope R_scope with coqR.
(** ** Complex numbers *)
Lemma mc_add a b : to_mc (Cplus a b) = (to_mc a + to_mc b)%R. Proof. by []. Qed.
Lemma mc_opp a : to_mc (Copp a) = (- to_mc a)%R. Proof. by []. Qed.
Lemma mc_mul a b : to_mc (Cmult a b) = (to_mc a * to_mc b)%R. Proof. by []. Qed.
Lemma mc_conj a : to_mc (Cconj a) = ((to_mc a)^*)%R. Proof. by []. Qed.
Lemma mc_0 : to_mc (RtoC 0%coqR) = 0%R. Proof. by []. Qed.
Lemma mc_1 : to_mc (RtoC 1%coqR) = 1%R. Proof. by []. Qed.
Lemma of_to z : of_mc (to_mc z) = z. Proof. by case: z. Qed.
Lemma to_of z : to_mc (of_mc z) = z. Proof. by case: z. Qed.
Lemma mc_unit z : Cmod z = 1%coqR -> (to_mc z * (to_mc z)^* = 1)%R.
Proof.
  move=> H. rewrite -mc_conj -mc_mul -mc_1. congr to_mc. case: z H => x y. rewrite /Cmod /= => H.
  have X : (x * (x * 1) + y * (y * 1) = 1)%coqR. { rewrite -[LHS]sqrt_sqrt; last by nra. rewrite H. lra. }
  rewrite /Cmult /Cconj /RtoC /=. congr pair; nra.
Qed.
Lemma mc_realconj (c : R) : ((to_mc (RtoC c))^* = to_mc (RtoC c))%R.
Proof. rewrite -mc_conj. congr to_mc. rewrite /Cconj /RtoC /=. congr pair. lra. Qed.

Local Open Scope ring_scope.
(** ** Solvers *)
Section Same.
Variables (np np' : numpy) (N : nat).
Hypothesis Hnp : numpy_works np.
Hypothesis Hnp' : numpy_works np'.
Lemma outcome_cases (q : numpy) (h : nat -> nat -> C) : numpy_works q ->
  (positive_definite (as_matrix N h) /\ exists E G, solve_via_colpa (@np_cholesky q N) (@np_eig q N) (@np_sort q N) (as_matrix N h) = Solved E G /\
     colpa_solver q N h = Some (as_list E, as_entries G)) \/
  (~ positive_definite (as_matrix N h) /\ colpa_solver q N h = None).
Proof.
  move=> /(_ N) [h1 [h2 [h3 [h4 h5]]]]. have F := colpa_failed (@np_eig q N) (@np_sort q N) h1 (h4 (as_matrix N h)).
  rewrite /colpa_solver. case Es: (solve_via_colpa _ _ _ _) => [E G| |].
  - left. split; last by exists E, G. exact: (colpa_definite h1 h2 h3 Es).
  - right. split=> //. by apply/F.
  - exfalso. move: Es. rewrite /solve_via_colpa. case Ec: (np_cholesky _) => [Lc|] //. case Ee: (np_eig _) => [[L U]|] //.
    move=> _. apply: (h5 _ _ Ee). by rewrite dagger_adj M_herm.
Qed.

Lemma same_energies h h' : (positive_definite (as_matrix N h') <-> positive_definite (as_matrix N h)) ->
  char_poly (signature RC N *m as_matrix N h') = char_poly (signature RC N *m as_matrix N h) ->
  option_map fst (colpa_solver np' N h') = option_map fst (colpa_solver np N h).
Proof.
  move=> P X. case: (outcome_cases h Hnp) => [[A [E [G [S ->]]]]|[A ->]]; case: (outcome_cases h' Hnp') => [[A' [E' [G' [S' ->]]]]|[A' ->]] //=.
  - have [h1 [h2 [h3 _]]] := Hnp N. have [h1' [h2' [h3' _]]] := Hnp' N.
    by rewrite (colpa_unique h1 h2 h3 h1' h2' h3' S S' X).
  - by case: A'; apply/P.
  - by case: A; apply/P.
Qed.
End Same.

(** ** The attempts of omega *)
Definition turn_list {A} (rv : bool) (l : list A) : list A := if rv then List.rev l else l.
Lemma turn_map A B (f : A -> B) rv l : List.map f (turn_list rv l) = turn_list rv (List.map f l).
Proof. case: rv => //=. by rewrite List.map_rev. Qed.
Lemma rev_repeat A (x : A) n : List.rev (List.repeat x n) = List.repeat x n.
Proof.
  elim: n => //= n IH. rewrite IH. clear IH. elim: n => //= n IH. by rewrite IH.
Qed.
Definition mu : R := (/ 10 ^ 8)%coqR.
Lemma attempts_same (s s' : mat -> option (list C * mat)) rv N h h' z :
  option_map fst (s' h') = option_map (fun r => turn_list rv (fst r)) (s h) ->
  option_map fst (s' (shift mu h')) = option_map (fun r => turn_list rv (fst r)) (s (shift mu h)) ->
  option_map fst (s' (mat_opp h')) = option_map (fun r => turn_list rv (fst r)) (s (mat_opp h)) ->
  option_map fst (s' (shift (- mu)%coqR (mat_opp h'))) = option_map (fun r => turn_list rv (fst r)) (s (shift (- mu)%coqR (mat_opp h))) ->
  fst (attempts s' N h' z) = turn_list rv (fst (attempts s N h z)).
Proof.
  rewrite /attempts -/mu. case: (s h) (s' h') => [r|] [r'|] //= H1; first by case: H1 => ->; rewrite turn_map.
  case: (s (shift mu h)) (s' (shift mu h')) => [r|] [r'|] //= H2; first by case: H2 => ->; rewrite turn_map.
  case: (s (mat_opp h)) (s' (mat_opp h')) => [r|] [r'|] //= H3; first by case: H3 => ->; rewrite turn_map.
  case: (s (shift _ _)) (s' (shift _ _)) => [r|] [r'|] //= H4; first by case: H4 => ->; rewrite turn_map.
  by case: z; case: rv => //=; rewrite -/(List.repeat) ?rev_repeat.
Qed.
Lemma omega_turn (s s' : mat -> option (list C * mat)) rv N h h' z rG rI : (rv = true -> rG = true) -> fst (attempts s' N h' z) = turn_list rv (fst (attempts s N h z)) ->
  fst (omega s' N h' z rG rI) = turn_list rv (fst (omega s N h z rG rI)).
Proof.
  move=> Hr. rewrite /omega. case: (attempts s N h z) => om G. case: (attempts s' N h' z) => om' G' /= ->.
  case: rG Hr => Hr /=.
  - by case: rI; rewrite ?turn_map.
  - have -> : rv = false by case: rv Hr => // /(_ erefl). by case: rI.
Qed.

(** ** The matrices of the attempts *)
Lemma mx_shift N c h : as_matrix N (shift c h) = as_matrix N h + (to_mc (RtoC c))%:M.
Proof.
  apply/matrixP => i j. rewrite !mxE /shift. case: (boolP (i == j)) => [/eqP <-|Hn].
  - by rewrite PeanoNat.Nat.eqb_refl mulr1n.
  - rewrite mulr0n addr0. case: PeanoNat.Nat.eqb_spec => // X. by case/eqP: Hn; apply: val_inj.
Qed.
Lemma mx_opp N h : as_matrix N (mat_opp h) = - as_matrix N h.
Proof. by apply/matrixP => i j; rewrite !mxE. Qed.

Lemma omega_same np np' N h h' (T : 'M[RC]_(N + N)) z rG rI : numpy_works np -> numpy_works np' -> para_unitary T -> dagger T *m T = 1%:M ->
  as_matrix N h' = dagger T *m as_matrix N h *m T ->
  fst (omega (colpa_solver np' N) N h' z rG rI) = fst (omega (colpa_solver np N) N h z rG rI).
Proof.
  move=> W W' HT HU Hm. apply: (@omega_turn _ _ false) => //.
  have K (v v' : mat) : as_matrix N v' = dagger T *m as_matrix N v *m T -> option_map fst (colpa_solver np' N v') = option_map (fun r => turn_list false (fst r)) (colpa_solver np N v).
    move=> H. apply: (same_energies W W'); rewrite H; [exact: canonical_definite|exact: canonical_spectrum].
  have Hs c (v v' : mat) : as_matrix N v' = dagger T *m as_matrix N v *m T -> as_matrix N (shift c v') = dagger T *m as_matrix N (shift c v) *m T.
    move=> H. rewrite !mx_shift H mulmxDr mulmxDl. congr (_ + _). by rewrite scalar_mxC -mulmxA HU mulmx1.
  have Ho : as_matrix N (mat_opp h') = dagger T *m as_matrix N (mat_opp h) *m T by rewrite !mx_opp Hm mulmxN mulNmx.
  apply: attempts_same; apply: K => //; by apply: Hs.
Qed.

(** ** Phases *)
Lemma ord2 N (i : 'I_(N + N)) : (i < Nat.mul 2 N)%coq_nat.
Proof. have := ltn_ord i. move: (nat_of_ord i) => x /ssrnat.ltP. rewrite -plusE. lia. Qed.
Lemma mod_conj z : Cmod (Cconj z) = Cmod z.
Proof. case: z => x y. rewrite /Cmod /Cconj /=. congr sqrt. nra. Qed.
Section Phases.
Variables (N : nat) (tau : nat -> C).
Hypothesis Htau : forall i, (i < Nat.mul 2 N)%coq_nat -> Cmod (tau i) = 1%coqR.
Definition phase_row : 'rV[RC]_(N + N) := \row_i ((to_mc (tau i))^*).
Lemma phase_unit (i : 'I_(N + N)) : (phase_row 0 i)^* * phase_row 0 i = 1.
Proof. rewrite mxE conjCK. apply: mc_unit. apply: Htau. exact: ord2. Qed.
Let T := diag_mx phase_row.
Lemma dagger_T : dagger T = diag_mx (map_mx conjC phase_row).
Proof. by apply/matrixP => i j; rewrite !mxE eq_sym; case: eqP => [->|_]; rewrite ?mulr1n // !mulr0n rmorph0. Qed.
Lemma T_unitary : dagger T *m T = 1%:M.
Proof. rewrite dagger_T mulmx_diag -diag_const_mx. congr diag_mx. apply/rowP => i. rewrite mxE mxE phase_unit. by rewrite mxE. Qed.
Lemma T_para : para_unitary T.
Proof.
  rewrite /para_unitary -g_signature g_diag dagger_T !mulmx_diag. congr diag_mx. apply/rowP => i. rewrite mxE [in LHS]mxE [(map_mx _ _) 0 i]mxE.
  by rewrite mulrAC [phase_row 0 i * _]mulrC phase_unit mul1r.
Qed.
Lemma units_omega np np' h h' z rG rI : numpy_works np -> numpy_works np' ->
  (forall p q, (p < Nat.mul 2 N)%coq_nat -> (q < Nat.mul 2 N)%coq_nat -> h' p q = Cmult (Cmult (tau p) (h p q)) (Cconj (tau q))) ->
  fst (omega (colpa_solver np' N) N h' z rG rI) = fst (omega (colpa_solver np N) N h z rG rI).
Proof.
  move=> W W' H. apply: (omega_same z rG rI W W' T_para T_unitary). apply/matrixP => i j.
  rewrite dagger_T mul_diag_mx mul_mx_diag !mxE conjCK -mc_conj -!mc_mul -H //; exact: ord2.
Qed.
End Phases.

Lemma phases_omega N phi (Hphi : forall i, (i < N)%coq_nat -> Cmod (phi i) = 1%coqR) np np' h h' z rG rI : numpy_works np -> numpy_works np' ->
  (forall p q, (p < Nat.mul 2 N)%coq_nat -> (q < Nat.mul 2 N)%coq_nat -> h' p q = Cmult (Cmult (phases N phi p) (h p q)) (Cconj (phases N phi q))) ->
  fst (omega (colpa_solver np' N) N h' z rG rI) = fst (omega (colpa_solver np N) N h z rG rI).
Proof.
  move=> W W' H. apply: (@units_omega N (phases N phi) _ np np') => // i Hi. rewrite /phases. case: PeanoNat.Nat.ltb_spec => X; first exact: Hphi.
  rewrite mod_conj. apply: Hphi. lia.
Qed.

Lemma equal_omega np np' N h h' z rG rI : numpy_works np -> numpy_works np' ->
  (forall p q, (p < Nat.mul 2 N)%coq_nat -> (q < Nat.mul 2 N)%coq_nat -> h' p q = h p q) ->
  fst (omega (colpa_solver np' N) N h' z rG rI) = fst (omega (colpa_solver np N) N h z rG rI).
Proof.
  move=> W W' H. apply: (@phases_omega N (fun _ => RtoC 1%coqR)) => //; first by move=> i _; rewrite Cmod_1.
  move=> p q Hp Hq. rewrite H //. have Hr : forall r, phases N (fun _ => RtoC 1%coqR) r = RtoC 1%coqR.
    move=> r. rewrite /phases. case: PeanoNat.Nat.ltb => //. rewrite /Cconj /RtoC /=. congr pair. lra.
  rewrite !Hr Cmult_1_l. have -> : Cconj (RtoC 1%coqR) = RtoC 1%coqR by rewrite /Cconj /RtoC /=; congr pair; lra.
  by rewrite Cmult_1_r.
Qed.

(** ** Opposite wave vectors *)
Lemma hole_invol N (D : 'M[RC]_(N + N)) : particle_hole (particle_hole D) = D.
Proof. by apply/matrixP => i j; rewrite !mxE conjCK !exchanged_inv. Qed.
Lemma hole_definite_ N (D : 'M[RC]_(N + N)) : positive_definite D -> positive_definite (particle_hole D).
Proof.
  move=> [H1 H2]. split.
  - apply/matrixP => i j. move/matrixP: H1 => /(_ (exchanged i) (exchanged j)). rewrite !mxE => <-. by rewrite conjCK.
  - move=> x Hx. pose y : 'cV[RC]_(N + N) := \col_i (x (exchanged i) 0)^*.
    have Hy : y != 0. { apply: contraNneq Hx => Y. apply/eqP/matrixP => i j. move/matrixP: Y => /(_ (exchanged i) 0). rewrite !mxE exchanged_inv ord1 => X. by rewrite -[LHS]conjCK X conjC0. }
    have Q := H2 y Hy. have -> : (dagger x *m particle_hole D *m x) 0 0 = ((dagger y *m D *m y) 0 0)^*.
      rewrite !mxE rmorph_sum (reindex_inj (inv_inj (@exchanged_inv N))) /=. apply: eq_bigr => j _. rewrite !mxE rmorphM conjCK. congr (_ * _).
      rewrite rmorph_sum (reindex_inj (inv_inj (@exchanged_inv N))) /=. apply: eq_bigr => i _. by rewrite !mxE !exchanged_inv rmorphM conjCK.
    by rewrite (CrealP _) // gtr0_real.
Qed.
Lemma hole_definite N (D : 'M[RC]_(N + N)) : positive_definite (particle_hole D) <-> positive_definite D.
Proof. split; [rewrite -{2}[D]hole_invol|]; exact: hole_definite_. Qed.

Lemma list_rev A (l : seq A) : List.rev l = rev l.
Proof. elim: l => //= a l IH. by rewrite IH rev_cons -cats1. Qed.
Lemma rev_enum n : map (@rev_ord n) (enum 'I_n) = rev (enum 'I_n).
Proof.
  case: n => [|n]; first by rewrite (size0nil (size_enum_ord 0)).
  apply: (@eq_from_nth _ ord0); first by rewrite size_map size_rev. move=> i. rewrite size_map size_enum_ord => Hi.
  rewrite (nth_map ord0) ?size_enum_ord // nth_rev ?size_enum_ord //. apply: val_inj. rewrite /= !nth_enum_ord //. by rewrite ltn_subrL.
Qed.
Lemma rev_as_list n (E E' : 'rV[RC]_n) : (forall i, E' 0 i = E 0 (rev_ord i)) -> as_list E' = List.rev (as_list E).
Proof.
  move=> H. rewrite list_rev /as_list -map_rev -rev_enum -map_comp. apply: eq_map => i /=. by rewrite H.
Qed.
Lemma hole_omega np np' N h h' z rI : numpy_works np -> numpy_works np' ->
  (forall p q, (p < Nat.mul 2 N)%coq_nat -> (q < Nat.mul 2 N)%coq_nat -> h' p q = Cconj (h (other_half N p) (other_half N q))) ->
  fst (omega (colpa_solver np' N) N h' z true rI) = List.rev (fst (omega (colpa_solver np N) N h z true rI)).
Proof.
  move=> W W' H. have Hh : as_matrix N h' = particle_hole (as_matrix N h).
    have X (a : 'I_(N + N)) : other_half N a = exchanged a.
      rewrite -[a]splitK; case: (split a) => j /=; rewrite ?exchanged_l ?exchanged_r /other_half; have /ssrnat.ltP := ltn_ord j; case: PeanoNat.Nat.ltb_spec => /=; rewrite -?plusE; lia.
    apply/matrixP => i j. rewrite !mxE -!X -mc_conj H //; exact: ord2.
  apply: (@omega_turn _ _ true) => //.
  have K (v v' : mat) : as_matrix N v' = particle_hole (as_matrix N v) -> option_map fst (colpa_solver np' N v') = option_map (fun r => turn_list true (fst r)) (colpa_solver np N v).
    move=> Hv. case: (outcome_cases N v W) => [[A [E [G [S ->]]]]|[A ->]]; case: (outcome_cases N v' W') => [[A' [E' [G' [S' ->]]]]|[A' ->]] //=.
    - have [h1 [h2 [h3 _]]] := W N. have [h1' [h2' [h3' _]]] := W' N. move: S'. rewrite Hv => S'.
      by rewrite (rev_as_list (colpa_holes h1 h2 h3 h1' h2' h3' S S')).
    - by case: A'; rewrite Hv; apply/hole_definite.
    - by case: A; apply/hole_definite; rewrite -Hv.
  have Hs c (v v' : mat) : as_matrix N v' = particle_hole (as_matrix N v) -> as_matrix N (shift c v') = particle_hole (as_matrix N (shift c v)).
    move=> Hv. rewrite !mx_shift Hv. apply/matrixP => i j. rewrite !mxE rmorphD rmorphMn [X in _ + X *+ _]mc_realconj. congr (_ + _ *+ _). by rewrite (inj_eq (inv_inj (@exchanged_inv N))).
  have Ho : as_matrix N (mat_opp h') = particle_hole (as_matrix N (mat_opp h)).
    rewrite !mx_opp Hh. apply/matrixP => i j. by rewrite !mxE rmorphN.
  apply: attempts_same; apply: K => //; by apply: Hs.
Qed.
