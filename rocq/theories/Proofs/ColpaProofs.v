(** Colpa's diagonalization. *)
From mathcomp Require Import all_ssreflect all_fingroup all_algebra.
From Verif.Model Require Import Colpa.
From Verif.Spec Require Import ColpaSpec.
Set Implicit Arguments.
Unset Strict Implicit.
Unset Printing Implicit Defensive.
Import GRing.Theory Num.Theory Order.TTheory.
Local Open Scope ring_scope.

Section Proofs.
Variable C : numClosedFieldType.
Implicit Types n m : nat.

Lemma dagger_adj n m (A : 'M[C]_(n, m)) : dagger A = adj A.
Proof. by apply/matrixP => i j; rewrite !mxE. Qed.
Lemma adjM n m p (A : 'M[C]_(n, m)) (B : 'M[C]_(m, p)) : adj (A *m B) = adj B *m adj A.
Proof. by rewrite /adj map_mxM trmx_mul. Qed.
Lemma adjK n m (A : 'M[C]_(n, m)) : adj (adj A) = A.
Proof. by apply/matrixP => i j; rewrite !mxE conjCK. Qed.
Lemma adj1 n : adj (1%:M : 'M[C]_n) = 1%:M.
Proof. by rewrite /adj map_mx1 trmx1. Qed.
Lemma adj_unit n (A : 'M[C]_n) : (adj A \in unitmx) = (A \in unitmx).
Proof. by rewrite /adj unitmx_tr map_unitmx. Qed.
Lemma adj_inv n (A : 'M[C]_n) : adj (invmx A) = invmx (adj A).
Proof. by rewrite /adj map_invmx trmx_inv. Qed.
Lemma adj_diag n (d : 'rV[C]_n) : (forall i, 0 <= d 0 i) -> adj (diag_mx d) = diag_mx d.
Proof.
  move=> H; apply/matrixP => i j; rewrite !mxE eq_sym. case: eqP => [->|_]; last by rewrite mulr0n rmorph0.
  by rewrite mulr1n; apply: CrealP; apply: ger0_real.
Qed.

Variable N : nat.
Notation mat := 'M[C]_(N + N).
Notation g := (g C N).
Lemma g_signature : g = signature C N.
Proof.
  apply/matrixP => i j; rewrite !mxE -[i == j]val_eqE. case: splitP => i' Ei; rewrite !mxE; case: splitP => j' Ej; rewrite !mxE /= Ei Ej.
  - by rewrite -val_eqE /=; case: eqP.
  - rewrite (_ : (i' == (N + j')%N :> nat) = false) //; apply/eqP => X; by move: (ltn_ord i'); rewrite X ltnNge leq_addr.
  - rewrite (_ : ((N + i')%N == j' :> nat) = false) //; apply/eqP => X; by move: (ltn_ord j'); rewrite -X ltnNge leq_addr.
  - by rewrite eqn_add2l -val_eqE /=; case: eqP; rewrite ?mulr1n ?mulr0n ?oppr0.
Qed.
Lemma g_g : g *m g = 1%:M.
Proof. by rewrite /Colpa.g mulmx_block !mulmx0 !mul0mx !addr0 !add0r !mul1mx mulNmx mulmxN mul1mx opprK -scalar_mx_block. Qed.
Lemma adj_g : adj g = g.
Proof. by rewrite /adj /Colpa.g map_block_mx tr_block_mx map_mx1 !map_mx0 !trmx0 map_mxN map_mx1 trmx1 linearN /= trmx1. Qed.
Lemma flip_g (X : mat) : flip_blocks X = g *m X *m g.
Proof.
  rewrite -[in RHS](submxK X) /flip_blocks /Colpa.g !mulmx_block !mulmx0 !mul0mx !addr0 !add0r !mul1mx !mulNmx !mulmxN !mulmx1 !mul1mx ?opprK.
  by rewrite ?mulmx0 ?addr0 ?add0r ?oppr0.
Qed.

Definition sgn : 'rV[C]_(N + N) := \row_i (if (i < N)%N then 1 else -1).
Lemma g_diag : g = diag_mx sgn.
Proof. by rewrite g_signature; apply/matrixP => i j; rewrite !mxE; case: eqP => [->|]; rewrite ?mulr1n ?mulr0n. Qed.
Lemma g_row (L : 'rV[C]_(N + N)) i : (g *m L^T)^T 0 i = sgn 0 i * L 0 i.
Proof. by rewrite g_diag mxE mul_diag_mx !mxE. Qed.
Lemma sgn2 i : sgn 0 i * sgn 0 i = 1.
Proof. by rewrite mxE; case: ifP; rewrite ?mulrNN mulr1. Qed.

(** ** Hermitian matrices *)
Lemma form_diag n (d : 'rV[C]_n) (z : 'cV[C]_n) : (adj z *m diag_mx d *m z) 0 0 = \sum_k d 0 k * `|z k 0| ^+ 2.
Proof.
  rewrite mxE; apply: eq_bigr => k _. rewrite mul_mx_diag !mxE normCK. by rewrite [_ * d 0 k]mulrC -mulrA [_^* * _]mulrC.
Qed.
Lemma form_one n (z : 'cV[C]_n) : (adj z *m z) 0 0 = \sum_k `|z k 0| ^+ 2.
Proof. by rewrite mxE; apply: eq_bigr => k _; rewrite !mxE normCK mulrC. Qed.
Lemma form_pos n (z : 'cV[C]_n) : z != 0 -> 0 < (adj z *m z) 0 0.
Proof.
  move=> H; rewrite form_one lt_neqAle sumr_ge0 ?andbT => [|k _]; last by rewrite exprn_ge0.
  rewrite eq_sym; apply: contraNneq H => /eqP. rewrite psumr_eq0 => [/allP X|k _]; last by rewrite exprn_ge0.
  apply/eqP/matrixP => k l; rewrite ord1 mxE. have := X k (mem_index_enum _). by rewrite /= expf_eq0 /= normr_eq0 => /eqP.
Qed.

Lemma eig_mat n (M U : 'M[C]_n) (L : 'rV[C]_n) : (forall i j, (M *m U) i j = L 0 j * U i j) -> M *m U = U *m diag_mx L.
Proof. by move=> H; apply/matrixP => i j; rewrite H mul_mx_diag mxE mulrC. Qed.

Lemma eig_real n (M U : 'M[C]_n) (L : 'rV[C]_n) : adj M = M -> eigenpairs M L U -> forall i, L 0 i \is Num.real.
Proof.
  move=> HM [HE [HN _]] i. move: (eig_mat HE) => X.
  have Y : diag_mx (map_mx conjC L) *m (adj U *m U) = adj U *m U *m diag_mx L.
    have Z : adj (M *m U) = adj (U *m diag_mx L) by rewrite X.
    rewrite !adjM HM in Z. have -> : diag_mx (map_mx conjC L) = adj (diag_mx L).
      by apply/matrixP => a b; rewrite !mxE eq_sym; case: eqP => [->|_]; rewrite ?mulr1n // !mulr0n rmorph0.
    by rewrite mulmxA -Z -!mulmxA X.
  have W : (adj U *m U) i i = 1 by rewrite -(HN i) mxE; apply: eq_bigr => k _; rewrite !mxE normCK mulrC.
  move/matrixP: Y => /(_ i i). rewrite mul_diag_mx mul_mx_diag mxE [in X in _ = X]mxE W mulr1 mul1r mxE => Z.
  by apply/CrealP.
Qed.

Lemma diag_adj_real n (L : 'rV[C]_n) : (forall i, L 0 i \is Num.real) -> adj (diag_mx L) = diag_mx L.
Proof.
  move=> H; apply/matrixP => a b; rewrite !mxE eq_sym; case: eqP => [->|_]; last by rewrite !mulr0n rmorph0.
  by rewrite !mulr1n; apply/CrealP.
Qed.
(** The Gram matrix of the eigenvectors commutes with the eigenvalues. *)
Lemma gram_commutes n (M U : 'M[C]_n) (L : 'rV[C]_n) : adj M = M -> eigenpairs M L U ->
  diag_mx L *m (adj U *m U) = adj U *m U *m diag_mx L.
Proof.
  move=> HM HE. have R := eig_real HM HE. move: (eig_mat HE.1) => X.
  have Z : adj (M *m U) = adj (U *m diag_mx L) by rewrite X.
  rewrite !adjM HM diag_adj_real // in Z. by rewrite mulmxA -Z -!mulmxA X.
Qed.
Lemma gram_block n (P : 'M[C]_n) (L : 'rV[C]_n) : diag_mx L *m P = P *m diag_mx L ->
  forall i j, L 0 i != L 0 j -> P i j = 0.
Proof.
  move=> H i j N0. move/matrixP: H => /(_ i j). rewrite mul_diag_mx mul_mx_diag mxE [in X in _ = X]mxE => /eqP.
  rewrite [P i j * _]mulrC -subr_eq0 -mulrBl mulf_eq0 subr_eq0 (negbTE N0) /= => /eqP //.
Qed.
Lemma gram_fun n (P : 'M[C]_n) (L d : 'rV[C]_n) : diag_mx L *m P = P *m diag_mx L ->
  (forall i j, L 0 i = L 0 j -> d 0 i = d 0 j) -> diag_mx d *m P = P *m diag_mx d.
Proof.
  move=> H Hd; apply/matrixP => i j; rewrite mul_diag_mx mul_mx_diag mxE [in RHS]mxE.
  case: (boolP (L 0 i == L 0 j)) => [/eqP X|X]; first by rewrite (Hd _ _ X) mulrC.
  by rewrite (gram_block H X) mulr0 mul0r.
Qed.

Lemma form_nonneg n (U : 'M[C]_n) (L : 'rV[C]_n) (x : 'cV[C]_n) : diag_mx L *m (adj U *m U) = adj U *m U *m diag_mx L ->
  (forall i, x i 0 != 0 -> 0 <= L 0 i) -> 0 <= (adj x *m (adj U *m U *m diag_mx L) *m x) 0 0.
Proof.
  move=> HC H. pose d : 'rV[C]_n := \row_i sqrtC `|L 0 i|.
  have HdC : diag_mx d *m (adj U *m U) = adj U *m U *m diag_mx d by apply: (gram_fun HC) => i j X; rewrite !mxE X.
  have Hx : diag_mx L *m x = diag_mx d *m (diag_mx d *m x).
    apply/matrixP => i j; rewrite !mul_diag_mx !mxE ord1 mulrA -expr2 sqrtCK.
    by case: (boolP (x i 0 == 0)) => [/eqP ->|/H X]; [rewrite !mulr0|rewrite ger0_norm].
  have Hd : adj (diag_mx d) = diag_mx d by apply: adj_diag => i; rewrite mxE sqrtC_ge0 normr_ge0.
  have -> : adj x *m (adj U *m U *m diag_mx L) *m x = adj (U *m (diag_mx d *m x)) *m (U *m (diag_mx d *m x)).
    rewrite !adjM Hd -!mulmxA Hx. congr (_ *m _). by rewrite !mulmxA -[adj U *m U *m diag_mx d]HdC !mulmxA.
  by rewrite form_one sumr_ge0 // => k _; rewrite exprn_ge0.
Qed.

Lemma kernel_vector n m (B : 'M[C]_(n, m)) : (m < n)%N -> exists x : 'rV[C]_n, x != 0 /\ x *m B = 0.
Proof.
  move=> H. have R : (0 < \rank (kermx B))%N by rewrite mxrank_ker subn_gt0 (leq_ltn_trans (rank_leq_col B)).
  have Z : kermx B != 0 by rewrite -mxrank_eq0 -lt0n.
  exists (nz_row (kermx B)); split; first by rewrite nz_row_eq0.
  by apply/sub_kermxP; apply: nz_row_sub.
Qed.

(** ** Inertia *)
Section Inertia.
Variables (W U : mat) (L : 'rV[C]_(N + N)).
Hypothesis HW : W \in unitmx.
Hypothesis HC : diag_mx L *m (adj U *m U) = adj U *m U *m diag_mx L.
Hypothesis HF : adj W *m g *m W = adj U *m U *m diag_mx L.

Lemma form_W (x : 'cV[C]_(N + N)) :
  (adj x *m (adj U *m U *m diag_mx L) *m x) 0 0 = \sum_k sgn 0 k * `|(W *m x) k 0| ^+ 2.
Proof. by rewrite -form_diag -g_diag -HF adjM -!mulmxA. Qed.
Lemma W_inj (x : 'cV[C]_(N + N)) : x != 0 -> W *m x != 0.
Proof. by apply: contraNneq => X; rewrite -[x]mul1mx -(mulVmx HW) -mulmxA X mulmx0. Qed.

Lemma not_nonneg (x : 'cV[C]_(N + N)) : x != 0 -> (forall b : 'I_N, (W *m x) (lshift N b) 0 = 0) ->
  ~ (forall i, x i 0 != 0 -> 0 <= L 0 i).
Proof.
  move=> Hx Hz HL. have := form_nonneg HC HL. rewrite form_W => X.
  have := form_pos (W_inj Hx). rewrite form_one => Y.
  have Z : \sum_k sgn 0 k * `|(W *m x) k 0| ^+ 2 = - \sum_k `|(W *m x) k 0| ^+ 2.
    rewrite -sumrN; apply: eq_bigr => k _. rewrite mxE. case: ifP => [H|_]; last by rewrite mulN1r.
    have -> : k = lshift N (Ordinal H) by apply: val_inj. by rewrite Hz normr0 expr0n mulr0 oppr0.
  by move: X; rewrite Z oppr_ge0 => X; move: (lt_le_trans Y X); rewrite ltxx.
Qed.
Lemma not_nonpos (x : 'cV[C]_(N + N)) : x != 0 -> (forall b : 'I_N, (W *m x) (rshift N b) 0 = 0) ->
  ~ (forall i, x i 0 != 0 -> L 0 i <= 0).
Proof.
  move=> Hx Hz HL.
  have HC' : diag_mx (- L) *m (adj U *m U) = adj U *m U *m diag_mx (- L) by rewrite linearN /= mulNmx mulmxN HC.
  have HL' : forall i, x i 0 != 0 -> 0 <= (- L) 0 i by move=> i /HL; rewrite mxE oppr_ge0.
  have := form_nonneg HC' HL'. rewrite linearN /= !mulmxN !mulNmx mxE oppr_ge0 form_W => X.
  have := form_pos (W_inj Hx). rewrite form_one => Y.
  have Z : \sum_k sgn 0 k * `|(W *m x) k 0| ^+ 2 = \sum_k `|(W *m x) k 0| ^+ 2.
    apply: eq_bigr => k _. rewrite mxE. case: ifP => [_|H]; first by rewrite mul1r.
    have HN : (N <= k)%N by rewrite leqNgt H.
    have HK : (k - N < N)%N by rewrite ltn_subLR // ltn_ord.
    have -> : k = rshift N (Ordinal HK) by apply: val_inj; rewrite /= subnKC. by rewrite Hz normr0 expr0n mulr0.
  by move: X; rewrite Z => X; move: (lt_le_trans Y X); rewrite ltxx.
Qed.

Hypothesis HS : forall i j : 'I_(N + N), (i <= j)%N -> L 0 j <= L 0 i.
Lemma first_half (i : 'I_(N + N)) : (i < N)%N -> ~ L 0 i <= 0.
Proof.
  move=> Hi HL. pose B : 'M[C]_(N + N, N + i) := row_mx (\matrix_(a, b) W (rshift N b) a) (\matrix_(a, b) ((a == b :> nat)%:R)).
  have [|x [Hx HB]] := @kernel_vector _ _ B; first by rewrite ltn_add2l.
  move: HB; rewrite mul_mx_row -[0]hsubmxK !linear0 => /eq_row_mx [H1 H2].
  apply: (@not_nonpos x^T).
  - by apply: contraNneq Hx => X; rewrite -[x]trmxK X trmx0.
  - move=> b; move/matrixP: H1 => /(_ 0 b). rewrite mxE [in X in _ = X]mxE => H; rewrite mxE; apply: etrans H. by apply: eq_bigr => k _; rewrite !mxE mulrC.
  - move=> j; rewrite mxE => Hj. apply: le_trans HL; apply: HS. rewrite leqNgt; apply: contraNN Hj => Hj.
    move/matrixP: H2 => /(_ 0 (Ordinal Hj)). rewrite mxE [in X in _ = X]mxE (bigD1 j) //= big1 => [|k Hk]; rewrite !mxE /=.
    + by rewrite eqxx mulr1 addr0 => ->.
    + by rewrite (_ : (k == j :> nat) = false) ?mulr0 //; apply: negbTE.
Qed.
Lemma second_half (i : 'I_(N + N)) : (N <= i)%N -> ~ 0 <= L 0 i.
Proof.
  move=> Hi HL. pose m := ((N + N) - i.+1)%N.
  pose B : 'M[C]_(N + N, N + m) := row_mx (\matrix_(a, b) W (lshift N b) a) (\matrix_(a, b) ((a == (i.+1 + b)%N :> nat)%:R)).
  have [|x [Hx HB]] := @kernel_vector _ _ B. rewrite ltn_add2l /m ltn_subLR //. by rewrite addSn ltnS leq_add2r.
  move: HB; rewrite mul_mx_row -[0]hsubmxK !linear0 => /eq_row_mx [H1 H2].
  apply: (@not_nonneg x^T).
  - by apply: contraNneq Hx => X; rewrite -[x]trmxK X trmx0.
  - move=> b; move/matrixP: H1 => /(_ 0 b). rewrite mxE [in X in _ = X]mxE => H; rewrite mxE; apply: etrans H. by apply: eq_bigr => k _; rewrite !mxE mulrC.
  - move=> j; rewrite mxE => Hj. apply: (le_trans HL); apply: HS. rewrite leqNgt; apply: contraNN Hj => Hj.
    have Hm : (j - i.+1 < m)%N by rewrite /m ltn_sub2r // (leq_trans _ (ltn_ord j)).
    move/matrixP: H2 => /(_ 0 (Ordinal Hm)). rewrite mxE [in X in _ = X]mxE (bigD1 j) //= big1 => [|k Hk]; rewrite !mxE /=.
    + by rewrite subnKC // eqxx mulr1 addr0 => ->.
    + by rewrite subnKC // (_ : (k == j :> nat) = false) ?mulr0 //; apply: negbTE.
Qed.
End Inertia.

(** ** The solver *)
Lemma chol_unit n (D Lc : 'M[C]_n) : cholesky_factor D Lc -> Lc \in unitmx.
Proof.
  case=> _ [Ht Hd]. rewrite unitmxE det_trig; last by apply/is_trig_mxP => i j H; rewrite Ht.
  rewrite unitfE; apply/prodf_neq0 => i _. by rewrite lt0r_neq0.
Qed.

Section Core.
Variables (K U : mat) (L : 'rV[C]_(N + N)).
Hypothesis HK : K \in unitmx.
Let M := K *m g *m adj K.
Hypothesis HE : eigenpairs M L U.
Hypothesis HS : forall i j : 'I_(N + N), (i <= j)%N -> L 0 j <= L 0 i.

Lemma M_herm : adj M = M.
Proof. by rewrite /M !adjM adjK adj_g mulmxA. Qed.
Lemma L_real i : L 0 i \is Num.real.
Proof. exact: (eig_real M_herm HE). Qed.
Lemma UMU : adj (adj K *m U) *m g *m (adj K *m U) = adj U *m U *m diag_mx L.
Proof. by rewrite adjM adjK -!mulmxA -(eig_mat HE.1) /M !mulmxA. Qed.
Lemma W_unit : adj K *m U \in unitmx.
Proof. by rewrite unitmx_mul adj_unit HK; case: HE => _ [_]. Qed.

Let E := (g *m L^T)^T.
Lemma E_pos i : 0 < E 0 i.
Proof.
  rewrite g_row mxE. have HC := gram_commutes M_herm HE. have R := L_real i. case: ifP => Hi.
  - rewrite mul1r real_ltNge ?rpred0 //. apply/negP => X. exact: (first_half W_unit HC UMU HS Hi X).
  - rewrite mulN1r oppr_gt0 real_ltNge ?rpred0 //. apply/negP => X.
    apply: (second_half W_unit HC UMU HS _ X). by rewrite leqNgt Hi.
Qed.
Lemma E_descending (i j : 'I_(N + N)) : (i <= j)%N -> (j < N)%N -> E 0 j <= E 0 i.
Proof. by move=> H1 H2; rewrite !g_row !mxE H2 (leq_ltn_trans H1 H2) !mul1r HS. Qed.
Lemma E_ascending (i j : 'I_(N + N)) : (N <= i)%N -> (i <= j)%N -> E 0 i <= E 0 j.
Proof. by move=> H1 H2; rewrite !g_row !mxE !ltnNge H1 (leq_trans H1 H2) /= !mulN1r ler_opp2 HS. Qed.
Lemma L_E i : L 0 i = sgn 0 i * E 0 i.
Proof. by rewrite g_row mulrA sgn2 mul1r. Qed.

Hypothesis HU : adj U *m U = 1%:M.
Let S := diag_mx (map_mx sqrtC E).
Lemma S_S : S *m S = diag_mx E.
Proof. by rewrite /S mulmx_diag; congr diag_mx; apply/rowP => i; rewrite !mxE -expr2 sqrtCK. Qed.
Lemma adj_S : adj S = S.
Proof. by apply: adj_diag => i; rewrite mxE sqrtC_ge0 ltW // E_pos. Qed.
Let Gm := invmx K *m U *m S.
Lemma Gm_D : adj Gm *m (adj K *m K) *m Gm = diag_mx E.
Proof.
  rewrite /Gm !adjM adj_inv adj_S -S_S -!mulmxA. congr (_ *m _).
  rewrite !mulmxA. rewrite -[adj U *m _ *m adj K]mulmxA mulVmx ?adj_unit // mulmx1.
  by rewrite -[adj U *m K *m _]mulmxA mulmxV // mulmx1 HU mul1mx.
Qed.
Lemma S_g_S : S *m g *m S = diag_mx L.
Proof.
  rewrite g_diag /S !mulmx_diag; congr diag_mx; apply/rowP => i. rewrite mxE [in LHS]mxE mxE.
  rewrite [in LHS]mulrC mulrA -expr2 sqrtCK mulrC. by rewrite L_E.
Qed.
Lemma Gm_g : Gm *m g *m adj Gm = g.
Proof.
  have UU : U *m adj U = 1%:M by apply: mulmx1C.
  rewrite /Gm !adjM adj_inv adj_S.
  have -> : invmx K *m U *m S *m g *m (S *m (adj U *m invmx (adj K))) = invmx K *m (U *m (S *m g *m S) *m adj U) *m invmx (adj K).
    by rewrite !mulmxA.
  rewrite S_g_S (_ : U *m diag_mx L *m adj U = M); last by rewrite -(eig_mat HE.1) -mulmxA UU mulmx1.
  rewrite /M !mulmxA mulVmx // mul1mx -mulmxA mulmxV ?adj_unit // mulmx1. by [].
Qed.
Let G := flip_blocks (adj Gm).
Lemma Gm_G : Gm *m G = 1%:M.
Proof. by rewrite /G flip_g [Gm *m _]mulmxA [Gm *m _]mulmxA Gm_g g_g. Qed.
Lemma G_Gm : G *m Gm = 1%:M.
Proof. exact: mulmx1C Gm_G. Qed.
Lemma adj_G : adj G = g *m Gm *m g.
Proof. by rewrite /G flip_g adjM [adj (g *m _)]adjM adjK adj_g mulmxA. Qed.
Lemma G_para : G *m g *m adj G = g.
Proof.
  rewrite adj_G. have -> : G *m g *m (g *m Gm *m g) = G *m (g *m g) *m Gm *m g by rewrite !mulmxA.
  by rewrite g_g mulmx1 G_Gm mul1mx.
Qed.
Lemma G_diag : adj K *m K = adj G *m diag_mx E *m G.
Proof.
  rewrite -Gm_D. have -> : adj G *m (adj Gm *m (adj K *m K) *m Gm) *m G = adj (Gm *m G) *m (adj K *m K) *m (Gm *m G).
    by rewrite [adj (Gm *m G)]adjM !mulmxA.
  by rewrite Gm_G adj1 mul1mx mulmx1.
Qed.
End Core.

Lemma eig_sorted n (M U : 'M[C]_n) (L : 'rV[C]_n) (s : 'S_n) : eigenpairs M L U ->
  eigenpairs M (\row_i L 0 (s i)) (\matrix_(i, j) U i (s j)).
Proof.
  case=> H1 [H2 H3]. have X : \matrix_(i, j) U i (s j) = col_perm s U by apply/matrixP => i j; rewrite !mxE.
  split; [|split].
  - move=> i j. rewrite !mxE -H1 mxE. by apply: eq_bigr => k _; rewrite mxE.
  - move=> j. rewrite -(H2 (s j)). by apply: eq_bigr => k _; rewrite mxE.
  - by rewrite X col_permE unitmx_mul H3 unitmx_perm.
Qed.
Lemma orthonormal n (M U : 'M[C]_n) (L : 'rV[C]_n) : eigenpairs M L U -> orthogonal_columns U -> adj U *m U = 1%:M.
Proof.
  case=> _ [H2 _] H. apply/matrixP => i j; rewrite !mxE. case: (boolP (i == j)) => [/eqP <-|X].
  - rewrite -(H2 i); apply: eq_bigr => k _; by rewrite !mxE normCK mulrC.
  - rewrite mulr0n; apply: etrans (H i j X); by apply: eq_bigr => k _; rewrite !mxE.
Qed.
Lemma orthonormal_distinct n (M U : 'M[C]_n) (L : 'rV[C]_n) : adj M = M -> eigenpairs M L U ->
  (forall i j, L 0 i = L 0 j -> i = j) -> adj U *m U = 1%:M.
Proof.
  move=> HM HE H. apply: (orthonormal HE) => i j X. have X' : L 0 i != L 0 j by apply: contraNneq X => /H ->.
  apply: etrans (gram_block (gram_commutes HM HE) X'); rewrite mxE. by apply: eq_bigr => k _; rewrite !mxE.
Qed.

Section Solver.
Variables (cholesky : mat -> option mat) (eig : mat -> option ('rV[C]_(N + N) * mat)) (sort : 'rV[C]_(N + N) -> 'S_(N + N)).
Hypothesis HCh : cholesky_contract cholesky.
Hypothesis HEi : eig_contract eig.
Hypothesis HSo : sort_contract sort.
Variables (D G : mat) (E : 'rV[C]_(N + N)).
Hypothesis Hrun : solve_via_colpa cholesky eig sort D = Solved E G.

Lemma colpa_inv : exists (K U : mat) (L : 'rV[C]_(N + N)),
  [/\ K \in unitmx, D = adj K *m K, eigenpairs (K *m g *m adj K) L U, forall i j : 'I_(N + N), (i <= j)%N -> L 0 j <= L 0 i &
   [/\ E = (g *m L^T)^T, G = flip_blocks (adj (invmx K *m U *m diag_mx (map_mx sqrtC E))) &
    (orthogonal_eigenvectors eig -> orthogonal_columns U)]].
Proof.
  move: Hrun; rewrite /solve_via_colpa. case Ec: (cholesky D) => [Lc|//]. have HC := HCh Ec.
  have HK : adj Lc \in unitmx by rewrite adj_unit; apply: chol_unit HC.
  case Ee: (eig _) => [[L0 U0]|//] [<- <-]. have HM := M_herm (adj Lc). have HX := HEi (etrans (dagger_adj _) HM) Ee.
  exists (adj Lc), (\matrix_(i, j) U0 i (sort L0 j)), (\row_i L0 0 (sort L0 i)). split=> //.
  - by case: HC => <- _; rewrite adjK dagger_adj.
  - exact: eig_sorted.
  - move=> i j H; rewrite !mxE. apply: HSo H => k. exact: (eig_real HM HX).
  - split=> // /(_ _ _ _ (etrans (dagger_adj _) HM) Ee) => HO i j X.
    have X' : sort L0 i != sort L0 j by rewrite (inj_eq perm_inj).
    apply: etrans (HO _ _ X'); by apply: eq_bigr => k _; rewrite !mxE.
Qed.

Lemma colpa_energies : (forall i, 0 < E 0 i) /\
  (forall i j : 'I_(N + N), (i <= j)%N -> (j < N)%N -> E 0 j <= E 0 i) /\
  (forall i j : 'I_(N + N), (N <= i)%N -> (i <= j)%N -> E 0 i <= E 0 j).
Proof.
  have [K [U [L [HK HD HE HS [-> _ _]]]]] := colpa_inv. split; [|split].
  - exact: E_pos HK HE HS.
  - exact: E_descending.
  - exact: E_ascending.
Qed.

Lemma colpa_correct : orthogonal_eigenvectors eig \/ nondegenerate E ->
  para_unitary G /\ diagonalizes D G E.
Proof.
  have [K [U [L [HK HD HE HS [EE EG HO]]]]] := colpa_inv. move=> HA.
  have HU : adj U *m U = 1%:M.
    case: HA => [/HO H|ND]; first exact: orthonormal HE H.
    apply: (orthonormal_distinct (M_herm K) HE) => i j X. move: (X); rewrite [L 0 i]L_E [L 0 j]L_E -EE => Y.
    have P : forall k, 0 < E 0 k by rewrite EE; apply: E_pos HK HE HS.
    have Z : (i < N)%N = (j < N)%N.
      apply/idP/idP => Z; rewrite ltnNge; apply/negP => Z'; move: Y; rewrite !mxE Z ?(ltnNge j) ?(ltnNge i) Z' /= mul1r mulN1r => Y.
      - by move: (P i); rewrite Y oppr_gt0 => /lt_trans /(_ (P j)); rewrite ltxx.
      - by move: (P j); rewrite -Y oppr_gt0 => /lt_trans /(_ (P i)); rewrite ltxx.
    apply: ND => //. move: Y; rewrite !mxE Z. case: ifP => _; first by rewrite !mul1r.
    by rewrite !mulN1r => /oppr_inj.
  split.
  - rewrite /para_unitary -g_signature dagger_adj EG EE. exact: G_para HK HE HS HU.
  - rewrite /diagonalizes dagger_adj HD EG EE. exact: G_diag HK HE HS HU.
Qed.

(** The energies are, up to sign, eigenvalues of g D and the columns of the inverse of G their eigenvectors. *)
Lemma colpa_modes : para_unitary G -> diagonalizes D G E ->
  G \in unitmx /\ signature C N *m D *m invmx G = invmx G *m (signature C N *m diag_mx E).
Proof.
  rewrite /para_unitary /diagonalizes -g_signature dagger_adj => HP HD.
  have HG : G *m (g *m adj G *m g) = 1%:M by rewrite !mulmxA HP g_g.
  have [U _] := mulmx1_unit HG. split=> //.
  have HI : invmx G = g *m adj G *m g by rewrite -[RHS]mul1mx -(mulVmx U) -[RHS]mulmxA HG mulmx1.
  rewrite HD -!mulmxA mulmxV // mulmx1 {}HI -!mulmxA. by rewrite [g *m (g *m _)]mulmxA g_g mul1mx.
Qed.
Lemma colpa_definite : positive_definite D.
Proof.
  have [K [U [L [HK HD _ _ _]]]] := colpa_inv. split; first by rewrite HD dagger_adj adjM adjK.
  move=> x Hx. rewrite HD dagger_adj.
  have -> : adj x *m (adj K *m K) *m x = adj (K *m x) *m (K *m x) by rewrite adjM !mulmxA.
  apply: form_pos. apply: contraNneq Hx => X. by rewrite -[x]mul1mx -(mulVmx HK) -mulmxA X mulmx0.
Qed.
End Solver.

Lemma colpa_failed cholesky eig sort (D : mat) : cholesky_contract cholesky ->
  (positive_definite D -> cholesky D <> None) ->
  (solve_via_colpa cholesky eig sort D = ColpaFailed <-> ~ positive_definite D).
Proof.
  move=> HC HK; split.
  - rewrite /solve_via_colpa. case Ec: (cholesky D) => [Lc|] //; first by case: (eig _) => [[]|].
    by move=> _ /HK.
  - rewrite /solve_via_colpa. case Ec: (cholesky D) => [Lc|] // [].
    have HF := HC _ _ Ec. have HU := chol_unit HF. case: HF => <- _. rewrite dagger_adj. split; first by rewrite dagger_adj adjM adjK.
    move=> x Hx. rewrite dagger_adj. have -> : adj x *m (Lc *m adj Lc) *m x = adj (adj Lc *m x) *m (adj Lc *m x) by rewrite adjM adjK !mulmxA.
    apply: form_pos. apply: contraNneq Hx => X.
    have HV : adj Lc \in unitmx by rewrite adj_unit. by rewrite -[x]mul1mx -(mulVmx HV) -mulmxA X mulmx0.
Qed.
End Proofs.
