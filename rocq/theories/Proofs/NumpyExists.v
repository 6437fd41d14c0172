(** The contracts of the numerical functions can be met: Cholesky factors, eigenvectors and sorting permutations exist. *)
From Coq Require Import Classical Epsilon.
From mathcomp Require Import all_ssreflect all_fingroup all_algebra.
From Verif.Model Require Import Colpa Solver.
From Verif.Spec Require Import ColpaSpec OmegaSpec.
From Verif.Proofs Require Import ColpaProofs.
Set Implicit Arguments.
Unset Strict Implicit.
Unset Printing Implicit Defensive.
Import GRing.Theory Num.Theory Order.TTheory.
Local Open Scope ring_scope.

Section Exists.
Variable C : numClosedFieldType.

(** ** Eigenvectors of a Hermitian matrix *)
Lemma gram_zero n m (A : 'M[C]_(n, m)) : adj A *m A = 0 -> A = 0.
Proof.
  move=> H. apply/matrixP => i j. rewrite mxE. apply/eqP. move/matrixP: H => /(_ j j). rewrite !mxE => X.
  have Y : \sum_k `|A k j| ^+ 2 = 0 by rewrite -[RHS]X; apply: eq_bigr => k _; rewrite !mxE normCK mulrC.
  move/eqP: Y. rewrite psumr_eq0 => [/allP /(_ i (mem_index_enum _))|k _]; last by rewrite exprn_ge0.
  by rewrite /= expf_eq0 /= normr_eq0.
Qed.
Lemma adj_exp n (A : 'M[C]_n.+1) k : adj A = A -> adj (A ^+ k) = A ^+ k.
Proof. move=> H. elim: k => [|k IH]; first by rewrite expr0 adj1. by rewrite {1}exprS exprSr [adj _]adjM H IH. Qed.
Lemma herm_nilpotent n (A : 'M[C]_n.+1) k : adj A = A -> A ^+ k = 0 -> A = 0.
Proof.
  move=> HA. elim: k => [|k IH] H.
  - by rewrite -[A]mulr1 -[1](expr0 A) H mulr0.
  - case: k IH H => [|k] IH H; first by rewrite -[A]expr1.
    apply: IH. apply: gram_zero. rewrite adj_exp // -[_ *m _]/(A ^+ k.+1 * A ^+ k.+1). rewrite {2}exprS mulrA -exprSr H. exact: mul0r.
Qed.

Lemma adj_add n m (A B : 'M[C]_(n, m)) : adj (A + B) = adj A + adj B.
Proof. by apply/matrixP => i j; rewrite !mxE rmorphD. Qed.
Lemma adj_horner n (A : 'M[C]_n.+1) (p : {poly C}) : adj A = A -> adj (horner_mx A p) = horner_mx A (map_poly conjC p).
Proof.
  move=> HA. elim/poly_ind: p => [|p c IH]; first by rewrite !rmorph0 /adj map_mx0 trmx0.
  rewrite !rmorphD !rmorphM /= map_polyX map_polyC /= !horner_mx_X !horner_mx_C adj_add [adj (_ * _)]adjM HA IH. congr (_ + _).
  - transitivity (horner_mx A ('X * map_poly conjC p)); first by rewrite rmorphM /= horner_mx_X. by rewrite mulrC rmorphM /= horner_mx_X.
  - by apply/matrixP => i j; rewrite !mxE eq_sym rmorphMn.
Qed.
Lemma herm_eigen_real n (A : 'M[C]_n.+1) x : adj A = A -> root (mxminpoly A) x -> x \is Num.real.
Proof.
  move=> HA. rewrite -eigenvalue_root_min => /eigenvalueP [v Hv Hn]. pose y := adj v.
  have Hy : y != 0. apply: contraNneq Hn => Y. by rewrite -[v]adjK -/y Y /adj map_mx0 trmx0.
  have P := form_pos Hy. have X : A *m y = x^* *: y. by rewrite -{1}HA -adjM Hv; apply/matrixP => i j; rewrite !mxE rmorphM.
  have Y : (adj y *m A *m y) 0 0 = x^* * (adj y *m y) 0 0 by rewrite -mulmxA X -scalemxAr mxE.
  have Z : (adj y *m A *m y) 0 0 = x * (adj y *m y) 0 0 by rewrite adjK Hv -scalemxAl mxE.
  apply/CrealP. apply: (mulIf (lt0r_neq0 P)). by rewrite -Y -Z.
Qed.

Lemma herm_diagonalizable n (A : 'M[C]_n.+1) : adj A = A -> diagonalizable A.
Proof.
  move=> HA. apply/diagonalizableP. have [rs Hrs] := closed_field_poly_normal (mxminpoly A).
  rewrite (monicP (mxminpoly_monic A)) scale1r in Hrs. exists (undup rs); first exact: undup_uniq.
  set q := \prod_(x <- undup rs) _. apply: mxminpoly_min. apply: (@herm_nilpotent _ _ (size rs)).
  - rewrite adj_horner //. congr horner_mx. rewrite /q rmorph_prod /= [LHS]big_seq [RHS]big_seq. apply: eq_bigr => x Hx.
    rewrite rmorphB /= map_polyX map_polyC /=. congr (_ - _%:P). apply: CrealP. apply: (herm_eigen_real HA).
    by rewrite Hrs root_prod_XsubC -mem_undup.
  - rewrite -rmorphX. apply/mxminpoly_minP. rewrite Hrs. have H : {subset rs <= undup rs} by move=> x; rewrite mem_undup.
    rewrite /q. move: (undup rs) H => us. elim: rs {Hrs q} => [|a rs IH] H; first by rewrite big_nil dvd1p.
    rewrite big_cons /= exprS. apply: dvdp_mul; last by apply: IH => x Hx; apply: H; rewrite inE Hx orbT.
    have Ha : a \in us by apply: H; rewrite inE eqxx. by rewrite dvdp_XsubCl root_prod_XsubC.
Qed.
Lemma eigenpairs_exist n (M : 'M[C]_n) : dagger M = M -> exists L U, eigenpairs M L U.
Proof.
  rewrite dagger_adj. case: n M => [|n] M HM.
    exists 0, 1%:M. split; [by move=> []|split; [by move=> []|exact: unitmx1]].
  have HT : adj M^T = M^T by apply/matrixP => i j; rewrite -[in RHS]HM !mxE.
  have [P HP /diagonalizable_forPex [d /(simmxP HP) Hd]] := herm_diagonalizable HT.
  have X : M *m P^T = P^T *m diag_mx d by rewrite -[M]trmxK -trmx_mul Hd trmx_mul tr_diag_mx.
  pose c j := sqrtC (\sum_i `|P^T i j| ^+ 2).
  have Hs j : 0 < \sum_i `|P^T i j| ^+ 2.
    have -> : \sum_i `|P^T i j| ^+ 2 = (adj (col j P^T) *m col j P^T) 0 0 by rewrite form_one; apply: eq_bigr => i _; rewrite !mxE.
    apply: form_pos. apply/negP => /eqP Z. have HU : P^T \in unitmx by rewrite unitmx_tr.
    have : invmx P^T *m col j P^T = delta_mx j 0 by rewrite colE mulmxA mulVmx // mul1mx.
    rewrite Z mulmx0 => /matrixP /(_ j 0). rewrite !mxE eqxx => /eqP. by rewrite eq_sym oner_eq0.
  have Hc j : 0 < c j by rewrite sqrtC_gt0.
  exists d, (P^T *m diag_mx (\row_j (c j)^-1)). split; [|split].
  - move=> i j. rewrite mulmxA X -mulmxA mulmx_diag !mul_mx_diag !mxE. by rewrite mulrCA.
  - move=> j. have -> : \sum_i `|(P^T *m diag_mx (\row_j (c j)^-1)) i j| ^+ 2 = (c j) ^- 2 * \sum_i `|P^T i j| ^+ 2.
      rewrite mulr_sumr. apply: eq_bigr => i _. rewrite mul_mx_diag !mxE normrM exprMn mulrC normfV (ger0_norm (ltW (Hc j))) exprVn. by [].
    rewrite sqrtCK mulVf //. by rewrite lt0r_neq0.
  - rewrite unitmx_mul unitmx_tr HP /= unitmxE det_diag unitfE. apply/prodf_neq0 => j _. by rewrite mxE invr_eq0 lt0r_neq0.
Qed.

(** ** Cholesky factors *)
Lemma chol_exists n (D : 'M[C]_n) : positive_definite D -> exists L, cholesky_factor D L.
Proof.
  elim: n D => [|n IH] D [H1 H2].
    exists 0. split; [by apply/matrixP => -[]|split; by case].
  have {H1} H1 : adj D = D by rewrite -dagger_adj.
  pose D' : 'M[C]_(1 + n) := D. pose a := D' 0 0. pose b : 'cV[C]_n := dlsubmx D'. pose D1 : 'M[C]_n := drsubmx D'.
  have H1' : adj D' = D' by [].
  have ED : D' = block_mx a%:M (adj b) b D1.
    rewrite -[LHS]submxK. congr block_mx.
    - rewrite [LHS]mx11_scalar. congr (_%:M). rewrite !mxE. congr (D' _ _); exact: val_inj.
    - by apply/matrixP => i j; rewrite !mxE -{1}H1' !mxE.
  have Ha : 0 < a.
    have Hd : delta_mx (0 : 'I_n.+1) (0 : 'I_1) != (0 : 'cV[C]_n.+1) by apply/eqP => /matrixP /(_ 0 0); rewrite !mxE eqxx => /eqP; rewrite oner_eq0.
    have := H2 _ Hd. rewrite mxE (bigD1 0) //= big1 => [|k Hk]; last by rewrite [delta_mx _ _ k _]mxE (negbTE Hk) mulr0.
    rewrite [delta_mx _ _ _ _]mxE mulr1 addr0 mxE (bigD1 0) //= big1 => [|k Hk]; last by rewrite !mxE (negbTE Hk) conjC0 mul0r.
    by rewrite !mxE conjC1 mul1r addr0.
  pose r := sqrtC a. have Hr : 0 < r by rewrite sqrtC_gt0. have Nr : r != 0 by rewrite lt0r_neq0. have Na : a != 0 by rewrite lt0r_neq0.
  have Rr : r * r = a by rewrite -expr2 sqrtCK.
  have Cr : (r^-1)^* = r^-1 by apply: CrealP; apply: ger0_real; rewrite invr_ge0 ltW.
  have Ca : (a^-1)^* = a^-1 by apply: CrealP; apply: ger0_real; rewrite invr_ge0 ltW.
  pose S := D1 - a^-1 *: (b *m adj b).
  have [|L1 [E1 [E2 E3]]] := IH S.
    split.
    - rewrite dagger_adj. have HD1 : adj D1 = D1 by apply/matrixP => i j; rewrite /D1 -[in RHS]H1' !mxE.
      have HBB : adj (b *m adj b) = b *m adj b by rewrite adjM adjK.
      have HB : adj (a^-1 *: (b *m adj b)) = a^-1 *: (b *m adj b).
        rewrite -{2}HBB. move: (b *m adj b) => B. apply/matrixP => i j. by rewrite !mxE rmorphM Ca.
      rewrite /S -{2}HD1 -{2}HB. move: (a^-1 *: (b *m adj b)) => B. by apply/matrixP => i j; rewrite !mxE rmorphB.
    - move=> x Hx. pose y : 'cV[C]_(1 + n) := col_mx (- a^-1 *: (adj b *m x)) x.
      have Hy : y != 0. apply: contraNneq Hx => Y. have : dsubmx y = 0 by rewrite Y linear0. by rewrite col_mxKd => ->.
      have := H2 y Hy. rewrite !dagger_adj. have -> : adj y *m D *m y = adj x *m S *m x; last by [].
      have EDy : D' *m y = col_mx 0 (S *m x).
        rewrite ED /y mul_block_col mul_scalar_mx scalerA mulrN mulfV // scaleN1r addNr. congr col_mx.
        by rewrite /S mulmxBl -scalemxAl -scalemxAr scaleNr mulmxA addrC.
      rewrite -[D]/D' -mulmxA EDy. have -> : adj y = row_mx (adj (- a^-1 *: (adj b *m x))) (adj x) by rewrite /adj /y map_col_mx tr_col_mx.
      by rewrite mul_row_col mulmx0 add0r -mulmxA.
  pose Lm : 'M[C]_(1 + n) := block_mx r%:M 0 (r^-1 *: b) L1.
  have EA : adj Lm = block_mx r%:M (r^-1 *: adj b) 0 (adj L1).
    rewrite /adj /Lm map_block_mx tr_block_mx. congr block_mx.
    - rewrite map_scalar_mx tr_scalar_mx. congr (_%:M). apply: CrealP. exact: ger0_real (ltW Hr).
    - by apply/matrixP => i j; rewrite !mxE rmorphM Cr.
    - by rewrite map_mx0 trmx0.
  have EL : Lm *m adj Lm = D'.
    rewrite EA ED /Lm mulmx_block !mul0mx !mulmx0 !addr0. congr block_mx.
    - by rewrite -scalar_mxM Rr.
    - by rewrite mul_scalar_mx scalerA mulfV // scale1r.
    - by rewrite scalar_mxC mul_scalar_mx scalerA mulfV // scale1r.
    - by rewrite -(dagger_adj L1) E1 /S -scalemxAl -scalemxAr scalerA -invfM Rr addrC subrK.
  have T1 (i j : 'I_(1 + n)) : (i < j)%N -> Lm i j = 0.
    rewrite -[i]splitK -[j]splitK. case: (split i) => i'; case: (split j) => j' /=.
    + by rewrite !ord1.
    + by rewrite block_mxEur mxE.
    + by rewrite ord1.
    + by rewrite block_mxEdr ltn_add2l => /E2.
  have T2 (i : 'I_(1 + n)) : 0 < Lm i i.
    rewrite -[i]splitK. case: (split i) => i' /=.
    + by rewrite block_mxEul mxE ord1 eqxx mulr1n.
    + by rewrite block_mxEdr.
  exists Lm. split; first by rewrite dagger_adj. by split.
Qed.

(** ** Sorting *)
Lemma sort_exists n (L : 'rV[C]_n) : (forall i, L 0 i \is Num.real) -> exists s : 'S_n, sorts_descending L s.
Proof.
  move=> H. pose ge := fun x y : C => y <= x. pose t : n.-tuple C := [tuple L 0 i | i < n].
  have : perm_eq (sort ge t) t by rewrite perm_sort. move=> /tuple_permP [s Hs]. exists s => i j Hij.
  have Hsorted : sorted ge (sort ge t).
    apply: (sort_sorted_in (P := [pred x | x \is Num.real])).
    - move=> x y Hx Hy. rewrite /ge. have := real_leVge Hx Hy. by rewrite orbC.
    - apply/allP => x /tnthP [k ->]. by rewrite tnth_mktuple inE H.
  have Ht : transitive ge by move=> y x z A B; apply: le_trans B A.
  have nthE (k : 'I_n) : nth 0 (sort ge t) k = L 0 (s k) by rewrite Hs -tnth_nth !tnth_mktuple.
  rewrite -!nthE. apply: (sorted_leq_nth Ht _ 0 Hsorted) => //; rewrite ?inE ?size_sort ?size_tuple //. move=> x. exact: lexx.
Qed.
End Exists.

Lemma numpy_exists : exists np, numpy_works np.
Proof.
  pose Pch N (D : 'M[RC]_(N + N)) o := (forall L, o = Some L -> cholesky_factor D L) /\ (positive_definite D -> o <> None).
  pose Pei N (M : 'M[RC]_(N + N)) o := dagger M = M -> (forall L U, o = Some (L, U) -> eigenpairs M L U) /\ o <> None.
  pose Pso N (L : 'rV[RC]_(N + N)) (s : 'S_(N + N)) := (forall i, L 0 i \is Num.real) -> sorts_descending L s.
  pose ch N (D : 'M[RC]_(N + N)) := epsilon (inhabits None) (Pch N D).
  pose ei N (M : 'M[RC]_(N + N)) := epsilon (inhabits None) (Pei N M).
  pose so N (L : 'rV[RC]_(N + N)) := epsilon (inhabits 1%g) (Pso N L).
  have Hch N D : Pch N D (ch N D).
    apply: epsilon_spec. case: (classic (positive_definite D)) => HD.
    - have [L HL] := chol_exists HD. exists (Some L). by split => // L' [<-].
    - exists None. by split.
  have Hei N M : Pei N M (ei N M).
    apply: epsilon_spec. case: (classic (dagger M = M)) => HM; last by exists None.
    have [L [U HL]] := eigenpairs_exist HM. exists (Some (L, U)) => _. by split => // L' U' [<- <-].
  have Hso N L : Pso N L (so N L).
    apply: epsilon_spec. case: (classic (forall i, L 0 i \is Num.real)) => HL; last by exists 1%g.
    have [s Hs] := sort_exists HL. by exists s.
  exists (mkNumpy ch ei so) => N /=. split; [|split; [|split; [|split]]].
  - by move=> D L /(proj1 (Hch N D)).
  - by move=> M L U HM; apply: (proj1 (Hei N M HM)).
  - by move=> L; apply: Hso.
  - by move=> D; apply: (proj2 (Hch N D)).
  - by move=> M HM; apply: (proj2 (Hei N M HM)).
Qed.
