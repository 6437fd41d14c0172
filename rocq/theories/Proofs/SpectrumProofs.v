(** The energies of solve_via_colpa are determined by the matrix. *)
From mathcomp Require Import all_ssreflect all_fingroup all_algebra.
From Verif.Model Require Import Colpa.
From Verif.Spec Require Import ColpaSpec SpectrumSpec.
From Verif.Proofs Require Import ColpaProofs.
Set Implicit Arguments.
Unset Strict Implicit.
Unset Printing Implicit Defensive.
Import GRing.Theory Num.Theory Order.TTheory.
Local Open Scope ring_scope.

Lemma similar_char_poly (F : fieldType) n (A B P : 'M[F]_n) : P \in unitmx -> A *m P = P *m B -> char_poly A = char_poly B.
Proof.
  move=> HP H. have Hd : \det (map_mx polyC P) != 0 by rewrite det_map_mx polyC_eq0 -unitfE -unitmxE.
  apply: (mulIf Hd). rewrite /char_poly -det_mulmx mulrC -det_mulmx. congr (\det _).
  rewrite /char_poly_mx mulmxBl mulmxBr -!map_mxM H. congr (_ - _). by rewrite -scalar_mxC.
Qed.
Lemma char_poly_diag (F : fieldType) n (d : 'rV[F]_n) : char_poly (diag_mx d) = \prod_(i < n) ('X - (d 0 i)%:P).
Proof. rewrite char_poly_trig ?diag_mx_is_trig //. by apply: eq_bigr => i _; rewrite mxE eqxx mulr1n. Qed.

Lemma prod_XsubC_perm (F : fieldType) (s t : seq F) : \prod_(x <- s) ('X - x%:P) = \prod_(x <- t) ('X - x%:P) -> perm_eq s t.
Proof.
  elim: s t => [|a s IH] t H.
  - have := size_prod_XsubC t id. rewrite -H big_nil size_poly1. by case: t H.
  - have Ha : a \in t by rewrite -root_prod_XsubC -H root_prod_XsubC inE eqxx.
    rewrite perm_sym. apply: (perm_trans (perm_to_rem Ha)). rewrite perm_cons perm_sym. apply: IH.
    move: H; rewrite big_cons (perm_big _ (perm_to_rem Ha)) big_cons /= => H. apply: (mulfI _ H). by rewrite polyXsubC_eq0.
Qed.

Section Proofs.
Variable C : numClosedFieldType.
Lemma prod_row n (L : 'rV[C]_n) : \prod_(i < n) ('X - (L 0 i)%:P) = \prod_(x <- [seq L 0 i | i <- enum 'I_n]) ('X - x%:P).
Proof. by rewrite big_map big_enum. Qed.

(** Two descending rows with the same characteristic polynomial. *)
Lemma descending_sorted n (L : 'rV[C]_n) : (forall i j : 'I_n, (i <= j)%N -> L 0 j <= L 0 i) -> sorted (fun x y : C => y <= x) [seq L 0 i | i <- enum 'I_n].
Proof.
  move=> H. case: n L H => [|n] L H; first by rewrite (size0nil (size_enum_ord 0)).
  have nthE k : (k < n.+1)%N -> nth 0 [seq L 0 i | i <- enum 'I_n.+1] k = L 0 (nth ord0 (enum 'I_n.+1) k) by move=> Hk; rewrite (nth_map ord0) // size_enum_ord.
  apply/(sortedP 0) => i. rewrite size_map size_enum_ord => Hi. rewrite (nthE i.+1) // (nthE i); last by apply: ltnW.
  apply: H. rewrite nth_enum_ord; last by apply: ltnW. by rewrite nth_enum_ord.
Qed.
Lemma descending_unique n (L L' : 'rV[C]_n) : (forall i j : 'I_n, (i <= j)%N -> L 0 j <= L 0 i) -> (forall i j : 'I_n, (i <= j)%N -> L' 0 j <= L' 0 i) ->
  \prod_(i < n) ('X - (L 0 i)%:P) = \prod_(i < n) ('X - (L' 0 i)%:P) -> L = L'.
Proof.
  move=> H H'. rewrite !prod_row => /prod_XsubC_perm P.
  have Tr : transitive (fun x y : C => y <= x) by move=> y x z A B; apply: le_trans B A.
  have An : antisymmetric (fun x y : C => y <= x) by move=> x y /andP [A B]; apply: le_anti; rewrite A B.
  have X := sorted_eq Tr An (descending_sorted H) (descending_sorted H') P.
  have nthE (M : 'rV[C]_n) (i : 'I_n) : nth 0 [seq M 0 i | i <- enum 'I_n] i = M 0 i.
    by rewrite (nth_map i) ?size_enum_ord ?ltn_ord // nth_ord_enum.
  by apply/rowP => i; rewrite -!nthE X.
Qed.

Variable N : nat.
Notation mat := 'M[C]_(N + N).
Notation g := (g C N).
Lemma core_spectrum (K U : mat) (L : 'rV[C]_(N + N)) : K \in unitmx -> eigenpairs (K *m g *m adj K) L U ->
  exists2 V : mat, V \in unitmx & g *m (adj K *m K) *m V = V *m diag_mx L.
Proof.
  move=> HK HE. exists (invmx K *m U).
  - rewrite unitmx_mul unitmx_inv HK. by case: HE => _ [].
  - have X := eig_mat HE.1. rewrite -[RHS]mulmxA -X !mulmxA mulVmx // mul1mx. by rewrite -[_ *m K *m invmx K]mulmxA mulmxV // mulmx1.
Qed.
Lemma signed_row (L : 'rV[C]_(N + N)) i : signed (g *m L^T)^T i = L 0 i.
Proof. rewrite /signed !g_row !mxE. case: (i < N)%N; first by rewrite mul1r. by rewrite mulN1r opprK. Qed.

Section One.
Variables (cholesky : mat -> option mat) (eig : mat -> option ('rV[C]_(N + N) * mat)) (sort : 'rV[C]_(N + N) -> 'S_(N + N)).
Hypothesis HCh : cholesky_contract cholesky.
Hypothesis HEi : eig_contract eig.
Hypothesis HSo : sort_contract sort.
Lemma spectrum_facts D E G : solve_via_colpa cholesky eig sort D = Solved E G ->
  exists L : 'rV[C]_(N + N), [/\ E = (g *m L^T)^T, forall i, L 0 i \is Num.real, forall i j : 'I_(N + N), (i <= j)%N -> L 0 j <= L 0 i &
    exists2 V : mat, V \in unitmx & g *m D *m V = V *m diag_mx L].
Proof.
  move=> H. have [K [U [L [HK HD HE HS [EE _ _]]]]] := colpa_inv HCh HEi HSo H.
  exists L. split=> //; first by apply: (eig_real (M_herm K) HE). by rewrite HD; apply: core_spectrum HK HE.
Qed.
Lemma colpa_spectrum D E G : solve_via_colpa cholesky eig sort D = Solved E G ->
  char_poly (signature C N *m D) = \prod_(i < N + N) ('X - (signed E i)%:P).
Proof. move=> /spectrum_facts [L [-> _ _ [V HV H]]]. rewrite -g_signature (similar_char_poly HV H) char_poly_diag. by apply: eq_bigr => i _; rewrite signed_row. Qed.
End One.

Lemma colpa_unique cholesky eig sort cholesky' eig' sort' (D D' : mat) E G E' G' :
  cholesky_contract cholesky -> eig_contract eig -> sort_contract sort -> cholesky_contract cholesky' -> eig_contract eig' -> sort_contract sort' ->
  solve_via_colpa cholesky eig sort D = Solved E G -> solve_via_colpa cholesky' eig' sort' D' = Solved E' G' ->
  char_poly (signature C N *m D') = char_poly (signature C N *m D) -> E' = E.
Proof.
  move=> h1 h2 h3 h4 h5 h6 H H'. have [L [-> _ HS [V HV HL]]] := spectrum_facts h1 h2 h3 H. have [L' [-> _ HS' [V' HV' HL']]] := spectrum_facts h4 h5 h6 H'.
  rewrite -!g_signature (similar_char_poly HV HL) (similar_char_poly HV' HL') !char_poly_diag => X. by rewrite (descending_unique HS' HS X).
Qed.

Lemma canonical_spectrum (D T : mat) : para_unitary T -> char_poly (signature C N *m (dagger T *m D *m T)) = char_poly (signature C N *m D).
Proof.
  rewrite /para_unitary -g_signature dagger_adj => HT. have HG : T *m (g *m adj T *m g) = 1%:M by rewrite !mulmxA HT g_g.
  have [HU _] := mulmx1_unit HG. symmetry. apply: (similar_char_poly HU). by rewrite !mulmxA HT.
Qed.
Lemma canonical_definite (D T : mat) : para_unitary T -> (positive_definite (dagger T *m D *m T) <-> positive_definite D).
Proof.
  rewrite /para_unitary -g_signature dagger_adj => HT. have HG : T *m (g *m adj T *m g) = 1%:M by rewrite !mulmxA HT g_g.
  have [HU _] := mulmx1_unit HG. have HA : adj T \in unitmx by rewrite adj_unit.
  split=> -[H1 H2]; split.
  - move: H1. rewrite !dagger_adj !adjM adjK mulmxA => X. have Y : T *m (invmx T) = 1%:M by apply: mulmxV.
    rewrite -[LHS]mul1mx -(mulVmx HA) -[LHS]mulmx1 -{1}Y !mulmxA. rewrite -[_ *m adj T *m adj D]mulmxA.
    rewrite -[_ *m (adj T *m adj D) *m T]mulmxA X. by rewrite !mulmxA mulVmx // mul1mx -mulmxA Y mulmx1.
  - move=> x Hx. have := H2 (invmx T *m x). rewrite !dagger_adj !adjM !mulmxA. have -> : adj x *m adj (invmx T) *m adj T = adj x.
      by rewrite adj_inv -mulmxA mulVmx // mulmx1.
    rewrite -[_ *m T *m invmx T]mulmxA mulmxV // mulmx1. apply. apply: contraNneq Hx => X. by rewrite -[x]mul1mx -(mulmxV HU) -mulmxA X mulmx0.
  - by rewrite dagger_adj !adjM adjK -(dagger_adj D) H1 mulmxA.
  - move=> x Hx. have := H2 (T *m x). rewrite !dagger_adj !adjM !mulmxA. apply. apply: contraNneq Hx => X.
    by rewrite -[x]mul1mx -(mulVmx HU) -mulmxA X mulmx0.
Qed.

(** ** Exchange of particles and holes *)
Lemma exchanged_l (a : 'I_N) : exchanged (lshift N a) = rshift N a.
Proof. by rewrite /exchanged -[lshift N a]/(unsplit (inl a)) unsplitK. Qed.
Lemma exchanged_r (a : 'I_N) : exchanged (rshift N a) = lshift N a.
Proof. by rewrite /exchanged -[rshift N a]/(unsplit (inr a)) unsplitK. Qed.
Lemma exchanged_inv : involutive (@exchanged N).
Proof. by move=> i; rewrite -[i]splitK; case: (split i) => j /=; rewrite ?exchanged_l ?exchanged_r ?exchanged_l. Qed.
Lemma exchanged_sign i : sgn C N 0 (exchanged i) = - sgn C N 0 i.
Proof.
  rewrite -[i]splitK; case: (split i) => j /=; rewrite ?exchanged_l ?exchanged_r !mxE /= ltn_ord ltnNge leq_addr //=. by rewrite opprK.
Qed.
Definition xch : 'S_(N + N) := perm (inv_inj exchanged_inv).
Lemma hole_matrix (D : mat) : g *m particle_hole D *m perm_mx xch = perm_mx xch *m (- map_mx conjC (g *m D)).
Proof.
  rewrite -row_permE -[perm_mx xch]/(perm_mx xch). rewrite -[in LHS](invgK xch) -col_permE.
  have HI : xch^-1%g = xch. apply/permP => i. apply: (@perm_inj _ xch). by rewrite permKV !permE exchanged_inv.
  have S i := exchanged_sign i. rewrite HI. apply/matrixP => i j. move: (S i). rewrite g_diag !mul_diag_mx !mxE !permE exchanged_inv => ->.
  rewrite rmorphM rmorphN mulNr opprK. congr (_ * _). by case: ifP; rewrite ?rmorphN rmorph1.
Qed.
Lemma hole_spectrum (D V : mat) (L : 'rV[C]_(N + N)) : (forall i, L 0 i \is Num.real) -> V \in unitmx -> g *m D *m V = V *m diag_mx L ->
  exists2 V' : mat, V' \in unitmx & g *m particle_hole D *m V' = V' *m diag_mx (- L).
Proof.
  move=> HR HV H. exists (perm_mx xch *m map_mx conjC V).
  - by rewrite unitmx_mul unitmx_perm map_unitmx.
  - rewrite mulmxA hole_matrix -!mulmxA. congr (_ *m _). rewrite mulNmx -map_mxM H map_mxM linearN /= mulmxN. congr (- (_ *m _)).
    rewrite map_diag_mx. congr diag_mx. apply/rowP => i. rewrite mxE. exact: CrealP.
Qed.
Lemma colpa_holes cholesky eig sort cholesky' eig' sort' (D : mat) E G E' G' :
  cholesky_contract cholesky -> eig_contract eig -> sort_contract sort -> cholesky_contract cholesky' -> eig_contract eig' -> sort_contract sort' ->
  solve_via_colpa cholesky eig sort D = Solved E G -> solve_via_colpa cholesky' eig' sort' (particle_hole D) = Solved E' G' ->
  forall i, E' 0 i = E 0 (rev_ord i).
Proof.
  move=> h1 h2 h3 h4 h5 h6 H H'. have [L [-> HR HS [V HV HL]]] := spectrum_facts h1 h2 h3 H. have [L' [-> HR' HS' [V' HV' HL']]] := spectrum_facts h4 h5 h6 H'.
  have [V2 HV2 HL2] := hole_spectrum HR HV HL. 
  have X : L' = \row_i - L 0 (rev_ord i).
    apply: (descending_unique HS').
    - move=> i j Hij. rewrite !mxE ler_opp2. apply: HS. by rewrite /= leq_sub2l.
    - rewrite -!char_poly_diag -(similar_char_poly HV' HL') (similar_char_poly HV2 HL2) !char_poly_diag.
      rewrite (reindex_inj rev_ord_inj) /=. by apply: eq_bigr => i _; rewrite !mxE.
  move=> i. rewrite !g_row X mxE mxE mxE mulrN. have -> : (rev_ord i < N)%N = ~~ (i < N)%N.
    rewrite /= -leqNgt. apply/idP/idP => Hi.
    + rewrite leqNgt. apply/negP => Y. move: Hi. rewrite ltnNge => /negP. apply. apply: (@leq_trans (N + N - N)%N); first by rewrite addnK. by rewrite leq_sub2l.
    + by rewrite ltn_subLR ?ltn_ord // addSn ltnS leq_add2r.
  by case: (i < N)%N; rewrite /= ?mul1r ?mulN1r ?opprK.
Qed.
End Proofs.

Lemma canonical_failures (C : numClosedFieldType) N cholesky eig sort cholesky' eig' sort' (D T : 'M[C]_(N + N)) : para_unitary T ->
  cholesky_contract cholesky -> (forall X, positive_definite X -> cholesky X <> None) -> cholesky_contract cholesky' -> (forall X, positive_definite X -> cholesky' X <> None) ->
  (solve_via_colpa cholesky eig sort D = ColpaFailed <-> solve_via_colpa cholesky' eig' sort' (dagger T *m D *m T) = ColpaFailed).
Proof.
  move=> HT h1 h2 h3 h4. have X := colpa_failed eig sort h1 (h2 D). have Y := colpa_failed eig' sort' h3 (h4 (dagger T *m D *m T)).
  have Z := canonical_definite D HT. tauto.
Qed.
Lemma canonical_unique (C : numClosedFieldType) N cholesky eig sort cholesky' eig' sort' (D T : 'M[C]_(N + N)) E G E' G' : para_unitary T ->
  cholesky_contract cholesky -> eig_contract eig -> sort_contract sort -> cholesky_contract cholesky' -> eig_contract eig' -> sort_contract sort' ->
  solve_via_colpa cholesky eig sort D = Solved E G -> solve_via_colpa cholesky' eig' sort' (dagger T *m D *m T) = Solved E' G' -> E' = E.
Proof. move=> HT h1 h2 h3 h4 h5 h6 H H'. apply: (colpa_unique h1 h2 h3 h4 h5 h6 H H'). exact: canonical_spectrum. Qed.

(** A mixture of creation and annihilation operators. *)
Definition boost (C : numClosedFieldType) N : 'M[C]_(N + N) := block_mx (5%:R / 3%:R)%:M (4%:R / 3%:R)%:M (4%:R / 3%:R)%:M (5%:R / 3%:R)%:M.
Lemma boost_para (C : numClosedFieldType) N : para_unitary (boost C N).
Proof.
  have Cr (n m : nat) : ((n%:R / m%:R : C))^* = n%:R / m%:R by rewrite rmorphM fmorphV !rmorph_nat.
  have E1 : (5%:R / 3%:R : C) * (5%:R / 3%:R) - (4%:R / 3%:R) * (4%:R / 3%:R) = 1.
    rewrite !mulf_div -mulrBl -!natrM -natrB //. by rewrite divff // pnatr_eq0.
  rewrite /para_unitary dagger_adj -g_signature. have -> : adj (boost C N) = boost C N.
    by rewrite /adj /boost map_block_mx tr_block_mx !map_scalar_mx !tr_scalar_mx /= !Cr.
  rewrite /boost /Colpa.g !mulmx_block !mulmx0 !mulmx1 !mulmxN !mulmx1 !addr0 !add0r !mulNmx -!scalar_mxM -!raddfB /=.
  rewrite E1 mulrC subrr -raddfN /=. congr block_mx; rewrite ?raddf0 //. congr (_%:M). by rewrite -[LHS]opprB E1.
Qed.
