(** Concrete runs of Colpa's diagonalization. *)
From mathcomp Require Import all_ssreflect all_fingroup all_algebra.
From Verif.Model Require Import Colpa.
From Verif.Spec Require Import ColpaSpec.
From Verif.Proofs Require Import ColpaProofs.
Set Implicit Arguments.
Unset Strict Implicit.
Unset Printing Implicit Defensive.
Import GRing.Theory Num.Theory Order.TTheory.
Local Open Scope ring_scope.

Section Witness.
Variable C : numClosedFieldType.
Definition descending n (L : 'rV[C]_n) (s : 'S_n) := [forall i : 'I_n, forall j : 'I_n, (i <= j)%N ==> (L 0 (s j) <= L 0 (s i))].
Definition sort_desc n (L : 'rV[C]_n) : 'S_n :=
  if descending L 1%g then 1%g else if [pick s | descending L s] is Some s then s else 1%g.
Lemma descendingP n (L : 'rV[C]_n) (s : 'S_n) : reflect (sorts_descending L s) (descending L s).
Proof.
  apply: (iffP forallP) => [H i j|H i].
  - by move/forallP: (H i) => /(_ j) /implyP.
  - by apply/forallP => j; apply/implyP; apply: H.
Qed.
Lemma sort_desc_ok n : sort_contract (@sort_desc n).
Proof.
  move=> L HL. apply/descendingP. rewrite /sort_desc. case: ifP => // _. case: pickP => // H. exfalso.
  pose t := [tuple L 0 i | i < n]. pose r := fun x y : C => y <= x.
  have : perm_eq (sort_tuple r t) t by rewrite perm_sort.
  case/tuple_permP => p Hp. have X := H p. move/negbT/negP: X; apply. apply/descendingP => i j Hij.
  have Hn : forall k : 'I_n, nth 0 (sort r t) k = L 0 (p k).
    move=> k. have := congr1 (fun s => nth 0 s k) Hp. rewrite /= => ->. by rewrite (nth_map k) ?size_enum_ord // nth_ord_enum !tnth_mktuple.
  rewrite -!Hn.
  have Hs : sorted r (sort r t).
    apply: (@sort_sorted_in _ [pred x : C | x \is Num.real]).
    - move=> x y Hx Hy; exact: real_leVge.
    - by apply/allP => x /mapP [k _ ->]; apply: HL.
  have Ht : transitive r by move=> y x z; rewrite /r => A B; apply: le_trans B A.
  have Hr : reflexive r by move=> x; rewrite /r.
  apply: (sorted_leq_nth Ht Hr 0 Hs) => //; rewrite inE size_sort size_tuple; exact: ltn_ord.
Qed.

Notation toC := (map_mx (@ratr C)).
Definition rmx n (s : seq (seq rat)) : 'M[rat]_n := \matrix_(i, j) nth 0 (nth [::] s i) j.
Definition rrow n (s : seq rat) : 'rV[rat]_n := \row_j nth 0 s j.
Lemma conj_rat (x : rat) : (ratr x : C)^* = ratr x.
Proof. exact: fmorph_rat. Qed.
Lemma dagger_rat m n (A : 'M[rat]_(m, n)) : dagger (toC A) = toC A^T.
Proof. by apply/matrixP => i j; rewrite !mxE conj_rat. Qed.
Lemma norm_rat (x : rat) : `|ratr x : C| ^+ 2 = ratr (x * x).
Proof. by rewrite normCK conj_rat rmorphM. Qed.

Lemma chol_rat n (D L : 'M[rat]_n) : L *m L^T = D -> (forall i j : 'I_n, (i < j)%N -> L i j = 0) -> (forall i, 0 < L i i) ->
  cholesky_factor (toC D) (toC L).
Proof.
  move=> <- Ht Hd. split; first by rewrite dagger_rat map_mxM. split=> [i j H|i]; rewrite mxE; first by rewrite Ht // rmorph0.
  by rewrite ltr0q.
Qed.
Lemma eig_rat n (M U V : 'M[rat]_n) (L : 'rV[rat]_n) : M *m U = U *m diag_mx L -> (forall j, \sum_i U i j * U i j = 1) -> V *m U = 1%:M ->
  eigenpairs (toC M) (toC L) (toC U).
Proof.
  move=> H1 H2 H3. split; [|split].
  - move=> i j. rewrite -map_mxM H1 mul_mx_diag !mxE rmorphM mulrC. by [].
  - move=> j. rewrite -(rmorph1 (ratr_rmorphism C)) -(H2 j) rmorph_sum. by apply: eq_bigr => i _; rewrite mxE norm_rat.
  - by rewrite map_unitmx; have [] := mulmx1_unit H3.
Qed.

Definition rg N : 'M[rat]_(N + N) := \matrix_(i, j) (if i == j then if (i < N)%N then 1 else -1 else 0).
Lemma g_rat N : g C N = toC (rg N).
Proof. rewrite g_signature; apply/matrixP => i j; rewrite !mxE. by case: eqP => _; rewrite ?rmorph0 //; case: ifP => _; rewrite ?rmorphN rmorph1. Qed.
Lemma adj_rat m n (A : 'M[rat]_(m, n)) : adj (toC A) = toC A^T.
Proof. by rewrite -dagger_rat dagger_adj. Qed.

(** Solvers that know one matrix. *)
Definition chol_one n (D L : 'M[rat]_n) : 'M[C]_n -> option 'M[C]_n := fun X => if X == toC D then Some (toC L) else None.
Definition eig_one n (M U : 'M[rat]_n) (L : 'rV[rat]_n) : 'M[C]_n -> option ('rV[C]_n * 'M[C]_n) :=
  fun X => if X == toC M then Some (toC L, toC U) else None.
Lemma chol_one_ok n (D L : 'M[rat]_n) : L *m L^T = D -> (forall i j : 'I_n, (i < j)%N -> L i j = 0) -> (forall i, 0 < L i i) ->
  cholesky_contract (chol_one D L).
Proof. by move=> H1 H2 H3 X Y; rewrite /chol_one; case: eqP => // -> [<-]; apply: chol_rat. Qed.
Lemma eig_one_ok n (M U V : 'M[rat]_n) (L : 'rV[rat]_n) : M *m U = U *m diag_mx L -> (forall j, \sum_i U i j * U i j = 1) ->
  V *m U = 1%:M -> eig_contract (eig_one M U L).
Proof. by move=> H1 H2 H3 X Y Z _; rewrite /eig_one; case: eqP => // -> [<- <-]; apply: eig_rat H1 H2 H3. Qed.
Lemma sorted_rat n (L : 'rV[rat]_n) : (forall i j : 'I_n, (i <= j)%N -> L 0 j <= L 0 i) -> sort_desc (toC L) = 1%g.
Proof. by move=> H; rewrite /sort_desc; case: ifP => // /descendingP []; move=> i j /H; rewrite !perm1 !mxE ler_rat. Qed.

Lemma run_one N (D L M U : 'M[rat]_(N + N)) (l : 'rV[rat]_(N + N)) : L^T *m rg N *m L = M ->
  (forall i j : 'I_(N + N), (i <= j)%N -> l 0 j <= l 0 i) ->
  solve_via_colpa (chol_one D L) (eig_one M U l) (@sort_desc (N + N)) (toC D) =
  let E := toC (rg N *m l^T)^T in
  Solved E (flip_blocks (adj (invmx (toC L^T) *m toC U *m diag_mx (map_mx sqrtC E)))).
Proof.
  move=> HM Hl. rewrite /solve_via_colpa /chol_one eqxx adj_rat adj_rat trmxK g_rat -!map_mxM HM /eig_one eqxx sorted_rat //.
  have -> : \row_i toC l 0 ((1%g : 'S_(N + N)) i) = toC l :> 'rV[C]_(N + N) by apply/rowP => i; rewrite !mxE perm1.
  have -> : \matrix_(i, j) toC U i ((1%g : 'S_(N + N)) j) = toC U :> 'M[C]_(N + N) by apply/matrixP => i j; rewrite !mxE perm1.
  have -> : (toC (rg N) *m (toC l)^T)^T = toC (rg N *m l^T)^T :> 'rV[C]_(N + N) by rewrite -[RHS]map_trmx map_mxM map_trmx.
  by [].
Qed.

(** Rational matrices are computed with entry by entry. *)
Notation entry A i j := (nth (0 : rat) (nth [::] A i) j).
Definition product_check n (A B P : seq (seq rat)) : bool :=
  all (fun i => all (fun j => foldr (fun k a => entry A i k * entry B k j + a) 0 (iota 0 n) == entry P i j) (iota 0 n)) (iota 0 n).
Definition entry_check n (f : nat -> nat -> rat) (P : seq (seq rat)) : bool :=
  all (fun i => all (fun j => f i j == entry P i j) (iota 0 n)) (iota 0 n).
Lemma all_ord n (P : pred nat) (i : 'I_n) : all P (iota 0 n) -> P i.
Proof. by move/allP; apply; rewrite mem_iota /= add0n ltn_ord. Qed.
Lemma rmx_prod n A B P : product_check n A B P -> rmx n A *m rmx n B = rmx n P.
Proof.
  move=> H; apply/matrixP => i j. move: (all_ord i H) => /(all_ord j) /eqP. rewrite !mxE => <-.
  under eq_bigr do rewrite !mxE. rewrite -(big_mkord xpredT (fun k => entry A i k * entry B k j)) /index_iota subn0.
  by rewrite unlock /reducebig /=. 
Qed.
Lemma rmx_entries n (f : nat -> nat -> rat) P : entry_check n f P -> \matrix_(i < n, j < n) f i j = rmx n P.
Proof. move=> H; apply/matrixP => i j. move: (all_ord i H) => /(all_ord j) /eqP. by rewrite !mxE. Qed.
Lemma rmx_tr n A P : entry_check n (fun i j => entry A j i) P -> (rmx n A)^T = rmx n P.
Proof. move/rmx_entries <-. by apply/matrixP => i j; rewrite !mxE. Qed.
Lemma rmx_one n P : entry_check n (fun i j => (i == j)%:R) P -> 1%:M = rmx n P.
Proof. move/rmx_entries <-. by apply/matrixP => i j; rewrite !mxE. Qed.
Lemma rmx_g N P : entry_check (N + N) (fun i j => if i == j then if (i < N)%N then 1 else -1 else 0) P -> rg N = rmx (N + N) P.
Proof. by move/rmx_entries <-. Qed.
Lemma rmx_diag n l P : entry_check n (fun i j => (nth 0 l i) *+ (i == j)) P -> diag_mx (rrow n l) = rmx n P.
Proof. move/rmx_entries <-. by apply/matrixP => i j; rewrite !mxE. Qed.
Definition unit_check n (U : seq (seq rat)) : bool :=
  all (fun j => foldr (fun k a => entry U k j * entry U k j + a) 0 (iota 0 n) == 1) (iota 0 n).
Lemma rmx_unit n U : unit_check n U -> forall j, \sum_i rmx n U i j * rmx n U i j = 1.
Proof.
  move=> H j. move: (all_ord j H) => /eqP <-. under eq_bigr do rewrite !mxE.
  rewrite -(big_mkord xpredT (fun k => entry U k j * entry U k j)) /index_iota subn0. by rewrite unlock /reducebig /=.
Qed.
Definition sorted_check n (l : seq rat) : bool :=
  all (fun i => all (fun j => (i <= j)%N ==> (nth 0 l j <= nth 0 l i)) (iota 0 n)) (iota 0 n).
Lemma rrow_sorted n l : sorted_check n l -> forall i j : 'I_n, (i <= j)%N -> rrow n l 0 j <= rrow n l 0 i.
Proof. move=> H i j. move: (all_ord i H) => /(all_ord j) /implyP. by rewrite !mxE. Qed.
Definition lower_check n (L : seq (seq rat)) : bool :=
  all (fun i => all (fun j => (i < j)%N ==> (entry L i j == 0)) (iota 0 n)) (iota 0 n) && all (fun i => 0 < entry L i i) (iota 0 n).
Lemma rmx_lower n L : lower_check n L -> (forall i j : 'I_n, (i < j)%N -> rmx n L i j = 0) /\ (forall i, 0 < rmx n L i i).
Proof.
  case/andP=> H1 H2. split.
  - move=> i j H. move: (all_ord i H1) => /(all_ord j) /implyP /(_ H) /eqP. by rewrite mxE.
  - move=> i. move: (all_ord i H2). by rewrite mxE.
Qed.
Ltac check := vm_compute; reflexivity.

Notation one := (1 : rat).
Definition D1 := [:: [:: 625%:Q; 600%:Q]; [:: 600%:Q; 625%:Q]].
Definition L1 := [:: [:: 25%:Q; 0%:Q]; [:: 24%:Q; 7%:Q]].
Definition L1t := [:: [:: 25%:Q; 24%:Q]; [:: 0%:Q; 7%:Q]].
Definition g1 := [:: [:: one; 0]; [:: 0; - one]].
Definition L1tg := [:: [:: 25%:Q; - 24%:Q]; [:: 0%:Q; - 7%:Q]].
Definition M1 := [:: [:: 49%:Q; - 168%:Q]; [:: - 168%:Q; - 49%:Q]].
Definition U1 := [:: [:: 4%:Q / 5%:Q; 3%:Q / 5%:Q]; [:: - (3%:Q / 5%:Q); 4%:Q / 5%:Q]].
Definition U1t := [:: [:: 4%:Q / 5%:Q; - (3%:Q / 5%:Q)]; [:: 3%:Q / 5%:Q; 4%:Q / 5%:Q]].
Definition e1 := [:: 175%:Q; - 175%:Q].
Definition E1 := [:: [:: 175%:Q; 0]; [:: 0; - 175%:Q]].
Definition UE1 := [:: [:: 140%:Q; - 105%:Q]; [:: - 105%:Q; - 140%:Q]].
Definition I1 := [:: [:: one; 0]; [:: 0; one]].
Definition d1 : 'M[rat]_(1 + 1) := rmx (1 + 1) D1.
Definition l1 : 'M[rat]_(1 + 1) := rmx (1 + 1) L1.
Definition m1 : 'M[rat]_(1 + 1) := rmx (1 + 1) M1.
Definition u1 : 'M[rat]_(1 + 1) := rmx (1 + 1) U1.
Lemma d1_chol : l1 *m l1^T = d1.
Proof. rewrite /l1 (@rmx_tr _ L1 L1t); last check. by apply: rmx_prod; check. Qed.
Lemma d1_form : l1^T *m rg 1 *m l1 = m1.
Proof.
  rewrite /l1 (@rmx_tr _ L1 L1t); last check. rewrite (@rmx_g 1 g1); last check.
  rewrite (@rmx_prod _ L1t g1 L1tg); last check. by apply: rmx_prod; check.
Qed.
Lemma d1_eig : m1 *m u1 = u1 *m diag_mx (rrow (1 + 1) e1).
Proof. rewrite (@rmx_diag _ e1 E1); last check. by rewrite !(@rmx_prod _ _ _ UE1); check. Qed.
Lemma d1_inv : u1^T *m u1 = 1%:M.
Proof. rewrite /u1 (@rmx_tr _ U1 U1t); last check. rewrite (@rmx_one _ I1); last check. by apply: rmx_prod; check. Qed.

Definition L2 : seq (seq rat) := [:: [:: one; 0; 0; 0]; [:: 0; one; 0; 0]; [:: 0; 0; one; 0]; [:: 0; 0; 0; one]].
Definition G2 : seq (seq rat) := [:: [:: one; 0; 0; 0]; [:: 0; one; 0; 0]; [:: 0; 0; - one; 0]; [:: 0; 0; 0; - one]].
Definition U2 : seq (seq rat) := [:: [:: one; 3%:Q / 5%:Q; 0; 0]; [:: 0; 4%:Q / 5%:Q; 0; 0]; [:: 0; 0; one; 0]; [:: 0; 0; 0; one]].
Definition U2t : seq (seq rat) := [:: [:: one; 0; 0; 0]; [:: 3%:Q / 5%:Q; 4%:Q / 5%:Q; 0; 0]; [:: 0; 0; one; 0]; [:: 0; 0; 0; one]].
Definition U2g : seq (seq rat) := [:: [:: one; 3%:Q / 5%:Q; 0; 0]; [:: 0; 4%:Q / 5%:Q; 0; 0]; [:: 0; 0; - one; 0]; [:: 0; 0; 0; - one]].
Definition U2tg : seq (seq rat) := [:: [:: one; 0; 0; 0]; [:: 3%:Q / 5%:Q; 4%:Q / 5%:Q; 0; 0]; [:: 0; 0; - one; 0]; [:: 0; 0; 0; - one]].
Definition V2 : seq (seq rat) := [:: [:: one; - (3%:Q / 4%:Q); 0; 0]; [:: 0; 5%:Q / 4%:Q; 0; 0]; [:: 0; 0; one; 0]; [:: 0; 0; 0; one]].
(** U^T g U and U U^T *)
Definition P2 : seq (seq rat) := [:: [:: one; 3%:Q / 5%:Q; 0; 0]; [:: 3%:Q / 5%:Q; one; 0; 0]; [:: 0; 0; - one; 0]; [:: 0; 0; 0; - one]].
Definition Q2 : seq (seq rat) := [:: [:: 34%:Q / 25%:Q; 12%:Q / 25%:Q; 0; 0]; [:: 12%:Q / 25%:Q; 16%:Q / 25%:Q; 0; 0]; [:: 0; 0; one; 0]; [:: 0; 0; 0; one]].
Definition e2 : seq rat := [:: one; one; - one; - one].
Definition l2 : 'M[rat]_(2 + 2) := rmx (2 + 2) L2.
Definition u2 : 'M[rat]_(2 + 2) := rmx (2 + 2) U2.
Lemma l2_one : l2 = 1%:M.
Proof. by rewrite (@rmx_one _ L2); last check. Qed.
Lemma rg2 : rg 2 = rmx (2 + 2) G2.
Proof. by rewrite (@rmx_g 2 G2); last check. Qed.
Lemma u2t : u2^T = rmx (2 + 2) U2t.
Proof. by rewrite (@rmx_tr _ U2 U2t); last check. Qed.
Lemma d2_eig : rg 2 *m u2 = u2 *m diag_mx (rrow (2 + 2) e2).
Proof. rewrite rg2 (@rmx_diag _ e2 G2); last check. by rewrite !(@rmx_prod _ _ _ U2g); check. Qed.
Lemma d2_inv : rmx (2 + 2) V2 *m u2 = 1%:M.
Proof. rewrite (@rmx_one _ L2); last check. by apply: rmx_prod; check. Qed.
Lemma d2_gram : u2^T *m rg 2 *m u2 = rmx (2 + 2) P2.
Proof. rewrite u2t rg2 (@rmx_prod _ U2t G2 U2tg); last check. by apply: rmx_prod; check. Qed.
Lemma d2_outer : u2 *m u2^T = rmx (2 + 2) Q2.
Proof. rewrite u2t. by apply: rmx_prod; check. Qed.
Lemma rg_rg N : rg N *m rg N = 1%:M.
Proof. apply: (@map_mx_inj _ _ (ratr_rmorphism C)). by rewrite map_mxM map_mx1 -g_rat g_g. Qed.
Lemma E_rat N (l : 'rV[rat]_(N + N)) i : (toC (rg N *m l^T)^T) 0 i = ratr ((if (i < N)%N then 1 else -1) * l 0 i) :> C.
Proof.
  rewrite mxE mxE mxE (bigD1 i) //= big1 => [|k Hk]; last by rewrite mxE eq_sym (negbTE Hk) mul0r.
  by rewrite !mxE eqxx addr0.
Qed.

(** A run with a genuine pairing term: D = [[625, 600], [600, 625]] has the energies 175 and 175. *)
Lemma run_example : exists cholesky eig (E : 'rV[C]_(1 + 1)) (G : 'M[C]_(1 + 1)),
  [/\ cholesky_contract cholesky, eig_contract eig, sort_contract (@sort_desc (1 + 1)),
      solve_via_colpa cholesky eig (@sort_desc (1 + 1)) (toC d1) = Solved E G &
      nondegenerate E /\ E 0 0 = 175%:R].
Proof.
  exists (chol_one d1 l1), (eig_one m1 u1 (rrow (1 + 1) e1)), (toC (rg 1 *m (rrow (1 + 1) e1)^T)^T). eexists. split; last first.
  - split; last first.
    + by rewrite E_rat /= mul1r mxE /= ratr_int.
    + move=> i j Hij _. apply: val_inj. move: Hij. case: i => [[|[|i]] Hi] //; case: j => [[|[|j]] Hj] //.
  - apply: run_one d1_form _. by apply: rrow_sorted; check.
  - exact: sort_desc_ok.
  - apply: eig_one_ok d1_eig _ d1_inv. by apply: rmx_unit; check.
  - have [|H1 H2] := @rmx_lower (1 + 1) L1; first check. exact: chol_one_ok d1_chol H1 H2.
Qed.

(** D = 1 with two modes: [eig] may return eigenvectors of the double eigenvalue that are not orthogonal. *)
Lemma degenerate_refuted : exists cholesky eig (E : 'rV[C]_(2 + 2)) (G : 'M[C]_(2 + 2)),
  [/\ cholesky_contract cholesky, eig_contract eig, sort_contract (@sort_desc (2 + 2)),
      solve_via_colpa cholesky eig (@sort_desc (2 + 2)) 1%:M = Solved E G &
      ~ para_unitary G /\ ~ diagonalizes 1%:M G E].
Proof.
  have D1 : toC l2 = 1%:M :> 'M[C]_(2 + 2) by rewrite l2_one map_mx1.
  have HF : l2^T *m rg 2 *m l2 = rg 2 by rewrite l2_one trmx1 mul1mx mulmx1.
  pose l := rrow (2 + 2) e2. pose E : 'rV[C]_(2 + 2) := toC (rg 2 *m l^T)^T.
  have E1 : forall i, E 0 i = 1.
    move=> i. rewrite E_rat mxE. have H : all (fun k => (if (k < 2)%N then 1 else -1) * nth 0 e2 k == 1) (iota 0 4) by check.
    by rewrite (eqP (all_ord i H)) rmorph1.
  exists (chol_one l2 l2), (eig_one (rg 2) u2 l). exists E, (flip_blocks (adj (invmx (toC l2^T) *m toC u2 *m diag_mx (map_mx sqrtC E)))). split; last first.
  - have EE : diag_mx (map_mx sqrtC E) = 1%:M.
      by rewrite -diag_const_mx; congr diag_mx; apply/rowP => i; rewrite mxE E1 mxE sqrtC1.
    have ED : diag_mx E = 1%:M by rewrite -diag_const_mx; congr diag_mx; apply/rowP => i; rewrite E1 mxE.
    rewrite -map_trmx D1 trmx1 invmx1 mul1mx EE mulmx1 flip_g adj_rat g_rat -!map_mxM. split.
    + rewrite /para_unitary -g_signature g_rat dagger_rat -!map_mxM => /map_mx_inj.
      rewrite !trmx_mul trmxK. set g2 := rg 2. have Hg : g2^T = g2 by apply/matrixP => i j; rewrite !mxE eq_sym; case: eqP => // ->.
      rewrite Hg => X. have Y : u2^T *m g2 *m u2 = g2.
        have := congr1 (fun Z => g2 *m Z *m g2) X. rewrite !mulmxA rg_rg mul1mx -!mulmxA rg_rg !mulmx1.
        by rewrite (mulmxA g2 g2 (g2 *m u2)) rg_rg !mul1mx !mulmxA.
      move: Y; rewrite d2_gram /g2 rg2. move/matrixP => /(_ 0 1). rewrite !mxE /= => /eqP. by vm_compute.
    + rewrite /diagonalizes ED mulmx1 dagger_rat -!map_mxM -(map_mx1 (ratr_rmorphism C)) => /map_mx_inj.
      rewrite !trmx_mul trmxK. set g2 := rg 2. have Hg : g2^T = g2 by apply/matrixP => i j; rewrite !mxE eq_sym; case: eqP => // ->.
      rewrite Hg => X. have Y : u2 *m u2^T = 1%:M.
        have := congr1 (fun Z => g2 *m Z *m g2) X. rewrite mulmx1 !mulmxA !rg_rg mul1mx -!mulmxA rg_rg mulmx1.
        by rewrite (mulmxA g2 g2) rg_rg mul1mx => <-.
      move: Y; rewrite d2_outer. move/matrixP => /(_ 0 0). rewrite !mxE /= => /eqP. by vm_compute.
  - rewrite -[in LHS]D1. apply: run_one HF _. by apply: rrow_sorted; check.
  - exact: sort_desc_ok.
  - apply: eig_one_ok d2_eig _ d2_inv. by apply: rmx_unit; check.
  - have [|H1 H2] := @rmx_lower (2 + 2) L2; first check. have H3 : l2 *m l2^T = l2 by rewrite l2_one trmx1 mulmx1. exact: chol_one_ok H3 H1 H2.
Qed.

Lemma colpa_refuted : exists (cholesky : 'M[C]_(2 + 2) -> option 'M[C]_(2 + 2)) eig sort (E : 'rV[C]_(2 + 2)) (G : 'M[C]_(2 + 2)),
  [/\ cholesky_contract cholesky, eig_contract eig, sort_contract sort,
      solve_via_colpa cholesky eig sort 1%:M = Solved E G &
      ~ para_unitary G /\ ~ diagonalizes 1%:M G E].
Proof. have [c [e [E [G H]]]] := degenerate_refuted. by exists c, e, (@sort_desc (2 + 2)), E, G. Qed.
Lemma colpa_example : exists (cholesky : 'M[C]_(1 + 1) -> option 'M[C]_(1 + 1)) eig sort (E : 'rV[C]_(1 + 1)) (G : 'M[C]_(1 + 1)),
  [/\ cholesky_contract cholesky, eig_contract eig, sort_contract sort,
      solve_via_colpa cholesky eig sort (\matrix_(i, j) (if i == j then 625%:R else 600%:R)) = Solved E G &
      nondegenerate E /\ E 0 0 = 175%:R].
Proof.
  have [c [e [E [G H]]]] := run_example. exists c, e, (@sort_desc (1 + 1)), E, G.
  have -> : \matrix_(i, j) (if i == j then 625%:R else 600%:R) = toC d1 :> 'M[C]_(1 + 1).
    apply/matrixP; case=> [[|[|i]] Hi] //; case=> [[|[|j]] Hj] //; rewrite !mxE /= ratr_int //.
  exact: H.
Qed.
End Witness.
