(** Energies of a ferromagnet with two atoms in the cell, through construction, matrix and diagonalization. *)
From Coq Require Import List Bool ZArith Reals Lra Lia Permutation Arith.
From Coquelicot Require Import Complex.
From Verif.Base Require Import Scalar ScalarR Linear3 PyDict.
From Verif.Model Require Import MatrixParam Hamiltonian History EnergyInit Energy Dispersion Solver.
From Verif.Spec Require Import HamSpec HistorySpec NotationSpec EnergySpec DispersionSpec SpinWaveSpec OmegaSpec TextbookSpec SublatticeSpec ParallelSpec.
From Verif.Proofs Require Import DictProofs HamBasics HamSetters HamDouble HamDcEnergy NotationProofs HistoryProofs CallProofs FilterProofs FrameProofs
  HamGlue EnergyInitProofs OptimizerProofs DispersionMatrix DispersionInit DispersionAxes DispersionModes DispersionGlue EnergyFunctional SpinWaveLocal SpinWaveQuad SpinWaveProofs
  TextbookProofs StableGlue RotationProofs TwoFerro SublatticeMatrix SublatticeLocal SublatticeProofs ParallelMatrix ParallelLocal.
From Coq Require Import List.
Import ListNotations.
Local Open Scope R_scope.

Section TwoAtoms.
Variables (order : list atom -> list atom) (cell : M3 R) (pos : atom -> V3 R) (sv : atom -> option (V3 R)) (w w1 : world) (D : dispersion)
  (dc sn : bool) (ef of_ : R) (a b : atom) (sa sb : V3 R) (np : numpy) (x z : bkey -> R) (y : atom -> R).
Hypothesis Np : numpy_works np.
Hypothesis W : wf w.
Hypothesis U : unshared w.
Hypothesis Sp : spins_defined w.
Hypothesis St : reciprocal_storage w dc.
Hypothesis No : notation_is w dc sn ef of_.
Hypothesis Ne : ef <> 0.
Hypothesis Nf : of_ <> 0.
Hypothesis P : forall l, Permutation (order l) l.
Hypothesis Dab : a <> b.
Hypothesis Ha : carries w a.
Hypothesis Hb : carries w b.
Hypothesis two : forall c, carries w c -> c = a \/ c = b.
Hypothesis Ea : sv a = Some sa.
Hypothesis Eb : sv b = Some sb.
Hypothesis Hsa : spin_of w a = Some (norm sa).
Hypothesis Hsb : spin_of w b = Some (norm sb).
Hypothesis para : direction_of sb = direction_of sa.
Hypothesis pa : ~ near_pole (direction_of sa) \/ direction_of sa = mkV 0 0 1 \/ direction_of sa = mkV 0 0 (-1).
Hypothesis exch : forall k J, bond_value w k = Some J -> J = madd (mscale (x k) mid) (mscale (z k) (projector (direction_of sa))).
Hypothesis site : forall c A, onsite_value w c = Some A -> A = mscale (y c) (projector (direction_of sa)).
Hypothesis H : dispersion_init order cell pos sv w = (w1, Ret D).

Let n := direction_of sa.
Let sg (s : V3 R) : R := if sn then 1 else norm s.

Lemma pole_parallel : ~ near_pole (direction_of sb) \/ direction_of sb = mkV 0 0 1 \/ direction_of sb = mkV 0 0 (-1).
Proof. rewrite para. exact pa. Qed.
Lemma uniaxial_parallel : symmetric_onsite w.
Proof.
  intros c A E. rewrite (site c A E). destruct (direction_of sa). unfold mtrans, mscale, mmap, projector; cbn. f_equal; ring.
Qed.

Section Numbered.
Variable atoms : list atom.
Hypothesis Pa : pindex atoms a = 0%nat.
Hypothesis Pb : pindex atoms b = 1%nat.
Hypothesis N2 : d_N D = 2%nat.
Hypothesis Na : norm sa <> 0.
Hypothesis Nb : norm sb <> 0.
Let Sl (c : atom) : R := if eq_dec c a then norm sa else norm sb.
Hypothesis Q : forall k psi, fst (quad (2 * d_N D) (d_h (w_store w1) D k) psi) =
      total (pe cell pos k Sl (ax1 sv) (ax2 sv) (ax3 sv) (fun a => psi (pindex atoms a)) (fun a => psi (d_N D + pindex atoms a)%nat))
        (se cell pos k Sl (ax1 sv) (ax2 sv) (ax3 sv) (fun a => psi (pindex atoms a)) (fun a => psi (d_N D + pindex atoms a)%nat)) w sn ef of_.

Lemma frames_parallel : right_handed (ax1 sv a) (ax2 sv a) n /\ ax3 sv a = n /\ ax3 sv b = n /\ right_handed (ax1 sv b) (ax2 sv b) n.
Proof.
  destruct (axes_true sa Na) as (e1 & e2 & e3 & E & Rh & T). destruct (axes_true sb Nb) as (f1 & f2 & f3 & F & Fh & T').
  unfold ax1, ax2, ax3, axes_of. rewrite Ea, Eb, E, F. cbn [fst snd]. assert (X := T pa). assert (X' := T' pole_parallel). rewrite para in X'. fold n in X, X'. rewrite X in Rh. rewrite X' in Fh. auto.
Qed.

Variable k : V3 R.
Let theta c := dot k (displacement cell pos c).
Let A := sublattice_energy w ef of_ theta x z y a b (norm sa) (sg sa) (- sg sb).
Let B := sublattice_energy w ef of_ theta x z y b a (norm sb) (sg sb) (- sg sa).
Let G := structure w theta x a b.
Let t := ef * (sg sa * sg sb) / sqrt (norm sa * norm sb).

Lemma side_matrix : exists u : C, Cmod u = 1 /\ forall p q, (p < 4)%nat -> (q < 4)%nat ->
  d_h (w_store w1) D k p q = beside A B (Cmult (RtoC t) (Cmult u G)) (Cmult (RtoC t) (Cmult u (Cconj G))) p q.
Proof.
  destruct frames_parallel as (Ra & A3 & B3 & Rb). destruct (frames _ _ _ _ _ Ra Rb) as (c & s & N1 & E1 & E2).
  assert (Posa := norm_pos sa Na). assert (Posb := norm_pos sb Nb).
  exists (c, s). split. { unfold Cmod; cbn [fst snd]. replace (c ^ 2 + s ^ 2) with 1 by (rewrite <- N1; ring). apply sqrt_1. }
  assert (Rc := storage_reciprocal w dc W St).
  assert (He := made_hermitian order cell pos sv w w1 D W U Rc uniaxial_parallel H k). rewrite N2 in He. change (2 * 2)%nat with 4%nat in He.
  apply quad_unique; [exact He|apply beside_hermitian|]. intros psi.
  assert (Qk := Q k psi). rewrite N2 in Qk. change (2 * 2)%nat with 4%nat in Qk. rewrite Qk. clear Qk.
  rewrite beside_quad, !re3_scale. unfold total. rewrite !sum_fsum. cbn [Scalar.fadd Scalar.fmul R_Scalar].
  assert (La : Sl a = norm sa) by (unfold Sl; destruct (eq_dec a a); [reflexivity|contradiction]).
  assert (Lb : Sl b = norm sb) by (unfold Sl; destruct (eq_dec b a); [congruence|reflexivity]).
  assert (Sa : sdef (slen sn (w_ham w) a) = sg sa).
  { unfold slen, sg. destruct sn; [reflexivity|]. assert (X := Hsa). unfold spin_of in X. rewrite X. reflexivity. }
  assert (Sb : sdef (slen sn (w_ham w) b) = sg sb).
  { unfold slen, sg. destruct sn; [reflexivity|]. assert (X := Hsb). unfold spin_of in X. rewrite X. reflexivity. }
  set (ua := two_real (psi 0%nat) + two_real (psi 2%nat)). set (ub := two_real (psi 1%nat) + two_real (psi 3%nat)).
  set (ev := even_side (c, s) (psi 0%nat) (psi 2%nat) (psi 1%nat) (psi 3%nat)). set (od := odd_side (c, s) (psi 0%nat) (psi 2%nat) (psi 1%nat) (psi 3%nat)).
  set (m := sg sa * sg sb / sqrt (norm sa * norm sb)).
  rewrite (sum_ext (bonds w) _ (fun h =>
     sg sa / norm sa * (2 * sg sa) * ua * only (joins a a h) (x h * (cos (theta h) - 1) - z h) + sg sb / norm sb * (2 * sg sb) * ub * only (joins b b h) (x h * (cos (theta h) - 1) - z h)
     + - (sg sa / norm sa * sg sb * ua) * only (joins a b h || joins b a h) (x h + z h) + - (sg sb / norm sb * sg sa * ub) * only (joins b a h || joins a b h) (x h + z h)
     + m * ev * only (joins a b h || joins b a h) (x h * cos (theta h)) + m * od * (only (joins a b h) (x h * sin (theta h)) - only (joins b a h) (x h * sin (theta h))))).
  2:{ intros h I. destruct (proj1 (bond_value_stored w h W) I) as [J EJ]. rewrite EJ. cbn [vdef]. rewrite (exch h J EJ). fold n. change (madd (mscale (x h) mid) (mscale (z h) (projector n))) with (axial (x h) (z h) n).
      unfold bond_weight, pe, joins. fold (theta h).
      assert (N3 : b <> a) by congruence.
      destruct (two (b_from h)) as [Ef|Ef]; [left; eauto| |]; (destruct (two (b_to h)) as [Et|Et]; [left; eauto| |]); rewrite !Ef, !Et, ?Sa, ?Sb, ?La, ?Lb, ?Pa, ?Pb, ?A3, ?B3, ?same_refl, ?(same_diff a b Dab), ?(same_diff b a N3);
        cbn [andb orb only Nat.add Scalar.fmul R_Scalar].
      - rewrite (parallel_bond _ _ _ _ _ Ra) by exact Posa. unfold ua. field. lra.
      - rewrite (side_bond _ _ _ _ _ Ra c s _ _ E1 E2) by assumption. unfold ua, ub, ev, od, m. field. split; [|lra]. apply Rgt_not_eq, sqrt_lt_R0. nra.
      - rewrite (side_bond' _ _ _ _ _ Ra c s _ _ E1 E2) by assumption. unfold ua, ub, ev, od, m. field. split; [|lra]. apply Rgt_not_eq, sqrt_lt_R0. nra.
      - rewrite (parallel_bond _ _ _ _ _ Rb) by exact Posb. unfold ub. field. lra. }
  rewrite sum_six.
  rewrite (sum_ext (sites w) _ (fun e => - (sg sa / norm sa * (2 * sg sa) * ua) * only (same e a) (y e) + - (sg sb / norm sb * (2 * sg sb) * ub) * only (same e b) (y e))).
  2:{ intros e I. destruct (proj1 (onsite_value_stored w e W) I) as [J EJ]. rewrite EJ. cbn [vdef]. rewrite (site e J EJ). fold n.
      replace (mscale (y e) (projector n)) with (axial 0 (y e) n) by (destruct n; unfold axial, projector, madd, mscale, mmap, mmap2, mid; cbn; f_equal; ring).
      unfold site_weight, se, pe. cbn [own b_from b_to]. assert (N3 : b <> a) by congruence.
      destruct (two e) as [Ee|Ee]; [right; exact I| |]; rewrite !Ee, ?Sa, ?Sb, ?La, ?Lb, ?Pa, ?Pb, ?A3, ?B3, ?same_refl, ?(same_diff a b Dab), ?(same_diff b a N3); cbn [only Nat.add Scalar.fmul R_Scalar].
      - rewrite (parallel_bond _ _ _ _ _ Ra) by exact Posa. unfold ua. field. lra.
      - rewrite (parallel_bond _ _ _ _ _ Rb) by exact Posb. unfold ub. field. lra. }
  rewrite sum_lin.
  unfold G. set (S1 := sum_over (bonds w) (fun h => only (joins a b h || joins b a h) (x h * cos (theta h)))).
  set (S2 := sum_over (bonds w) (fun h => only (joins a b h) (x h * sin (theta h)) - only (joins b a h) (x h * sin (theta h)))).
  change (structure w theta x a b) with ((S1, S2) : C). change (Cconj (S1, S2)) with ((S1, - S2) : C). rewrite !re3_parts.
  change t with (ef * (sg sa * sg sb) / sqrt (norm sa * norm sb)). unfold A, B, sublattice_energy, ev, od, even_side, odd_side, m.
  field. split; [|lra]. apply Rgt_not_eq, sqrt_lt_R0. nra.
Qed.

Lemma side_energies zeros return_imaginary : 
  let g := coupling w ef theta x a b (norm sa) (norm sb) (sg sa) (sg sb) in
  0 < A -> g * g < A * B ->
  fst (omega (colpa_solver np (d_N D)) (d_N D) (d_h (w_store w1) D k) zeros false return_imaginary) = map (fun e => chop (Num (RtoC e))) (optical_and_acoustic A B g).
Proof.
  intros g PA Pg. rewrite N2. destruct side_matrix as (u & Nu & M). set (h := d_h (w_store w1) D k) in *.
  assert (G1 : forall c, Cmod c = Cmod G -> Cmod (Cmult (RtoC t) (Cmult u c)) * Cmod (Cmult (RtoC t) (Cmult u c)) = g * g).
  { intros c Ec. rewrite !Cmod_mult, Cmod_R, Nu, Ec, Rmult_1_l. unfold g, coupling. fold t. fold G. replace (Rabs t * Cmod G * (Rabs t * Cmod G)) with (Rabs t * Rabs t * (Cmod G * Cmod G)) by ring.
    replace (Rabs t * Rabs t) with (t * t) by (rewrite <- Rabs_mult; rewrite Rabs_pos_eq by nra; reflexivity). ring. }
  assert (G2 := G1 G eq_refl). assert (G3 := G1 (Cconj G) (Cmod_conj G)). set (c := Cmult (RtoC t) (Cmult u G)) in *. set (c' := Cmult (RtoC t) (Cmult u (Cconj G))) in *. clear G1.
  assert (PB : 0 < B). { assert (0 < A * B) by nra. apply (Rmult_lt_reg_l A); [exact PA|]. lra. }
  assert (Hd : positive_definite 4 h) by (apply (definite_ext _ _ M), beside_definite; try assumption; rewrite ?G2, ?G3; assumption).
  assert (E : forall p q, (p < 4)%nat -> (q < 4)%nat -> h p q = beside A B c c' p q) by exact M.
  rewrite (@hopping_energies np h zeros return_imaginary A B (g * g) Np Hd); try assumption.
  - reflexivity.
  - unfold unpaired. repeat split; rewrite E by lia; reflexivity.
  - rewrite E by lia. reflexivity.
  - rewrite E by lia. reflexivity.
  - rewrite E by lia. reflexivity.
  - rewrite E by lia. reflexivity.
  - rewrite E by lia. exact G2.
  - rewrite E by lia. cbn [beside]. rewrite Cmod_conj. exact G3.
Qed.
End Numbered.
End TwoAtoms.

Lemma ferromagnet_two : forall order cell pos sv (w w1 : world) D dc sn ef of_ a b sa sb np, numpy_works np ->
  wf w -> unshared w -> spins_defined w -> reciprocal_storage w dc -> notation_is w dc sn ef of_ -> ef <> 0 -> of_ <> 0 ->
  (forall l, Permutation (order l) l) -> a <> b -> carries w a -> carries w b -> (forall c, carries w c -> c = a \/ c = b) ->
  sv a = Some sa -> sv b = Some sb -> spin_of w a = Some (norm sa) -> spin_of w b = Some (norm sb) ->
  direction_of sb = direction_of sa -> (~ near_pole (direction_of sa) \/ direction_of sa = mkV 0 0 1 \/ direction_of sa = mkV 0 0 (-1)) ->
  dispersion_init order cell pos sv w = (w1, Ret D) ->
  forall x z y, (forall k J, bond_value w k = Some J -> J = madd (mscale (x k) mid) (mscale (z k) (projector (direction_of sa)))) ->
  (forall c A, onsite_value w c = Some A -> A = mscale (y c) (projector (direction_of sa))) ->
  forall k zeros_to_none return_imaginary,
    let theta c := dot k (displacement cell pos c) in
    let sg s := if sn then 1 else norm s in
    let al := sublattice_energy w ef of_ theta x z y a b (norm sa) (sg sa) (- sg sb) in
    let be := sublattice_energy w ef of_ theta x z y b a (norm sb) (sg sb) (- sg sa) in
    let g := coupling w ef theta x a b (norm sa) (norm sb) (sg sa) (sg sb) in
    0 < al -> g * g < al * be ->
    fst (omega (colpa_solver np (d_N D)) (d_N D) (d_h (w_store w1) D k) zeros_to_none false return_imaginary) = map (fun e => chop (Num (RtoC e))) (optical_and_acoustic al be g).
Proof.
  intros order cell pos sv w w1 D dc sn ef of_ a b sa sb np Np W U Sp St No Ne Nf P Dab Ha Hb two Ea Eb Hsa Hsb para pl H x z y exch site k zn ri theta sg al be g Pal Pg.
  assert (O : symmetric_onsite w) by (eapply uniaxial_parallel; eauto).
  set (Sl := fun c : atom => if eq_dec c a then norm sa else norm sb).
  destruct (quad_world order cell pos sv w w1 D dc sn ef of_ Sl W U Sp St O No Ne Nf) as (atoms & Cov & Nn & Nd & Ax & Q).
  { intros c I. unfold Sl. destruct (eq_dec c a) as [->|]; [exact Hsa|]. destruct (two c I) as [->| ->]; [contradiction|exact Hsb]. }
  { intros c s I E. unfold Sl. destruct (eq_dec c a) as [->|]; [congruence|]. destruct (two c I) as [->| ->]; [contradiction|congruence]. }
  { exact H. }
  destruct (Nd P) as [Nd1 Nd2]. assert (Ia := Cov a Ha). assert (Ib := Cov b Hb).
  assert (Na : norm sa <> 0) by (destruct (Ax a Ia) as (_ & s' & X & Y); congruence). assert (Nb : norm sb <> 0) by (destruct (Ax b Ib) as (_ & s' & X & Y); congruence).
  assert (La : atoms = [a; b] \/ atoms = [b; a]).
  { assert (Y : forall c, In c atoms -> c = a \/ c = b) by auto. destruct atoms as [|c [|d [|e l]]].
    - destruct Ia.
    - exfalso. apply Dab. destruct Ia as [<-|[]], Ib as [<-|[]]. reflexivity.
    - inversion Nd1 as [|? ? X1 X2]; subst. assert (c <> d) by (intros ->; apply X1; left; reflexivity).
      destruct (Y c (or_introl eq_refl)) as [->| ->], (Y d (or_intror (or_introl eq_refl))) as [->| ->]; try contradiction; auto.
    - exfalso. inversion Nd1 as [|? ? X1 X2]; subst. inversion X2 as [|? ? X3 X4]; subst.
      assert (c <> d) by (intros ->; apply X1; left; reflexivity). assert (c <> e) by (intros ->; apply X1; right; left; reflexivity). assert (d <> e) by (intros ->; apply X3; left; reflexivity).
      destruct (Y c) as [->| ->], (Y d) as [->| ->], (Y e) as [->| ->]; cbn; auto. }
  assert (N2 : d_N D = 2%nat) by (rewrite Nn; destruct La as [->| ->]; reflexivity).
  assert (Dba : b <> a) by congruence.
  destruct La as [La|La].
  - assert (Pa : pindex atoms a = 0%nat) by (rewrite La; unfold pindex, position; destruct (eq_dec a a); [reflexivity|contradiction]).
    assert (Pb : pindex atoms b = 1%nat) by (rewrite La; unfold pindex, position; destruct (eq_dec b a); [contradiction|]; destruct (eq_dec b b); [reflexivity|contradiction]).
    eapply side_energies; eauto.
  - assert (Pa : pindex atoms b = 0%nat) by (rewrite La; unfold pindex, position; destruct (eq_dec b b); [reflexivity|contradiction]).
    assert (Pb : pindex atoms a = 1%nat) by (rewrite La; unfold pindex, position; destruct (eq_dec a b); [contradiction|]; destruct (eq_dec a a); [reflexivity|contradiction]).
    assert (Gm : coupling w ef theta x b a (norm sb) (norm sa) (sg sb) (sg sa) = g).
    { unfold g, coupling. rewrite structure_mirror, Cmod_conj, (Rmult_comm (sg sb)), (Rmult_comm (norm sb)). reflexivity. }
    assert (Br : optical_and_acoustic al be g = optical_and_acoustic be al g) by (unfold optical_and_acoustic; rewrite (Rplus_comm be al); replace ((be - al) / 2 * ((be - al) / 2)) with ((al - be) / 2 * ((al - be) / 2)) by field; reflexivity).
    rewrite Br, <- Gm.
    assert (Pbe : 0 < be). { assert (0 < al * be) by nra. apply (Rmult_lt_reg_l al); [exact Pal|]. lra. }
    eapply side_energies with (dc := dc) (atoms := atoms); eauto.
    + intros c I. destruct (two c I); auto.
    + rewrite para. exact pl.
    + intros c J E. rewrite para. apply exch, E.
    + intros c J E. rewrite para. apply site, E.
    + intros k' psi. rewrite Q. unfold total. cbn [Scalar.fadd Scalar.fmul R_Scalar]. assert (Sw : forall c, carries w c -> Sl c = (if eq_dec c b then norm sb else norm sa)).
      { intros c I. unfold Sl. destruct (eq_dec c a), (eq_dec c b); try reflexivity; [congruence|]. destruct (two c I); contradiction. }
      f_equal; f_equal; f_equal; apply map_ext_in; intros c I; f_equal; unfold se, pe; cbn [own b_from b_to]; rewrite !Sw; auto; [left|left|right]; eauto.
    + change (coupling w ef theta x b a (norm sb) (norm sa) (sg sb) (sg sa) * coupling w ef theta x b a (norm sb) (norm sa) (sg sb) (sg sa) < be * al).
      rewrite Gm, (Rmult_comm be al). exact Pg.
Qed.
