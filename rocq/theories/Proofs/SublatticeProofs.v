(** Energies of a collinear antiferromagnet with two atoms in the cell, through construction, matrix and diagonalization. *)
From Coq Require Import List Bool ZArith Reals Lra Lia Permutation Arith.
From Coquelicot Require Import Complex.
From Verif.Base Require Import Scalar ScalarR Linear3 PyDict.
From Verif.Model Require Import MatrixParam Hamiltonian History EnergyInit Energy Dispersion Solver.
From Verif.Spec Require Import HamSpec HistorySpec NotationSpec EnergySpec DispersionSpec SpinWaveSpec OmegaSpec TextbookSpec SublatticeSpec.
From Verif.Proofs Require Import DictProofs HamBasics HamSetters HamDouble HamDcEnergy NotationProofs HistoryProofs CallProofs FilterProofs FrameProofs
  HamGlue EnergyInitProofs OptimizerProofs DispersionMatrix DispersionInit DispersionAxes DispersionModes DispersionGlue EnergyFunctional SpinWaveLocal SpinWaveQuad SpinWaveProofs
  TextbookProofs StableGlue TwoBosons SublatticeMatrix SublatticeLocal.
From Coq Require Import List.
Import ListNotations.
Local Open Scope R_scope.

Lemma sum_six {A} (l : list A) f1 f2 f3 f4 f5 f6 c1 c2 c3 c4 c5 c6 :
  sum_over l (fun x => c1 * f1 x + c2 * f2 x + c3 * f3 x + c4 * f4 x + c5 * f5 x + c6 * f6 x) =
  c1 * sum_over l f1 + c2 * sum_over l f2 + c3 * sum_over l f3 + c4 * sum_over l f4 + c5 * sum_over l f5 + c6 * sum_over l f6.
Proof.
  induction l as [|x l IH]; [cbn; ring|]. assert (U : forall f : A -> R, sum_over (x :: l) f = f x + sum_over l f) by reflexivity. rewrite !U, IH. ring.
Qed.
Lemma definite_ext h h' : (forall p q, (p < 4)%nat -> (q < 4)%nat -> h p q = h' p q) -> positive_definite 4 h' -> positive_definite 4 h.
Proof.
  intros E [A B]. split.
  - intros p q Hp Hq. rewrite !E by assumption. apply A; assumption.
  - intros x X. assert (Y := B x X). unfold quad, csum in *. rewrite !E by lia. exact Y.
Qed.
Lemma Cmod_conj (c : C) : Cmod (Cconj c) = Cmod c.
Proof. unfold Cmod, Cconj; cbn [fst snd]. f_equal. ring. Qed.
Lemma same_refl a : same a a = true.
Proof. unfold same. destruct (eq_dec a a); [reflexivity|contradiction]. Qed.
Lemma same_diff a b : a <> b -> same a b = false.
Proof. intros H. unfold same. destruct (eq_dec a b); [contradiction|reflexivity]. Qed.
Lemma re3_parts u g1 g2 c s v : re3 u (Cmult (c, s) (g1, g2)) v = g1 * re3 u (c, s) v + g2 * re3 u (Cmult Ci (c, s)) v.
Proof. destruct u, v. unfold re3, Cmult, Cconj, Ci; cbn [fst snd]. ring. Qed.
Lemma re3_scale u r g v : re3 u (Cmult (RtoC r) g) v = r * re3 u g v.
Proof. destruct u, v, g. unfold re3, Cmult, Cconj, RtoC; cbn [fst snd]. ring. Qed.
Lemma branches_sorted al be g : let r := sqrt ((al + be) / 2 * ((al + be) / 2) - g * g) in
  Rmax ((al - be) / 2 + r) ((be - al) / 2 + r) = r + Rabs (al - be) / 2 /\ Rmin ((al - be) / 2 + r) ((be - al) / 2 + r) = r - Rabs (al - be) / 2.
Proof.
  intros r. unfold Rmax, Rmin. destruct (Rle_dec ((al - be) / 2 + r) ((be - al) / 2 + r)).
  - rewrite Rabs_left1 by lra. split; field.
  - rewrite Rabs_right by lra. split; field.
Qed.

Section TwoAtoms.
Variables (order : list atom -> list atom) (cell : M3 R) (pos : atom -> V3 R) (sv : atom -> option (V3 R)) (w w1 : world) (D : dispersion)
  (dc sn : bool) (ef of_ : R) (a b : atom) (sa sb : V3 R) (np : numpy) (x z : bkey -> R) (y : atom -> R).
Hypothesis Np : numpy_works np.
Hypothesis W : wf w.
Hypothesis U : unshared w.
Hypothesis Sp : spins_defined w.
Hypothesis St : reciprocal_storage w dc.
Hypothesis No : notation_is w dc sn ef of_.
Hypothesis Ne : ef <> 0.
Hypothesis Nf : of_ <> 0.
Hypothesis P : forall l, Permutation (order l) l.
Hypothesis Dab : a <> b.
Hypothesis Ha : carries w a.
Hypothesis Hb : carries w b.
Hypothesis two : forall c, carries w c -> c = a \/ c = b.
Hypothesis Ea : sv a = Some sa.
Hypothesis Eb : sv b = Some sb.
Hypothesis Hsa : spin_of w a = Some (norm sa).
Hypothesis Hsb : spin_of w b = Some (norm sb).
Hypothesis anti : direction_of sb = vopp (direction_of sa).
Hypothesis pa : ~ near_pole (direction_of sa) \/ direction_of sa = mkV 0 0 1 \/ direction_of sa = mkV 0 0 (-1).
Hypothesis exch : forall k J, bond_value w k = Some J -> J = madd (mscale (x k) mid) (mscale (z k) (projector (direction_of sa))).
Hypothesis site : forall c A, onsite_value w c = Some A -> A = mscale (y c) (projector (direction_of sa)).
Hypothesis H : dispersion_init order cell pos sv w = (w1, Ret D).

Let n := direction_of sa.
Let sg (s : V3 R) : R := if sn then 1 else norm s.

Lemma pole_opposite : ~ near_pole (direction_of sb) \/ direction_of sb = mkV 0 0 1 \/ direction_of sb = mkV 0 0 (-1).
Proof.
  rewrite anti. destruct pa as [X|[->| ->]].
  - left. intros Y. apply X. clear X. destruct (direction_of sa) as [u v t]. unfold near_pole, vopp, vmap in *; cbn in *. destruct Y as (A & B & E). rewrite Rabs_Ropp in A, B.
    split; [exact A|]. split; [exact B|]. destruct E as [E|E]; [right; rewrite <- Rabs_Ropp|left; rewrite <- Rabs_Ropp]; (eapply Rle_trans; [right|exact E]); f_equal; ring.
  - right. right. unfold vopp, vmap; cbn. f_equal; ring.
  - right. left. unfold vopp, vmap; cbn. f_equal; ring.
Qed.
Lemma uniaxial : symmetric_onsite w.
Proof.
  intros c A E. rewrite (site c A E). destruct (direction_of sa). unfold mtrans, mscale, mmap, projector; cbn. f_equal; ring.
Qed.

Section Numbered.
Variable atoms : list atom.
Hypothesis Pa : pindex atoms a = 0%nat.
Hypothesis Pb : pindex atoms b = 1%nat.
Hypothesis N2 : d_N D = 2%nat.
Hypothesis Na : norm sa <> 0.
Hypothesis Nb : norm sb <> 0.
Let Sl (c : atom) : R := if eq_dec c a then norm sa else norm sb.
Hypothesis Q : forall k psi, fst (quad (2 * d_N D) (d_h (w_store w1) D k) psi) =
      total (pe cell pos k Sl (ax1 sv) (ax2 sv) (ax3 sv) (fun a => psi (pindex atoms a)) (fun a => psi (d_N D + pindex atoms a)%nat))
        (se cell pos k Sl (ax1 sv) (ax2 sv) (ax3 sv) (fun a => psi (pindex atoms a)) (fun a => psi (d_N D + pindex atoms a)%nat)) w sn ef of_.

Lemma frames_opposite : right_handed (ax1 sv a) (ax2 sv a) n /\ ax3 sv a = n /\ ax3 sv b = vopp n /\ right_handed (ax1 sv b) (ax2 sv b) (vopp n).
Proof.
  destruct (axes_true sa Na) as (e1 & e2 & e3 & E & Rh & T). destruct (axes_true sb Nb) as (f1 & f2 & f3 & F & Fh & T').
  unfold ax1, ax2, ax3, axes_of. rewrite Ea, Eb, E, F. cbn [fst snd]. assert (X := T pa). assert (X' := T' pole_opposite). rewrite anti in X'. fold n in X, X'. rewrite X in Rh. rewrite X' in Fh. auto.
Qed.

Variable k : V3 R.
Let theta c := dot k (displacement cell pos c).
Let A := sublattice_energy w ef of_ theta x z y a b (norm sa) (sg sa) (sg sb).
Let B := sublattice_energy w ef of_ theta x z y b a (norm sb) (sg sb) (sg sa).
Let G := structure w theta x a b.
Let t := ef * (sg sa * sg sb) / sqrt (norm sa * norm sb).

Lemma two_matrix : exists u : C, Cmod u = 1 /\ forall p q, (p < 4)%nat -> (q < 4)%nat ->
  d_h (w_store w1) D k p q = paired A B (Cmult (RtoC t) (Cmult u G)) (Cmult (RtoC t) (Cmult u (Cconj G))) p q.
Proof.
  destruct frames_opposite as (Ra & A3 & B3 & Rb). destruct (opposite_frames _ _ _ _ _ Ra Rb) as (c & s & N1 & E1 & E2).
  assert (Posa := norm_pos sa Na). assert (Posb := norm_pos sb Nb).
  exists (c, s). split. { unfold Cmod; cbn [fst snd]. replace (c ^ 2 + s ^ 2) with 1 by (rewrite <- N1; ring). apply sqrt_1. }
  assert (Rc := storage_reciprocal w dc W St).
  assert (He := made_hermitian order cell pos sv w w1 D W U Rc uniaxial H k). rewrite N2 in He. change (2 * 2)%nat with 4%nat in He.
  apply quad_unique; [exact He|apply paired_hermitian|]. intros psi.
  assert (Qk := Q k psi). rewrite N2 in Qk. change (2 * 2)%nat with 4%nat in Qk. rewrite Qk. clear Qk.
  rewrite paired_quad, !re3_scale. unfold total. rewrite !sum_fsum. cbn [Scalar.fadd Scalar.fmul R_Scalar].
  assert (La : Sl a = norm sa) by (unfold Sl; destruct (eq_dec a a); [reflexivity|contradiction]).
  assert (Lb : Sl b = norm sb) by (unfold Sl; destruct (eq_dec b a); [congruence|reflexivity]).
  assert (Sa : sdef (slen sn (w_ham w) a) = sg sa).
  { unfold slen, sg. destruct sn; [reflexivity|]. assert (X := Hsa). unfold spin_of in X. rewrite X. reflexivity. }
  assert (Sb : sdef (slen sn (w_ham w) b) = sg sb).
  { unfold slen, sg. destruct sn; [reflexivity|]. assert (X := Hsb). unfold spin_of in X. rewrite X. reflexivity. }
  set (ua := two_real (psi 0%nat) + two_real (psi 2%nat)). set (ub := two_real (psi 1%nat) + two_real (psi 3%nat)).
  set (ev := even_pair (c, s) (psi 0%nat) (psi 2%nat) (psi 1%nat) (psi 3%nat)). set (od := odd_pair (c, s) (psi 0%nat) (psi 2%nat) (psi 1%nat) (psi 3%nat)).
  set (m := sg sa * sg sb / sqrt (norm sa * norm sb)).
  rewrite (sum_ext (bonds w) _ (fun h =>
     sg sa / norm sa * (2 * sg sa) * ua * only (joins a a h) (x h * (cos (theta h) - 1) - z h) + sg sb / norm sb * (2 * sg sb) * ub * only (joins b b h) (x h * (cos (theta h) - 1) - z h)
     + sg sa / norm sa * sg sb * ua * only (joins a b h || joins b a h) (x h + z h) + sg sb / norm sb * sg sa * ub * only (joins b a h || joins a b h) (x h + z h)
     + m * ev * only (joins a b h || joins b a h) (x h * cos (theta h)) + m * od * (only (joins a b h) (x h * sin (theta h)) - only (joins b a h) (x h * sin (theta h))))).
  2:{ intros h I. destruct (proj1 (bond_value_stored w h W) I) as [J EJ]. rewrite EJ. cbn [vdef]. rewrite (exch h J EJ). fold n. change (madd (mscale (x h) mid) (mscale (z h) (projector n))) with (axial (x h) (z h) n).
      unfold bond_weight, pe, joins. fold (theta h).
      assert (N3 : b <> a) by congruence.
      destruct (two (b_from h)) as [Ef|Ef]; [left; eauto| |]; (destruct (two (b_to h)) as [Et|Et]; [left; eauto| |]); rewrite !Ef, !Et, ?Sa, ?Sb, ?La, ?Lb, ?Pa, ?Pb, ?A3, ?B3, ?same_refl, ?(same_diff a b Dab), ?(same_diff b a N3);
        cbn [andb orb only Nat.add Scalar.fmul R_Scalar].
      - rewrite (parallel_bond _ _ _ _ _ Ra) by exact Posa. unfold ua. field. lra.
      - rewrite (opposite_bond _ _ _ _ _ Ra c s _ _ E1 E2) by assumption. unfold ua, ub, ev, od, m. field. split; [|lra]. apply Rgt_not_eq, sqrt_lt_R0. nra.
      - rewrite (opposite_bond' _ _ _ _ _ Ra c s _ _ E1 E2) by assumption. unfold ua, ub, ev, od, m. field. split; [|lra]. apply Rgt_not_eq, sqrt_lt_R0. nra.
      - rewrite <- (axial_opposite _ _ n). rewrite (parallel_bond _ _ _ _ _ Rb) by exact Posb. unfold ub. field. lra. }
  rewrite sum_six.
  rewrite (sum_ext (sites w) _ (fun e => - (sg sa / norm sa * (2 * sg sa) * ua) * only (same e a) (y e) + - (sg sb / norm sb * (2 * sg sb) * ub) * only (same e b) (y e))).
  2:{ intros e I. destruct (proj1 (onsite_value_stored w e W) I) as [J EJ]. rewrite EJ. cbn [vdef]. rewrite (site e J EJ). fold n.
      replace (mscale (y e) (projector n)) with (axial 0 (y e) n) by (destruct n; unfold axial, projector, madd, mscale, mmap, mmap2, mid; cbn; f_equal; ring).
      unfold site_weight, se, pe. cbn [own b_from b_to]. assert (N3 : b <> a) by congruence.
      destruct (two e) as [Ee|Ee]; [right; exact I| |]; rewrite !Ee, ?Sa, ?Sb, ?La, ?Lb, ?Pa, ?Pb, ?A3, ?B3, ?same_refl, ?(same_diff a b Dab), ?(same_diff b a N3); cbn [only Nat.add Scalar.fmul R_Scalar].
      - rewrite (parallel_bond _ _ _ _ _ Ra) by exact Posa. unfold ua. field. lra.
      - rewrite <- (axial_opposite _ _ n). rewrite (parallel_bond _ _ _ _ _ Rb) by exact Posb. unfold ub. field. lra. }
  rewrite sum_lin.
  unfold G. set (S1 := sum_over (bonds w) (fun h => only (joins a b h || joins b a h) (x h * cos (theta h)))).
  set (S2 := sum_over (bonds w) (fun h => only (joins a b h) (x h * sin (theta h)) - only (joins b a h) (x h * sin (theta h)))).
  change (structure w theta x a b) with ((S1, S2) : C). change (Cconj (S1, S2)) with ((S1, - S2) : C). rewrite !re3_parts.
  change t with (ef * (sg sa * sg sb) / sqrt (norm sa * norm sb)). unfold A, B, sublattice_energy, ev, od, even_pair, odd_pair, m.
  field. split; [|lra]. apply Rgt_not_eq, sqrt_lt_R0. nra.
Qed.

Lemma two_energies zeros return_imaginary : 
  let g := coupling w ef theta x a b (norm sa) (norm sb) (sg sa) (sg sb) in
  0 < A -> g * g < A * B ->
  fst (omega (colpa_solver np (d_N D)) (d_N D) (d_h (w_store w1) D k) zeros false return_imaginary) = map (fun e => chop (Num (RtoC e))) (branches A B g).
Proof.
  intros g PA Pg. rewrite N2. destruct two_matrix as (u & Nu & M). set (h := d_h (w_store w1) D k) in *.
  assert (G1 : forall c, Cmod c = Cmod G -> Cmod (Cmult (RtoC t) (Cmult u c)) * Cmod (Cmult (RtoC t) (Cmult u c)) = g * g).
  { intros c Ec. rewrite !Cmod_mult, Cmod_R, Nu, Ec, Rmult_1_l. unfold g, coupling. fold t. fold G. replace (Rabs t * Cmod G * (Rabs t * Cmod G)) with (Rabs t * Rabs t * (Cmod G * Cmod G)) by ring.
    replace (Rabs t * Rabs t) with (t * t) by (rewrite <- Rabs_mult; rewrite Rabs_pos_eq by nra; reflexivity). ring. }
  assert (G2 := G1 G eq_refl). assert (G3 := G1 (Cconj G) (Cmod_conj G)). set (c := Cmult (RtoC t) (Cmult u G)) in *. set (c' := Cmult (RtoC t) (Cmult u (Cconj G))) in *. clear G1.
  assert (PB : 0 < B). { assert (0 < A * B) by nra. apply (Rmult_lt_reg_l A); [exact PA|]. lra. }
  assert (Hd : positive_definite 4 h) by (apply (definite_ext _ _ M), paired_definite; try assumption; rewrite ?G2, ?G3; assumption).
  assert (E : forall p q, (p < 4)%nat -> (q < 4)%nat -> h p q = paired A B c c' p q) by exact M.
  assert (X := @sorted_energies np h zeros return_imaginary Np Hd). cbv zeta in X.
  rewrite (E 0%nat 0%nat), (E 3%nat 3%nat), (E 0%nat 3%nat), (E 1%nat 1%nat), (E 2%nat 2%nat), (E 1%nat 2%nat) in X by lia. cbn [paired RtoC fst] in X. rewrite G2, G3 in X.
  rewrite (Rmult_comm B A) in X. rewrite X; clear X; try assumption.
  2:{ unfold sparse. repeat split; rewrite E by lia; reflexivity. }
  unfold bogoliubov_energy. rewrite G2, G3. rewrite (Rplus_comm B A). destruct (branches_sorted A B g) as [-> ->]. reflexivity.
Qed.
End Numbered.
End TwoAtoms.

Lemma structure_mirror w theta x a b : structure w theta x b a = Cconj (structure w theta x a b).
Proof.
  unfold structure, Cconj; cbn [fst snd]. f_equal; [apply sum_ext; intros; rewrite orb_comm; reflexivity|].
  transitivity (sum_over (bonds w) (fun k => -1 * (only (joins a b k) (x k * sin (theta k)) - only (joins b a k) (x k * sin (theta k))) + 0 * 0)).
  - apply sum_ext. intros; ring.
  - rewrite sum_lin with (g := fun _ => 0). ring.
Qed.

Lemma antiferromagnet : forall order cell pos sv (w w1 : world) D dc sn ef of_ a b sa sb np, numpy_works np ->
  wf w -> unshared w -> spins_defined w -> reciprocal_storage w dc -> notation_is w dc sn ef of_ -> ef <> 0 -> of_ <> 0 ->
  (forall l, Permutation (order l) l) -> a <> b -> carries w a -> carries w b -> (forall c, carries w c -> c = a \/ c = b) ->
  sv a = Some sa -> sv b = Some sb -> spin_of w a = Some (norm sa) -> spin_of w b = Some (norm sb) ->
  direction_of sb = vopp (direction_of sa) -> (~ near_pole (direction_of sa) \/ direction_of sa = mkV 0 0 1 \/ direction_of sa = mkV 0 0 (-1)) ->
  dispersion_init order cell pos sv w = (w1, Ret D) ->
  forall x z y, (forall k J, bond_value w k = Some J -> J = madd (mscale (x k) mid) (mscale (z k) (projector (direction_of sa)))) ->
  (forall c A, onsite_value w c = Some A -> A = mscale (y c) (projector (direction_of sa))) ->
  forall k zeros_to_none return_imaginary,
    let theta c := dot k (displacement cell pos c) in
    let sg s := if sn then 1 else norm s in
    let al := sublattice_energy w ef of_ theta x z y a b (norm sa) (sg sa) (sg sb) in
    let be := sublattice_energy w ef of_ theta x z y b a (norm sb) (sg sb) (sg sa) in
    let g := coupling w ef theta x a b (norm sa) (norm sb) (sg sa) (sg sb) in
    0 < al -> g * g < al * be ->
    fst (omega (colpa_solver np (d_N D)) (d_N D) (d_h (w_store w1) D k) zeros_to_none false return_imaginary) = map (fun e => chop (Num (RtoC e))) (branches al be g).
Proof.
  intros order cell pos sv w w1 D dc sn ef of_ a b sa sb np Np W U Sp St No Ne Nf P Dab Ha Hb two Ea Eb Hsa Hsb anti pl H x z y exch site k zn ri theta sg al be g Pal Pg.
  assert (O : symmetric_onsite w) by (eapply uniaxial; eauto).
  set (Sl := fun c : atom => if eq_dec c a then norm sa else norm sb).
  destruct (quad_world order cell pos sv w w1 D dc sn ef of_ Sl W U Sp St O No Ne Nf) as (atoms & Cov & Nn & Nd & Ax & Q).
  { intros c I. unfold Sl. destruct (eq_dec c a) as [->|]; [exact Hsa|]. destruct (two c I) as [->| ->]; [contradiction|exact Hsb]. }
  { intros c s I E. unfold Sl. destruct (eq_dec c a) as [->|]; [congruence|]. destruct (two c I) as [->| ->]; [contradiction|congruence]. }
  { exact H. }
  destruct (Nd P) as [Nd1 Nd2]. assert (Ia := Cov a Ha). assert (Ib := Cov b Hb).
  assert (Na : norm sa <> 0) by (destruct (Ax a Ia) as (_ & s' & X & Y); congruence). assert (Nb : norm sb <> 0) by (destruct (Ax b Ib) as (_ & s' & X & Y); congruence).
  assert (La : atoms = [a; b] \/ atoms = [b; a]).
  { assert (Y : forall c, In c atoms -> c = a \/ c = b) by auto. destruct atoms as [|c [|d [|e l]]].
    - destruct Ia.
    - exfalso. apply Dab. destruct Ia as [<-|[]], Ib as [<-|[]]. reflexivity.
    - inversion Nd1 as [|? ? X1 X2]; subst. assert (c <> d) by (intros ->; apply X1; left; reflexivity).
      destruct (Y c (or_introl eq_refl)) as [->| ->], (Y d (or_intror (or_introl eq_refl))) as [->| ->]; try contradiction; auto.
    - exfalso. inversion Nd1 as [|? ? X1 X2]; subst. inversion X2 as [|? ? X3 X4]; subst.
      assert (c <> d) by (intros ->; apply X1; left; reflexivity). assert (c <> e) by (intros ->; apply X1; right; left; reflexivity). assert (d <> e) by (intros ->; apply X3; left; reflexivity).
      destruct (Y c) as [->| ->], (Y d) as [->| ->], (Y e) as [->| ->]; cbn; auto. }
  assert (N2 : d_N D = 2%nat) by (rewrite Nn; destruct La as [->| ->]; reflexivity).
  assert (Dba : b <> a) by congruence.
  destruct La as [La|La].
  - assert (Pa : pindex atoms a = 0%nat) by (rewrite La; unfold pindex, position; destruct (eq_dec a a); [reflexivity|contradiction]).
    assert (Pb : pindex atoms b = 1%nat) by (rewrite La; unfold pindex, position; destruct (eq_dec b a); [contradiction|]; destruct (eq_dec b b); [reflexivity|contradiction]).
    eapply two_energies; eauto.
  - assert (Pa : pindex atoms b = 0%nat) by (rewrite La; unfold pindex, position; destruct (eq_dec b b); [reflexivity|contradiction]).
    assert (Pb : pindex atoms a = 1%nat) by (rewrite La; unfold pindex, position; destruct (eq_dec a b); [contradiction|]; destruct (eq_dec a a); [reflexivity|contradiction]).
    assert (Gm : coupling w ef theta x b a (norm sb) (norm sa) (sg sb) (sg sa) = g).
    { unfold g, coupling. rewrite structure_mirror, Cmod_conj, (Rmult_comm (sg sb)), (Rmult_comm (norm sb)). reflexivity. }
    assert (Br : branches al be g = branches be al g) by (unfold branches; rewrite (Rplus_comm be al), (Rabs_minus_sym be al); reflexivity).
    rewrite Br, <- Gm.
    assert (Pbe : 0 < be). { assert (0 < al * be) by nra. apply (Rmult_lt_reg_l al); [exact Pal|]. lra. }
    assert (Pr : projector (direction_of sb) = projector (direction_of sa)) by (rewrite anti; destruct (direction_of sa); unfold projector, vopp, vmap; cbn; f_equal; ring).
    eapply two_energies with (dc := dc) (atoms := atoms); eauto.
    + intros c I. destruct (two c I); auto.
    + rewrite anti. destruct (direction_of sa). unfold vopp, vmap; cbn. f_equal; ring.
    + eapply pole_opposite; eauto.
    + intros c J E. rewrite Pr. apply exch, E.
    + intros c J E. rewrite Pr. apply site, E.
    + intros k' psi. rewrite Q. unfold total. cbn [Scalar.fadd Scalar.fmul R_Scalar]. assert (Sw : forall c, carries w c -> Sl c = (if eq_dec c b then norm sb else norm sa)).
      { intros c I. unfold Sl. destruct (eq_dec c a), (eq_dec c b); try reflexivity; [congruence|]. destruct (two c I); contradiction. }
      f_equal; f_equal; f_equal; apply map_ext_in; intros c I; f_equal; unfold se, pe; cbn [own b_from b_to]; rewrite !Sw; auto; [left|left|right]; eauto.
    + change (coupling w ef theta x b a (norm sb) (norm sa) (sg sb) (sg sa) * coupling w ef theta x b a (norm sb) (norm sa) (sg sb) (sg sa) < be * al).
      rewrite Gm, (Rmult_comm be al). exact Pg.
Qed.
