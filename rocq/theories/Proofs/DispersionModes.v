(** Periodicity of h in reciprocal space and the zero mode of an isotropic ferromagnet. *)
From Coq Require Import List Bool ZArith Reals Lra Lia Permutation Arith String.
From Coquelicot Require Import Complex.
From Verif.Base Require Import Scalar ScalarR Linear3 PyDict PyString.
From Verif.Model Require Import MatrixParam Hamiltonian EnergyInit Energy Dispersion.
From Verif.Spec Require Import HamSpec NotationSpec HistorySpec DispersionSpec.
From Verif.Proofs Require Import DictProofs HamBasics HamSetters HamDouble HamDcEnergy NotationProofs HistoryProofs CallProofs FilterProofs FrameProofs
  HamGlue EnergyInitProofs OptimizerProofs DispersionMatrix DispersionInit DispersionAxes.
From Coq Require Import List.
Import ListNotations.
Local Open Scope R_scope.

(** ** Periodicity *)
Lemma fpos_IZR p : fpos (F := R) p = IZR (Zpos p).
Proof.
  induction p as [p IH|p IH|]; cbn [fpos].
  - rewrite IH. rewrite Pos2Z.inj_xI, plus_IZR, mult_IZR. unfold f2. cbn. ring.
  - rewrite IH. rewrite Pos2Z.inj_xO, mult_IZR. unfold f2. cbn. ring.
  - reflexivity.
Qed.
Lemma fZ_IZR z : fZ (F := R) z = IZR z.
Proof. destruct z as [|p|p]; cbn [fZ]; [reflexivity|apply fpos_IZR|]. rewrite fpos_IZR, <- Pos2Z.opp_pos, opp_IZR. reflexivity. Qed.

Lemma phase_add x y : phase (x + y) = Cmult (phase x) (phase y).
Proof. unfold phase, Cmult; cbn. rewrite cos_plus, sin_plus. f_equal. ring. Qed.
Lemma phase_nat n : phase (2 * PI * INR n) = RtoC 1.
Proof.
  unfold phase. assert (C := cos_period 0 n). assert (S := sin_period 0 n). rewrite Rplus_0_l in C, S. rewrite cos_0 in C. rewrite sin_0 in S.
  replace (2 * PI * INR n) with (2 * INR n * PI) by ring. rewrite C, S. reflexivity.
Qed.
Lemma phase_period n : phase (2 * PI * IZR n) = RtoC 1.
Proof.
  destruct (Z_le_gt_dec 0 n) as [L|L].
  - rewrite <- (Z2Nat.id n L), <- INR_IZR_INZ. apply phase_nat.
  - assert (E := phase_nat (Z.to_nat (- n))). rewrite INR_IZR_INZ, Z2Nat.id, opp_IZR in E by lia.
    unfold phase in *. replace (2 * PI * - IZR n) with (- (2 * PI * IZR n)) in E by ring. rewrite cos_neg, sin_neg in E. unfold RtoC in *. injection E as E1 E2. f_equal; lra.
Qed.
Lemma cexp_phase x : cexp_neg x = phase (- x).
Proof. unfold cexp_neg, phase. rewrite cos_neg, sin_neg. reflexivity. Qed.
Lemma conj_phase x : Cconj (phase x) = phase (- x).
Proof. unfold Cconj, phase; cbn. rewrite cos_neg, sin_neg. reflexivity. Qed.
Lemma phase_opp x : Cmult (phase (- x)) (phase x) = RtoC 1.
Proof. rewrite <- phase_add. replace (- x + x) with (2 * PI * IZR 0) by (simpl; ring). apply phase_period. Qed.

Section Periodic.
Variables (st : list (M3 R)) (D : dispersion) (G : V3 R) (tau : nat -> R).
Hypothesis shift_d : forall i j d J, In (i, j, d, J) (entries st D) -> phase (dot G d) = phase (tau j - tau i).

Lemma weight_shift a b k i j e : In e (entries st D) ->
  weight a b (vopp (vadd k G)) i j e = Cmult (phase (tau j - tau i)) (weight a b (vopp k) i j e).
Proof.
  destruct e as [[[i' j'] d] J]. intros I. cbn [weight]. destruct (Nat.eqb_spec i i') as [->|]; cbn [andb]; [|ring].
  destruct (Nat.eqb_spec j j') as [->|]; [|ring]. rewrite <- (shift_d _ _ _ _ I), !cexp_phase, !dot_opp_l, !Ropp_involutive.
  replace (dot (vadd k G) d) with (dot G d + dot k d) by (destruct k, G, d; unfold vadd, vmap2, dot; cbn; ring). rewrite phase_add. ring.
Qed.
Lemma J_shift a b k i j : cbil a (d_J st D (vopp (vadd k G)) i j) b = Cmult (phase (tau j - tau i)) (cbil a (d_J st D (vopp k) i j) b).
Proof. rewrite !J_sum, <- lsum_scale. apply lsum_ext. intros e I. apply weight_shift, I. Qed.
Lemma A_shift k i j : d_A st D (vadd k G) i j = Cmult (phase (tau j - tau i)) (d_A st D k i j).
Proof. unfold d_A. rewrite J_shift. ring. Qed.
Lemma B_shift k i j : d_B st D (vadd k G) i j = Cmult (phase (tau j - tau i)) (d_B st D k i j).
Proof. unfold d_B. rewrite J_shift. ring. Qed.
Lemma weight_shift_neg a b k i j e : In e (entries st D) ->
  weight a b (vopp (vopp (vadd k G))) i j e = Cmult (phase (tau i - tau j)) (weight a b (vopp (vopp k)) i j e).
Proof.
  rewrite !vopp_invol. destruct e as [[[i' j'] d] J]. intros I. cbn [weight]. destruct (Nat.eqb_spec i i') as [->|]; cbn [andb]; [|ring].
  destruct (Nat.eqb_spec j j') as [->|]; [|ring]. replace (tau i' - tau j') with (- (tau j' - tau i')) by ring.
  rewrite <- conj_phase, <- (shift_d _ _ _ _ I), conj_phase, !cexp_phase.
  replace (- dot (vadd k G) d) with (- dot G d + - dot k d) by (destruct k, G, d; unfold vadd, vmap2, dot; cbn; ring). rewrite phase_add. ring.
Qed.
Lemma A_shift_neg k i j : d_A st D (vopp (vadd k G)) i j = Cmult (phase (tau i - tau j)) (d_A st D (vopp k) i j).
Proof.
  unfold d_A. rewrite !J_sum. rewrite (lsum_ext _ (fun e => Cmult (phase (tau i - tau j)) (weight (u_ D i) (cv_conj (u_ D j)) (vopp (vopp k)) i j e))).
  - rewrite lsum_scale. ring.
  - intros e I. apply weight_shift_neg, I.
Qed.

Definition half (N p : nat) : nat := if Nat.ltb p N then p else (p - N)%nat.
Lemma phase_self x : phase (x - x) = RtoC 1.
Proof. replace (x - x) with (2 * PI * IZR 0) by (simpl; ring). apply phase_period. Qed.
Lemma C_phase i j : Cmult (phase (tau j - tau i)) (d_C st D i j) = d_C st D i j.
Proof.
  unfold d_C. destruct (Nat.eqb_spec i j) as [->|N]; [|ring]. rewrite phase_self. ring.
Qed.
Lemma h_shift k p q : d_h st D (vadd k G) p q = Cmult (phase (tau (half (d_N D) q) - tau (half (d_N D) p))) (d_h st D k p q).
Proof.
  unfold d_h, c2, half. destruct (Nat.ltb_spec p (d_N D)); destruct (Nat.ltb_spec q (d_N D)).
  - rewrite A_shift. rewrite <- (C_phase p q) at 1. ring.
  - rewrite B_shift. ring.
  - rewrite B_shift, conj_mult, conj_phase. replace (- (tau (p - d_N D)%nat - tau q)) with (tau q - tau (p - d_N D)%nat) by ring. ring.
  - rewrite A_shift_neg, conj_mult, conj_phase. rewrite <- (C_phase (p - d_N D) (q - d_N D)) at 1.
    replace (- (tau (p - d_N D)%nat - tau (q - d_N D)%nat)) with (tau (q - d_N D)%nat - tau (p - d_N D)%nat) by ring. ring.
Qed.
End Periodic.

(** Shape of any successful construction. *)
Lemma init_shape order cell pos sv (w w1 : world) D : dispersion_init order cell pos sv w = (w1, Ret D) ->
  exists atoms items, d_N D = List.length atoms /\
    d_bonds D = map (fun kl => (pindex atoms (b_from (fst kl)), pindex atoms (b_to (fst kl)), displacement cell pos (fst kl), snd kl)) items /\
    Forall (fun kl => In (b_from (fst kl)) atoms /\ In (b_to (fst kl)) atoms) items.
Proof.
  unfold dispersion_init. destruct (copy_ham (w_store w) (w_ham w)) as [st h]. intros H. unfold init_copy in H.
  apply bind_inv in H as (w4 & [] & _ & H). apply bind_inv in H as (w5 & atoms & _ & H). apply bind_inv in H as (w6 & items & _ & H).
  apply bind_inv in H as (w7 & bs & Hb & H). apply index_pairs_spec in Hb as (-> & -> & Fa). apply bind_inv in H as (w8 & ax & _ & H). injection H as <- <-.
  exists atoms, items. splits; auto.
Qed.
Lemma pindex_nth atoms a d : In a atoms -> nth (pindex atoms a) atoms d = a /\ (pindex atoms a < List.length atoms)%nat.
Proof.
  intros I. destruct (position_In _ _ I) as (i & E & E'). unfold pindex. rewrite E. split; [apply (nth_error_nth _ _ _ E')|].
  apply nth_error_Some. congruence.
Qed.

Lemma h_periodic order cell pos sv (w w1 : world) D G : dispersion_init order cell pos sv w = (w1, Ret D) -> reciprocal_vector cell G ->
  exists theta, (forall i, (i < d_N D)%nat -> theta (i + d_N D)%nat = theta i) /\
    forall k p q, (p < 2 * d_N D)%nat -> (q < 2 * d_N D)%nat ->
      d_h (w_store w1) D (vadd k G) p q = Cmult (Cmult (Cconj (phase (theta p))) (d_h (w_store w1) D k p q)) (phase (theta q)).
Proof.
  intros H HG. destruct (init_shape _ _ _ _ _ _ _ H) as (atoms & items & EN & EB & Fa).
  set (a0 := mkAtom EmptyString 0%Z). set (tau := fun i => dot G (pos (nth i atoms a0))).
  exists (fun p => tau (half (d_N D) p)). split.
  - intros i Li. unfold half. destruct (Nat.ltb_spec (i + d_N D) (d_N D)); [lia|]. destruct (Nat.ltb_spec i (d_N D)); [|lia]. rewrite Nat.add_sub. reflexivity.
  - intros k p q _ _. rewrite (h_shift (w_store w1) D G tau).
    + rewrite conj_phase. replace (tau (half (d_N D) q) - tau (half (d_N D) p)) with (- tau (half (d_N D) p) + tau (half (d_N D) q)) by ring. rewrite phase_add. ring.
    + intros i j d J I. unfold entries in I. rewrite EB, map_map in I. apply in_map_iff in I as ([kk l] & E & I). cbn [fst snd entry_of] in E. injection E as <- <- <- _.
      rewrite Forall_forall in Fa. destruct (Fa _ I) as [I1 I2]. cbn [fst] in I1, I2. unfold tau.
      rewrite (proj1 (pindex_nth atoms _ a0 I1)), (proj1 (pindex_nth atoms _ a0 I2)). unfold displacement, lattice_vector. destruct (b_cell kk) as [[i j] n].
      destruct (HG i j n) as [m Hm]. rewrite !fZ_IZR. set (T := vmat (mkV (IZR i) (IZR j) (IZR n)) cell) in *.
      replace (dot G (vadd T (vsub (pos (b_to kk)) (pos (b_from kk))))) with (dot G T + (dot G (pos (b_to kk)) - dot G (pos (b_from kk))))
        by (clear; generalize (pos (b_to kk)) (pos (b_from kk)) T; intros [] [] []; destruct G; unfold vadd, vsub, vmap2, dot; cbn; ring).
      rewrite Hm, phase_add, phase_period. ring.
Qed.

(** ** Zero mode *)
Lemma csum_ext n f g : (forall i, (i < n)%nat -> f i = g i) -> csum n f = csum n g.
Proof. induction n as [|n IH]; intros H; cbn [csum]; [reflexivity|]. rewrite IH, (H n) by (intros; auto with arith). reflexivity. Qed.
Lemma csum_zero n f : (forall i, (i < n)%nat -> f i = RtoC 0) -> csum n f = RtoC 0.
Proof. intros H. induction n as [|n IH]; cbn [csum]; [reflexivity|]. rewrite IH, (H n) by (intros; auto with arith). ring. Qed.
Lemma csum_scale n c f : csum n (fun i => Cmult c (f i)) = Cmult c (csum n f).
Proof. induction n as [|n IH]; cbn [csum]; [ring|]. rewrite IH. ring. Qed.
Lemma csum_plus n f g : csum n (fun i => Cplus (f i) (g i)) = Cplus (csum n f) (csum n g).
Proof. induction n as [|n IH]; cbn [csum]; [ring|]. rewrite IH. ring. Qed.
Lemma csum_tail n m f : (forall i, (n <= i < n + m)%nat -> f i = RtoC 0) -> csum (n + m) f = csum n f.
Proof.
  induction m as [|m IH]; intros H; [rewrite Nat.add_0_r; reflexivity|]. rewrite Nat.add_succ_r. cbn [csum]. rewrite IH, (H (n + m)%nat) by (intros; try apply H; lia). ring.
Qed.
Lemma csum_delta n f p : (p < n)%nat -> (forall i, (i < n)%nat -> i <> p -> f i = RtoC 0) -> csum n f = f p.
Proof.
  induction n as [|n IH]; intros L H; [lia|]. cbn [csum]. destruct (Nat.eq_dec p n) as [->|N].
  - rewrite csum_zero; [ring|]. intros i Li. apply H; lia.
  - rewrite IH, (H n) by (try lia; intros; apply H; lia). ring.
Qed.
Lemma fold_csum n (f : nat -> C) : fold_left (fun acc l => Cplus acc (f l)) (seq 0 n) (RtoC 0) = csum n f.
Proof. induction n as [|n IH]; [reflexivity|]. rewrite seq_S, fold_left_app, IH. reflexivity. Qed.

Definition strength (i j : nat) (e : entry) : C := let '(i', j', _, J) := e in if Nat.eqb i i' && Nat.eqb j j' then RtoC (mxx J) else RtoC 0.
Lemma form_iso a x b : form a (mscale x mid) b = Cmult (RtoC x) (cv_dot a b).
Proof.
  destruct a as [[] [] []], b as [[] [] []]. unfold form, cbil, cv_mat, cv_dot, cm_scale, mscale, mmap, mid; cbn [mxx mxy mxz myx myy myz mzx mzy mzz vx vy vz].
  change (@fmul R R_Scalar) with Rmult; change (@f0 R R_Scalar) with 0; change (@f1 R R_Scalar) with 1. cplx; ring.
Qed.
Lemma J_iso st D a b i j k : (forall e, In e (entries st D) -> exists x, snd e = mscale x mid) -> k = vzero ->
  cbil a (d_J st D k i j) b = Cmult (cv_dot a b) (lsum (map (strength i j) (entries st D))).
Proof.
  intros H ->. rewrite J_sum, <- lsum_scale. apply lsum_ext. intros [[[i' j'] d] J] I. destruct (H _ I) as [x E]. cbn [snd] in E. subst J.
  cbn [weight strength]. destruct (Nat.eqb i i' && Nat.eqb j j'); [|ring]. rewrite form_iso.
  replace (cexp_neg (dot vzero d)) with (RtoC 1) by (unfold cexp_neg; replace (dot vzero d) with 0 by (destruct d; unfold dot, vzero; cbn; ring); rewrite cos_0, sin_0, Ropp_0; reflexivity).
  replace (mxx (mscale x mid)) with x by (unfold mscale, mmap, mid; cbn; ring). ring.
Qed.

Lemma axes_products e1 e2 e3 : right_handed e1 e2 e3 ->
  cv_dot (complex_vec e1 e2) (cv_conj (complex_vec e1 e2)) = RtoC 2 /\ cv_dot (complex_vec e1 e2) (complex_vec e1 e2) = RtoC 0 /\
  cv_dot (complex_vec e3 vzero) (complex_vec e3 vzero) = RtoC 1.
Proof.
  intros (H1 & H2 & H3 & <-). destruct e1 as [x y z], e2 as [x' y' z']. unfold cv_dot, cv_conj, complex_vec, vzero, Cconj; cbn [vx vy vz].
  unfold cross, dot in *. cbn [vx vy vz] in *.
  change (@fadd R R_Scalar) with Rplus in *; change (@fmul R R_Scalar) with Rmult in *; change (@fsub R R_Scalar) with Rminus in *; change (@f0 R R_Scalar) with 0 in *; change (@f1 R R_Scalar) with 1 in *.
  splits; cplx; try lra.
  assert (L : (x * x + y * y + z * z) * (x' * x' + y' * y' + z' * z') - (x * x' + y * y' + z * z') * (x * x' + y * y' + z * z') = 1) by (rewrite H1, H2, H3; ring).
  rewrite <- L. ring.
Qed.

Lemma nth_axes (D : dispersion) (atoms : list atom) n (sv : atom -> option (V3 R)) i : (i < List.length atoms)%nat ->
  List.length (d_S D) = List.length atoms -> List.length (d_u D) = List.length atoms -> List.length (d_v D) = List.length atoms ->
  (forall a s, sv a = Some s -> exists c, 0 < c /\ s = vscale c n) ->
  Forall2 (fun a x => exists s e1 e2 e3, sv a = Some s /\ span_orthonormal_set s = Ret (e1, e2, e3) /\
             x = (s, complex_vec e1 e2, complex_vec e3 vzero)) atoms (combine (combine (d_S D) (d_u D)) (d_v D)) ->
  norm n <> 0 /\ 0 < norm (S_ D i) /\ exists e1 e2 e3, span_orthonormal_set n = Ret (e1, e2, e3) /\ u_ D i = complex_vec e1 e2 /\ v_ D i = complex_vec e3 vzero.
Proof.
  intros Li L1 L2 L3 Hp F2.
  assert (Hn : nth i (combine (combine (d_S D) (d_u D)) (d_v D)) (vzero, cv_zero, cv_zero) = (S_ D i, u_ D i, v_ D i)).
  { unfold S_, u_, v_. rewrite !combine_nth; [reflexivity|lia|rewrite combine_length; lia]. }
  revert Hn. generalize (S_ D i) (u_ D i) (v_ D i). clear L1 L2 L3. revert i Li. induction F2 as [|a x l l' Hx _ IH]; intros i Li s u v Hn; [cbn in Li; lia|].
  destruct i as [|i]; [|apply (IH i); [cbn in Li; lia|exact Hn]]. clear IH. cbn [nth] in Hn. subst x.
  destruct Hx as (s' & e1 & e2 & e3 & Es & Hs & E). injection E as -> -> ->. destruct (Hp _ _ Es) as (c & Hc & ->).
  assert (Nn : norm n <> 0).
  { intros Z. assert (Z' : norm (vscale c n) = 0). { unfold norm in *. replace (dot (vscale c n) (vscale c n)) with (c * c * dot n n) by (destruct n; r3; ring).
      replace (dot n n) with 0; [rewrite Rmult_0_r; apply sqrt_0|]. symmetry. apply sqrt_eq_0 in Z; [exact Z|destruct n; r3; nra]. }
    rewrite (span_zero _ Z') in Hs. discriminate. }
  splits; auto.
  - destruct (direction_scale c n Hc Nn) as [_ ->]. apply Rmult_lt_0_compat; [exact Hc|apply norm_pos, Nn].
  - exists e1, e2, e3. rewrite <- (span_scale c n Hc Nn). auto.
Qed.

Lemma mirrored_iso (w : world) k J : (forall k J, bond_value w k = Some J -> exists x, J = mscale x mid) -> mirrored_value w k = Some J -> exists x, J = mscale x mid.
Proof.
  intros H. unfold mirrored_value. destruct (dmem _ _); [|apply H]. destruct (bond_value w (mirror k)) as [J'|] eqn:E; [|discriminate]. cbn [option_map]. intros X. apply vdef_Some in X. subst.
  destruct (H _ _ E) as [x ->]. exists x. rewrite mtrans_mscale. reflexivity.
Qed.

Lemma goldstone order cell pos sv (w w1 : world) D n : Sym w -> dispersion_init order cell pos sv w = (w1, Ret D) ->
  (forall k J, bond_value w k = Some J -> exists x, J = mscale x mid) -> (forall a, onsite_value w a = None) ->
  (forall a s, sv a = Some s -> exists c, 0 < c /\ s = vscale c n) ->
  forall p, (p < 2 * d_N D)%nat ->
    mat_vec (2 * d_N D) (d_h (w_store w1) D vzero) (fun q => if Nat.ltb q (d_N D) then RtoC (sqrt (norm (nth q (d_S D) vzero))) else RtoC 0) p = RtoC 0.
Proof.
  intros S0 H Hi Ho Hp p Hlt. destruct (dispersion_made _ _ _ _ _ _ _ S0 H) as (w4 & atoms & M0). assert (M1 := M0). destruct M1 as [SW _ EN EE Ax _ (L1 & L2 & L3)].
  set (st := w_store w1) in *. set (N := d_N D) in *. set (x := fun q => _).
  assert (Iso : forall e, In e (entries st D) -> exists y, snd e = mscale y mid).
  { intros e I. rewrite EE in I. destruct SW as [(W4 & _) _ _ [fe Fe] [fo Fo]]. rewrite map_app in I. apply in_app_or in I as [I|I].
    - exfalso. rewrite map_map in I. apply in_map_iff in I as (a & _ & I). apply (onsite_value_stored w4 a W4) in I as [A EA]. rewrite Fo, Ho in EA. discriminate.
    - rewrite map_map in I. apply in_map_iff in I as (k & <- & I). cbn [snd fst]. apply (bond_value_stored w4 k W4) in I as [J EJ]. rewrite EJ. cbn [vdef].
      rewrite Fe in EJ. destruct (mirrored_value w k) as [J0|] eqn:E0; [|discriminate]. cbn [option_map] in EJ. apply vdef_Some in EJ. subst J.
      destruct (mirrored_iso w k J0 Hi E0) as [y ->]. exists (fe k * y). rewrite mscale_mscale. reflexivity. }
  set (X := fun i j => lsum (map (strength i j) (entries st D))).
  assert (Axes : forall i, (i < N)%nat -> 0 < norm (S_ D i) /\
     exists e1 e2 e3, span_orthonormal_set n = Ret (e1, e2, e3) /\ right_handed e1 e2 e3 /\ u_ D i = complex_vec e1 e2 /\ v_ D i = complex_vec e3 vzero).
  { intros i Li. destruct (nth_axes D atoms n sv i) as (Nn & Ps & e1 & e2 & e3 & E & Eu & Ev); auto; [lia|]. split; [exact Ps|].
    destruct (span_spec n Nn) as (f1 & f2 & f3 & E' & Rh & _). rewrite E in E'. injection E' as <- <- <-. exists e1, e2, e3. auto. }
  assert (PA : forall i j, (i < N)%nat -> (j < N)%nat -> d_A st D vzero i j = Cmult (RtoC (sqrt (norm (S_ D i)) * sqrt (norm (S_ D j)))) (X i j)).
  { intros i j Li Lj. unfold d_A. rewrite (J_iso _ _ _ _ _ _ _ Iso vopp_zero). destruct (Axes i Li) as (Pi & e1 & e2 & e3 & E & Rh & -> & _).
    destruct (Axes j Lj) as (Pj & f1 & f2 & f3 & E' & _ & -> & _). rewrite E in E'. injection E' as <- <- <-. destruct (axes_products _ _ _ Rh) as (-> & _ & _).
    rewrite sqrt_mult by lra. fold (X i j). rewrite RtoC_div by lra. field. apply RtoC_neq || (intros Z; injection Z as Z; lra). }
  assert (PB : forall i j, (i < N)%nat -> (j < N)%nat -> d_B st D vzero i j = RtoC 0).
  { intros i j Li Lj. unfold d_B. rewrite (J_iso _ _ _ _ _ _ _ Iso vopp_zero). destruct (Axes i Li) as (Pi & e1 & e2 & e3 & E & Rh & -> & _).
    destruct (Axes j Lj) as (Pj & f1 & f2 & f3 & E' & _ & -> & _). rewrite E in E'. injection E' as <- <- <-. destruct (axes_products _ _ _ Rh) as (_ & -> & _). ring. }
  assert (PC : forall i, (i < N)%nat -> d_C st D i i = csum N (fun l => Cmult (RtoC (norm (S_ D l))) (X i l))).
  { intros i Li. unfold d_C. rewrite Nat.eqb_refl, fold_csum. fold N. apply csum_ext. intros l Ll. rewrite cbil_scale_l, (J_iso _ _ _ _ _ _ _ Iso eq_refl).
    destruct (Axes i Li) as (Pi & e1 & e2 & e3 & E & Rh & _ & ->).
    destruct (Axes l Ll) as (Pj & f1 & f2 & f3 & E' & _ & _ & ->). rewrite E in E'. injection E' as <- <- <-. destruct (axes_products _ _ _ Rh) as (_ & _ & ->). fold (X i l). ring. }
  unfold mat_vec. replace (2 * N)%nat with (N + N)%nat by lia. rewrite csum_tail.
  2:{ intros i Hi'. unfold x. destruct (Nat.ltb_spec i N); [lia|]. ring. }
  unfold d_h. fold N. destruct (Nat.ltb_spec p N) as [Lp|Lp].
  - transitivity (csum N (fun q => Cplus (Cmult (Cmult (RtoC 2) (RtoC (sqrt (norm (S_ D p))))) (Cmult (RtoC (norm (S_ D q))) (X p q)))
                                    (if Nat.eqb p q then Copp (Cmult (c2 (d_C st D p q)) (x q)) else RtoC 0))).
    + apply csum_ext. intros q Lq. destruct (Nat.ltb_spec q N); [|lia]. rewrite (PA p q Lp Lq).
      assert (Xq : x q = RtoC (sqrt (norm (S_ D q)))) by (unfold x; destruct (Nat.ltb_spec q N); [reflexivity|lia]).
      assert (Sq : RtoC (norm (S_ D q)) = Cmult (RtoC (sqrt (norm (S_ D q)))) (RtoC (sqrt (norm (S_ D q))))).
      { rewrite <- RtoC_mult, sqrt_sqrt; [reflexivity|]. destruct (Axes q Lq) as [Pq _]. lra. }
      rewrite Xq, Sq, RtoC_mult. unfold c2. destruct (Nat.eqb_spec p q) as [->|Nq]; [ring|].
      replace (d_C st D p q) with (RtoC 0) by (unfold d_C; destruct (Nat.eqb_spec p q); [congruence|reflexivity]). ring.
    + rewrite csum_plus, csum_scale. rewrite (csum_delta N (fun q => if Nat.eqb p q then _ else _) p Lp).
      * rewrite Nat.eqb_refl, (PC p Lp). unfold c2, x. destruct (Nat.ltb_spec p N); [|lia]. unfold S_ at 1. ring.
      * intros i _ Ni. destruct (Nat.eqb_spec p i); [congruence|reflexivity].
  - apply csum_zero. intros q Lq. destruct (Nat.ltb_spec q N); [|lia]. rewrite (PB q (p - N)%nat Lq ltac:(lia)). unfold c2. rewrite conj_real. ring.
Qed.
