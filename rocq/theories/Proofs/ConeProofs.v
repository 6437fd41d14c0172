(** Cone states: the formulas of [antiferro] and [spiral] against rotated spins (C25, C26). *)
From Coq Require Import List Bool ZArith Reals Lra Lia Permutation Ring Field.
From Coquelicot Require Import Coquelicot.
From Verif.Base Require Import Scalar ScalarR Linear3 PyDict.
From Verif.Model Require Import MatrixParam Hamiltonian EnergyInit Energy.
From Verif.Spec Require Import HamSpec EnergySpec.
From Verif.Proofs Require Import DictProofs HamBasics FilterProofs EnergyInitProofs EnergyProofs.
Import ListNotations.
Local Open Scope R_scope.

(** ** Vectors *)
Lemma mvec_mmul (A B : M3 R) v : mvec (mmul A B) v = mvec A (mvec B v).
Proof. destruct A, B, v. apply V3_ext; rlin; ring. Qed.
Lemma mvec_madd (A B : M3 R) v : mvec (madd A B) v = vadd (mvec A v) (mvec B v).
Proof. destruct A, B, v. apply V3_ext; rlin; ring. Qed.
Lemma mvec_msub (A B : M3 R) v : mvec (msub A B) v = vsub (mvec A v) (mvec B v).
Proof. destruct A, B, v. apply V3_ext; rlin; ring. Qed.
Lemma mvec_mscale (A : M3 R) c v : mvec (mscale c A) v = vscale c (mvec A v).
Proof. destruct A, v. apply V3_ext; rlin; ring. Qed.
Lemma mvec_mdivs (A : M3 R) c v : mvec (mdivs A c) v = vscale (/ c) (mvec A v).
Proof. destruct A, v. apply V3_ext; rlin; unfold Rdiv; ring. Qed.
Lemma mvec_mid v : mvec (@mid R _) v = v.
Proof. destruct v. apply V3_ext; rlin; ring. Qed.
Lemma mvec_vadd (A : M3 R) u v : mvec A (vadd u v) = vadd (mvec A u) (mvec A v).
Proof. destruct A, u, v. apply V3_ext; rlin; ring. Qed.
Lemma mvec_vscale (A : M3 R) c v : mvec A (vscale c v) = vscale c (mvec A v).
Proof. destruct A, v. apply V3_ext; rlin; ring. Qed.
Lemma dot_vadd_r (a b c : V3 R) : dot a (vadd b c) = dot a b + dot a c.
Proof. destruct a, b, c. rlin. ring. Qed.
Lemma dot_vadd_l (a b c : V3 R) : dot (vadd a b) c = dot a c + dot b c.
Proof. destruct a, b, c. rlin. ring. Qed.
Lemma dot_vsub_r (a b c : V3 R) : dot a (vsub b c) = dot a b - dot a c.
Proof. destruct a, b, c. rlin. ring. Qed.
Lemma dot_vscale_r (a b : V3 R) k : dot a (vscale k b) = k * dot a b.
Proof. destruct a, b. rlin. ring. Qed.
Lemma dot_vscale_l (a b : V3 R) k : dot (vscale k a) b = k * dot a b.
Proof. destruct a, b. rlin. ring. Qed.
Lemma dot_sym (a b : V3 R) : dot a b = dot b a.
Proof. destruct a, b. rlin. ring. Qed.

Lemma K_cross (n v : V3 R) : mvec (cone_K n) v = cross n v.
Proof. destruct n, v. unfold cone_K. apply V3_ext; rlin; ring. Qed.
(** Components of [v]: along the axis, across it, turned by a right angle. *)
Definition along (n v : V3 R) : V3 R := vscale (dot n v) n.
Definition across (n v : V3 R) : V3 R := vsub v (along n v).
Definition turned (n v : V3 R) : V3 R := cross n v.
Lemma rotate_parts n phi v : rotate n phi v = vadd (vadd (along n v) (vscale (cos phi) (across n v))) (vscale (sin phi) (turned n v)).
Proof. unfold rotate, across, along, turned. destruct n, v. apply V3_ext; rlin; ring. Qed.
Lemma cross_cross (n v : V3 R) : dot n n = 1 -> cross n (cross n v) = vscale (-1) (across n v).
Proof.
  intros H. assert (X : cross n (cross n v) = vsub (vscale (dot n v) n) (vscale (dot n n) v)) by (destruct n, v; apply V3_ext; rlin; ring).
  rewrite X, H. unfold across, along. destruct n, v. apply V3_ext; rlin; ring.
Qed.
Lemma Ksq_across n v : dot n n = 1 -> mvec (mmul (cone_K n) (cone_K n)) v = vscale (-1) (across n v).
Proof. intros H. rewrite mvec_mmul, !K_cross. apply cross_cross, H. Qed.
Lemma N_along n v : dot n n = 1 -> mvec (madd mid (mmul (cone_K n) (cone_K n))) v = along n v.
Proof. intros H. rewrite mvec_madd, mvec_mid, Ksq_across by exact H. unfold across, along. destruct n, v. apply V3_ext; rlin; ring. Qed.
(** The axis matrix moved to the other factor. *)
Lemma dot_K (n u w : V3 R) : dot u (mvec (cone_K n) w) = - dot (turned n u) w.
Proof. rewrite K_cross. unfold turned. destruct n, u, w. rlin. ring. Qed.
Lemma dot_Ksq n u w : dot n n = 1 -> dot u (mvec (mmul (cone_K n) (cone_K n)) w) = - dot (across n u) w.
Proof. intros H. rewrite Ksq_across by exact H. unfold across, along. destruct n, u, w. rlin. ring. Qed.
Lemma dot_N n u w : dot n n = 1 -> dot u (mvec (madd mid (mmul (cone_K n) (cone_K n))) w) = dot (along n u) w.
Proof. intros H. rewrite N_along by exact H. unfold along. destruct n, u, w. rlin. ring. Qed.

Section Bond.
Variables (n u v : V3 R) (J : M3 R) (c s : R).
Hypothesis Hn : dot n n = 1.
Let A := along n u. Let B := across n u. Let T := turned n u.
Let A' := mvec J (along n v). Let B' := mvec J (across n v). Let T' := mvec J (turned n v).

Lemma spiral_bilin : bilin u (spiral_C (cone_K n) J c s) v =
  dot A A' + / 2 * (c * (dot B B' + dot T T') + s * (dot B T' - dot T B')).
Proof using Hn.
  unfold bilin, spiral_C.
  rewrite !mvec_msub, !mvec_mscale, !mvec_mdivs, !mvec_msub, !mvec_madd.
  replace (mvec (mmul (mmul (madd mid (mmul (cone_K n) (cone_K n))) J) (madd mid (mmul (cone_K n) (cone_K n)))) v)
    with (mvec (madd mid (mmul (cone_K n) (cone_K n))) A') by (rewrite (mvec_mmul (mmul _ J)), (mvec_mmul _ J), (N_along n v Hn); reflexivity).
  rewrite !(mvec_mmul (mmul (cone_K n) J)), !(mvec_mmul (cone_K n) J), !(mvec_mmul (mmul (mmul (cone_K n) (cone_K n)) J)), !(mvec_mmul (mmul (cone_K n) (cone_K n)) J).
  rewrite (Ksq_across n v Hn), (K_cross n v). fold (turned n v). rewrite !mvec_vscale. fold B' T'.
  rewrite !dot_vsub_r, !dot_vscale_r, !dot_vsub_r, !dot_vadd_r, (dot_N n u _ Hn), !dot_vscale_r, !(dot_K n u), !(dot_Ksq n u _ Hn).
  fold A B T. unfold f2. cbn [fadd f1 R_Scalar]. field.
Qed.
Lemma antiferro_bilin : bilin u (antiferro_C (cone_K n) J c s) v = dot A A' + (c * dot B B' + s * dot B T').
Proof using Hn.
  unfold bilin, antiferro_C.
  rewrite !mvec_msub, !mvec_madd, !mvec_mscale.
  replace (mvec (mmul (mmul (madd mid (mmul (cone_K n) (cone_K n))) J) (madd mid (mmul (cone_K n) (cone_K n)))) v)
    with (mvec (madd mid (mmul (cone_K n) (cone_K n))) A') by (rewrite (mvec_mmul (mmul _ J)), (mvec_mmul _ J), (N_along n v Hn); reflexivity).
  rewrite !(mvec_mmul (mmul (mmul (cone_K n) (cone_K n)) J)), !(mvec_mmul (mmul (cone_K n) (cone_K n)) J).
  rewrite (Ksq_across n v Hn), (K_cross n v). fold (turned n v). rewrite !mvec_vscale. fold B' T'.
  rewrite !dot_vsub_r, !dot_vadd_r, !dot_vscale_r, (dot_N n u _ Hn), !(dot_Ksq n u _ Hn).
  fold A B T. ring.
Qed.
(** The energy of a rotated pair as a trigonometric polynomial. *)
Lemma pair_phase phi theta : dot (rotate n phi u) (mvec J (rotate n (phi + theta) v)) =
  dot A A' + (cos phi * (dot B A' + cos theta * dot A B' + sin theta * dot A T') + sin phi * (dot T A' - sin theta * dot A B' + cos theta * dot A T')
  + cos phi * cos phi * (cos theta * dot B B' + sin theta * dot B T')
  + sin phi * sin phi * (cos theta * dot T T' - sin theta * dot T B')
  + sin phi * cos phi * (cos theta * dot B T' - sin theta * dot B B' + cos theta * dot T B' + sin theta * dot T T')).
Proof.
  rewrite !rotate_parts, cos_plus, sin_plus, !mvec_vadd, !mvec_vscale. fold A B T A' B' T'.
  rewrite !dot_vadd_l, !dot_vadd_r, !dot_vscale_l, !dot_vscale_r. ring.
Qed.
End Bond.

Lemma trig_integral a0 a1 a2 a3 a4 a5 :
  is_RInt (fun x => a0 + (cos x * a1 + sin x * a2 + cos x * cos x * a3 + sin x * sin x * a4 + sin x * cos x * a5)) 0 (2 * PI) (2 * PI * (a0 + / 2 * (a3 + a4))).
Proof.
  set (G := fun x => a0 * x + a1 * sin x - a2 * cos x + a3 * (x / 2 + sin x * cos x / 2) + a4 * (x / 2 - sin x * cos x / 2) + a5 * (sin x * sin x / 2)).
  replace (2 * PI * (a0 + / 2 * (a3 + a4))) with (minus (G (2 * PI)) (G 0)).
  - apply (is_RInt_derive G).
    + intros x _. unfold G. auto_derive; [trivial|]. assert (S := sin2_cos2 x). unfold Rsqr in S. revert S. generalize (sin x), (cos x). intros y z S.
      assert (Z : z * z = 1 - y * y) by lra. rewrite !Rmult_1_l, !Rmult_1_r, Z. field.
    + intros x _. apply (ex_derive_continuous (K := R_AbsRing) (V := R_NormedModule)). auto_derive. trivial.
  - unfold minus, plus, opp, G; cbn. rewrite sin_2PI, cos_2PI, sin_0, cos_0. field.
Qed.

Lemma spiral_bond_average n u v J theta : dot n n = 1 ->
  is_RInt (fun phi => dot (rotate n phi u) (mvec J (rotate n (phi + theta) v))) 0 (2 * PI) (2 * PI * bilin u (spiral_C (cone_K n) J (cos theta) (sin theta)) v).
Proof.
  intros Hn. rewrite (spiral_bilin n u v J _ _ Hn).
  eapply is_RInt_ext; [intros phi _; symmetry; apply pair_phase|].
  match goal with |- is_RInt (fun x => ?a0 + (cos x * ?a1 + sin x * ?a2 + cos x * cos x * ?a3 + sin x * sin x * ?a4 + sin x * cos x * ?a5)) _ _ ?r =>
    replace r with (2 * PI * (a0 + / 2 * (a3 + a4))) by (f_equal; f_equal; field); exact (trig_integral a0 a1 a2 a3 a4 a5) end.
Qed.
Lemma antiferro_bond_average n u v J theta : dot n n = 1 ->
  bilin u (antiferro_C (cone_K n) J (cos theta) (sin theta)) v =
  (dot (rotate n 0 u) (mvec J (rotate n (0 + theta) v)) + dot (rotate n PI u) (mvec J (rotate n (PI + theta) v))) / 2.
Proof.
  intros Hn. rewrite (antiferro_bilin n u v J _ _ Hn). rewrite !pair_phase. rewrite cos_0, sin_0, cos_PI, sin_PI. field.
Qed.

(** ** Whole energies *)
Lemma osum_Forall {A} (f : A -> option R) l x : osum (map f l) = Some x -> forall a, In a l -> exists y, f a = Some y.
Proof.
  revert x. induction l as [|b l IH]; intros x H a I; [destruct I|]. cbn [map osum] in H. destruct (f b) as [y|] eqn:E; [|discriminate].
  destruct (osum (map f l)) as [z|]; [|discriminate]. destruct I as [<-|I]; eauto.
Qed.
Lemma nth_error_nth' {A} (l : list A) i d x : nth_error l i = Some x -> nth i l d = x.
Proof. revert i. induction l; destruct i; cbn; try discriminate; [congruence|apply IHl]. Qed.
Lemma bond_energy_phase st E C dirs b y : bond_energy st E C dirs b = Some y ->
  let '(i, j, d, l) := b in
  y = e_factor E * nth i (e_spins E) 0 * nth j (e_spins E) 0 * bilin (nth i dirs vzero) (C d (nth l st mzero)) (nth j dirs vzero).
Proof.
  destruct b as [[[i j] d] l]. unfold bond_energy. destruct (nth_error (e_spins E) i) eqn:E1; [|discriminate]. destruct (nth_error (e_spins E) j) eqn:E2; [|discriminate].
  destruct (nth_error dirs i) eqn:E3; [|discriminate]. destruct (nth_error dirs j) eqn:E4; [|discriminate]. destruct (nth_error st l) eqn:E5; [|discriminate].
  intros [= <-]. rewrite (nth_error_nth' _ _ 0 _ E1), (nth_error_nth' _ _ 0 _ E2), (nth_error_nth' _ _ vzero _ E3), (nth_error_nth' _ _ vzero _ E4), (nth_error_nth' _ _ mzero _ E5). reflexivity.
Qed.

Lemma sum_spiral st E dirs n q x : dot n n = 1 ->
  bonds_energy st E (fun d J => spiral_C (cone_K n) J (cos (dot q d)) (sin (dot q d))) dirs = Some x ->
  is_RInt (phase_energy st E dirs n q) 0 (2 * PI) (2 * PI * x).
Proof.
  intros Hn. rewrite bonds_energy_osum. unfold phase_energy. generalize (e_bonds E). intros l. revert x. induction l as [|b l IH]; intros x H; cbn [map osum fold_right] in *.
  - injection H as <-. replace (2 * PI * 0) with (scal (2 * PI - 0) 0) by (unfold scal; cbn; unfold mult; cbn; ring). apply (is_RInt_const (V := R_NormedModule)).
  - destruct (bond_energy _ _ _ _ b) as [y|] eqn:Eb; [|discriminate]. destruct (osum _) as [z|]; [|discriminate]. injection H as <-.
    change (y + z)%fld with (y + z). rewrite Rmult_plus_distr_l. apply (is_RInt_plus (V := R_NormedModule)); [|apply IH; reflexivity].
    apply bond_energy_phase in Eb. destruct b as [[[i j] d] lo]. subst y. unfold phase_bond.
    set (k := e_factor E * nth i (e_spins E) 0 * nth j (e_spins E) 0).
    replace (2 * PI * (k * bilin (nth i dirs vzero) (spiral_C (cone_K n) (nth lo st mzero) (cos (dot q d)) (sin (dot q d))) (nth j dirs vzero)))
      with (scal k (2 * PI * bilin (nth i dirs vzero) (spiral_C (cone_K n) (nth lo st mzero) (cos (dot q d)) (sin (dot q d))) (nth j dirs vzero))).
    + apply (is_RInt_scal (V := R_NormedModule)). apply spiral_bond_average. exact Hn.
    + unfold scal; cbn; unfold mult; cbn. ring.
Qed.
Lemma sum_antiferro st E dirs n q x : dot n n = 1 ->
  bonds_energy st E (fun d J => antiferro_C (cone_K n) J (cos (dot q d)) (sin (dot q d))) dirs = Some x ->
  x = (phase_energy st E dirs n q 0 + phase_energy st E dirs n q PI) / 2.
Proof.
  intros Hn. rewrite bonds_energy_osum. unfold phase_energy. generalize (e_bonds E). intros l. revert x. induction l as [|b l IH]; intros x H; cbn [map osum fold_right] in *.
  - injection H as <-. cbn. field.
  - destruct (bond_energy _ _ _ _ b) as [y|] eqn:Eb; [|discriminate]. destruct (osum _) as [z|]; [|discriminate]. injection H as <-.
    change (y + z)%fld with (y + z). rewrite (IH z eq_refl). apply bond_energy_phase in Eb. destruct b as [[[i j] d] lo]. subst y. unfold phase_bond.
    rewrite (antiferro_bond_average n _ _ _ (dot q d) Hn). field.
Qed.

(** What a successful call of [antiferro] or [spiral] computed. *)
Lemma cone_energy_inv C mu st E a n0 q0 e : cone_energy C mu st E a n0 q0 = Ret e ->
  exists rows dirs n1 n q x, check_spins E a = Ret rows /\ Forall2 direction rows dirs /\ n0 = Some n1 /\ direction n1 n /\ q0 = Some q /\
    bonds_energy st E (fun d J => C (cone_K n) J (cos (dot q d)) (sin (dot q d))) dirs = Some x /\ e = x + zeeman mu E (so_prime (cone_K n) dirs).
Proof.
  unfold cone_energy. destruct n0 as [n1|]; [|discriminate]. destruct q0 as [q|]; [|discriminate]. cbn [check_vector obind].
  destruct (check_spins E a) as [rows|] eqn:E1; [|discriminate]. cbn [obind]. destruct (normalize_all rows) as [dirs|] eqn:E2; [|discriminate]. cbn [obind].
  unfold normalize. destruct (Req_EM_T (norm n1) 0) as [|Nn]; [discriminate|]. cbn [obind].
  destruct (bonds_energy _ _ _ _) as [x|] eqn:E3; [|discriminate]. cbn [of_option obind]. intros [= <-].
  exists rows, dirs, n1, (unit n1), q, x. splits; auto; [apply normalize_all_inv, E2|apply unit_is_direction, Nn].
Qed.
Lemma direction_unique v u u' : direction v u -> direction v u' -> u = u'.
Proof. intros D D'. apply direction_unit in D as [_ <-]. apply direction_unit in D' as [_ <-]. reflexivity. Qed.
Lemma directions_unique rows us us' : Forall2 direction rows us -> Forall2 direction rows us' -> us = us'.
Proof.
  intros H. revert us'. induction H; intros us' H'; inversion H'; subst; [reflexivity|]. f_equal; [eapply direction_unique; eauto|auto].
Qed.

Lemma spiral_average mu st E rows dirs n1 n q e : e_field E = None -> Forall2 direction rows dirs -> direction n1 n ->
  e_spiral mu st E (SRows rows) (Some n1) (Some q) = Ret e -> is_RInt (phase_energy st E dirs n q) 0 (2 * PI) (2 * PI * e).
Proof.
  intros Hf Hd Hn H. apply cone_energy_inv in H as (rows' & dirs' & n1' & n' & q' & x & C & D & [= <-] & Dn & [= <-] & X & ->).
  apply check_rows in C. subst rows'. rewrite (directions_unique _ _ _ D Hd) in *. rewrite (direction_unique _ _ _ Dn Hn) in *.
  unfold zeeman. rewrite Hf. change (x + 0)%R with (x + 0). rewrite Rplus_0_r. apply sum_spiral; [apply Hn|exact X].
Qed.
Lemma antiferro_average mu st E rows dirs n1 n q e : e_field E = None -> Forall2 direction rows dirs -> direction n1 n ->
  e_antiferro mu st E (SRows rows) (Some n1) (Some q) = Ret e ->
  e = (phase_energy st E dirs n q 0 + phase_energy st E dirs n q PI) / 2.
Proof.
  intros Hf Hd Hn H. apply cone_energy_inv in H as (rows' & dirs' & n1' & n' & q' & x & C & D & [= <-] & Dn & [= <-] & X & ->).
  apply check_rows in C. subst rows'. rewrite (directions_unique _ _ _ D Hd) in *. rewrite (direction_unique _ _ _ Dn Hn) in *.
  unfold zeeman. rewrite Hf. rewrite Rplus_0_r. apply sum_antiferro; [apply Hn|exact X].
Qed.

(** ** C26 *)
Fixpoint along_zeeman (mu : R) (H : V3 R) (gs : list R) (dirs : list (V3 R)) (n : V3 R) : R :=
  match gs, dirs with
  | g :: gs', u :: dirs' => mu * g * dot H (along n u) + along_zeeman mu H gs' dirs' n
  | _, _ => 0
  end.
Lemma so_prime_sum mu H gs dirs n : dot n n = 1 ->
  mu * zeeman_sum H gs (so_prime (cone_K n) dirs) = plain_zeeman mu H gs dirs + along_zeeman mu H gs dirs n.
Proof.
  intros Hn. unfold so_prime. revert dirs. induction gs as [|g gs IH]; intros dirs; [cbn; ring|]. destruct dirs as [|u dirs]; [cbn; ring|].
  cbn [map zeeman_sum plain_zeeman along_zeeman]. change (@fadd R R_Scalar) with Rplus. change (@fmul R R_Scalar) with Rmult.
  rewrite Rmult_plus_distr_l, IH, mvec_madd, mvec_mid, (N_along n u Hn), dot_vadd_r. ring.
Qed.
Lemma phase_zeeman_integral mu H gs dirs n :
  is_RInt (phase_zeeman mu H gs dirs n) 0 (2 * PI) (2 * PI * along_zeeman mu H gs dirs n).
Proof.
  revert dirs. induction gs as [|g gs IH]; intros dirs.
  - cbn. replace (2 * PI * 0) with (scal (2 * PI - 0) 0) by (unfold scal; cbn; unfold mult; cbn; ring). apply (is_RInt_const (V := R_NormedModule)).
  - destruct dirs as [|u dirs].
    + cbn. replace (2 * PI * 0) with (scal (2 * PI - 0) 0) by (unfold scal; cbn; unfold mult; cbn; ring). apply (is_RInt_const (V := R_NormedModule)).
    + cbn [phase_zeeman along_zeeman]. rewrite Rmult_plus_distr_l. apply (is_RInt_plus (V := R_NormedModule)); [|apply IH].
      replace (2 * PI * (mu * g * dot H (along n u))) with (scal (mu * g) (2 * PI * dot H (along n u))) by (unfold scal; cbn; unfold mult; cbn; ring).
      apply (is_RInt_scal (V := R_NormedModule)).
      assert (T := trig_integral (dot H (along n u)) (dot H (across n u)) (dot H (turned n u)) 0 0 0).
      replace (2 * PI * dot H (along n u)) with (2 * PI * (dot H (along n u) + / 2 * (0 + 0))) by field.
      assert (X : forall phi, dot H (along n u) + (cos phi * dot H (across n u) + sin phi * dot H (turned n u) + cos phi * cos phi * 0 + sin phi * sin phi * 0 + sin phi * cos phi * 0)
        = dot H (rotate n phi u)) by (intros phi; rewrite rotate_parts, !dot_vadd_r, !dot_vscale_r; ring).
      refine (is_RInt_ext _ _ _ _ _ _ T). intros phi _. apply X.
Qed.
Lemma phase_zeeman_two mu H gs dirs n : along_zeeman mu H gs dirs n = (phase_zeeman mu H gs dirs n 0 + phase_zeeman mu H gs dirs n PI) / 2.
Proof.
  revert dirs. induction gs as [|g gs IH]; intros dirs; [cbn; field|]. destruct dirs as [|u dirs]; [cbn; field|].
  cbn [phase_zeeman along_zeeman]. rewrite IH, !rotate_parts, !dot_vadd_r, !dot_vscale_r, cos_0, sin_0, cos_PI, sin_PI. field.
Qed.
Lemma bonds_energy_field {F} {SF : Scalar F} (st : list (M3 F)) E H C dirs : bonds_energy st (set_field E H) C dirs = bonds_energy st E C dirs.
Proof. reflexivity. Qed.
Lemma cone_field_part C mu st E rows dirs n1 n q H e e0 : Forall2 direction rows dirs -> direction n1 n ->
  cone_energy C mu st (set_field E (Some H)) (SRows rows) (Some n1) (Some q) = Ret e ->
  cone_energy C mu st (set_field E None) (SRows rows) (Some n1) (Some q) = Ret e0 ->
  e - e0 = along_zeeman mu H (e_g E) dirs n + plain_zeeman mu H (e_g E) dirs.
Proof.
  intros Hd Hn X X0. apply cone_energy_inv in X as (rows' & dirs' & n1' & n' & q' & x & Ck & D & [= <-] & Dn & [= <-] & X & ->).
  apply cone_energy_inv in X0 as (rows2 & dirs2 & n2' & n2 & q2 & x2 & Ck2 & D2 & [= <-] & Dn2 & [= <-] & X2 & ->).
  apply check_rows in Ck, Ck2. subst rows' rows2. rewrite (directions_unique _ _ _ D Hd), (directions_unique _ _ _ D2 Hd) in *.
  rewrite (direction_unique _ _ _ Dn Hn), (direction_unique _ _ _ Dn2 Hn) in *.
  rewrite bonds_energy_field in X, X2. rewrite X in X2. injection X2 as <-.
  unfold zeeman. cbn [set_field e_field e_g]. change (@fmul R R_Scalar) with Rmult. rewrite so_prime_sum by apply Hn. change (@f0 R R_Scalar) with 0. ring.
Qed.

(** What the field adds, for [spiral] and [antiferro]: the lattice average of the Zeeman energy plus once more the
    Zeeman energy of the unrotated spins. *)
Lemma spiral_zeeman mu st E rows dirs n1 n q H e e0 : Forall2 direction rows dirs -> direction n1 n ->
  e_spiral mu st (set_field E (Some H)) (SRows rows) (Some n1) (Some q) = Ret e ->
  e_spiral mu st (set_field E None) (SRows rows) (Some n1) (Some q) = Ret e0 ->
  exists average, is_RInt (phase_zeeman mu H (e_g E) dirs n) 0 (2 * PI) (2 * PI * average) /\
    e - e0 = average + plain_zeeman mu H (e_g E) dirs.
Proof.
  intros Hd Hn X X0. exists (along_zeeman mu H (e_g E) dirs n). split; [apply phase_zeeman_integral|]. exact (cone_field_part _ _ _ _ _ _ _ _ _ _ _ _ Hd Hn X X0).
Qed.
Lemma antiferro_zeeman mu st E rows dirs n1 n q H e e0 : Forall2 direction rows dirs -> direction n1 n ->
  e_antiferro mu st (set_field E (Some H)) (SRows rows) (Some n1) (Some q) = Ret e ->
  e_antiferro mu st (set_field E None) (SRows rows) (Some n1) (Some q) = Ret e0 ->
  e - e0 = (phase_zeeman mu H (e_g E) dirs n 0 + phase_zeeman mu H (e_g E) dirs n PI) / 2 + plain_zeeman mu H (e_g E) dirs.
Proof. intros Hd Hn X X0. rewrite <- phase_zeeman_two. exact (cone_field_part _ _ _ _ _ _ _ _ _ _ _ _ Hd Hn X X0). Qed.

(** ** When the calls succeed *)
Lemma cone_total C mu st E rows dirs n1 n q : List.length rows = List.length (e_spins E) -> rows <> [] -> Forall2 direction rows dirs -> direction n1 n ->
  (forall i j d l, In (i, j, d, l) (e_bonds E) -> (i < List.length (e_spins E) /\ j < List.length (e_spins E) /\ l < List.length st)%nat) ->
  exists e, cone_energy C mu st E (SRows rows) (Some n1) (Some q) = Ret e.
Proof.
  intros Hl Hne Hd Hn Hb. unfold cone_energy. cbn [check_vector obind].
  assert (Ck : check_spins E (SRows rows) = Ret rows) by (destruct rows; [congruence|]; cbn [check_spins]; rewrite <- Hl, Nat.eqb_refl; reflexivity).
  rewrite Ck. cbn [obind]. rewrite (normalize_all_ok _ _ Hd). cbn [obind]. unfold normalize. destruct (direction_unit _ _ Hn) as [Nn Eu].
  destruct (Req_EM_T (norm n1) 0); [contradiction|]. cbn [obind]. rewrite Eu.
  assert (X : exists x, bonds_energy st E (fun d J => C (cone_K n) J (cos (dot q d)) (sin (dot q d))) dirs = Some x).
  { rewrite bonds_energy_osum. assert (Hld := Forall2_len _ _ _ Hd). rewrite Hl in Hld. clear - Hb Hld. generalize dependent (e_bonds E). intros l Hb. induction l as [|b l IH]; [eexists; reflexivity|].
    cbn [map osum]. destruct IH as [z ->]; [intros; apply (Hb i j d); right; assumption|].
    destruct b as [[[i j] d] lo]. destruct (Hb i j d lo (or_introl eq_refl)) as (A & B & D). unfold bond_energy.
    assert (A' := A). assert (B' := B). rewrite Hld in A', B'. apply nth_error_Some in A, B, D, A', B'.
    destruct (nth_error (e_spins E) i); [|congruence]. destruct (nth_error (e_spins E) j); [|congruence]. destruct (nth_error dirs i); [|congruence].
    destruct (nth_error dirs j); [|congruence]. destruct (nth_error st lo); [|congruence]. eexists; reflexivity. }
  destruct X as [x ->]. eexists; reflexivity.
Qed.
