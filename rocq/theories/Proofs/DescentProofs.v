(** Derivatives of the energies along the steps of the minimizer (C28, C29). *)
From Coq Require Import List Bool ZArith Reals Lra Lia Ring Field.
From Coquelicot Require Import Coquelicot.
From Verif.Base Require Import Scalar ScalarR Linear3.
From Verif.Model Require Import MatrixParam Hamiltonian EnergyInit Energy Optimizer.
From Verif.Spec Require Import HamSpec EnergySpec OptimizerSpec.
From Verif.Proofs Require Import DictProofs HamBasics FilterProofs EnergyInitProofs EnergyProofs ConeProofs OptimizerProofs.
Import ListNotations.
Local Open Scope R_scope.

Definition rsum (l : list R) : R := fold_right Rplus 0 l.
Lemma rsum_plus {A} (f g : A -> R) l : rsum (map (fun a => f a + g a) l) = rsum (map f l) + rsum (map g l).
Proof. unfold rsum. induction l; cbn; [ring|]. rewrite IHl. ring. Qed.
Lemma rsum_zero {A} (f : A -> R) l : (forall a, f a = 0) -> rsum (map f l) = 0.
Proof. intros H. unfold rsum. induction l; cbn; [reflexivity|]. rewrite H, IHl. ring. Qed.
Lemma rsum_scale {A} (f : A -> R) c l : rsum (map (fun a => c * f a) l) = c * rsum (map f l).
Proof. unfold rsum. induction l; cbn; [ring|]. rewrite IHl. ring. Qed.
Lemma rsum_ext {A} (f g : A -> R) l : (forall a, In a l -> f a = g a) -> rsum (map f l) = rsum (map g l).
Proof. intros H. f_equal. apply map_ext_in, H. Qed.

Lemma rsum_cons {A} (f : A -> R) a l : rsum (map f (a :: l)) = f a + rsum (map f l).
Proof. reflexivity. Qed.

(** ** Rotation of one vector *)
Definition vderive (f : R -> V3 R) (x : R) (l : V3 R) : Prop :=
  is_derive (fun s => vx (f s)) x (vx l) /\ is_derive (fun s => vy (f s)) x (vy l) /\ is_derive (fun s => vz (f s)) x (vz l).

Lemma unit_norm (t : V3 R) : vscale (norm t) (unit t) = t.
Proof.
  destruct (Req_EM_T (norm t) 0) as [Z|Z].
  - assert (D : dot t t = 0) by (rewrite <- norm_sq, Z; ring). destruct t as [a b c]. revert D. rlin. intros D.
    assert (a = 0 /\ b = 0 /\ c = 0) as (-> & -> & ->) by (splits; nra). apply V3_ext; cbn; unfold Rdiv; ring.
  - destruct t as [a b c]. unfold unit. apply V3_ext; cbn; field; exact Z.
Qed.

Lemma turn_about_at0 t v : turn_about t 0 v = v.
Proof. unfold turn_about, rotate. rewrite Rmult_0_l, Ropp_0, cos_0, sin_0. destruct v. apply V3_ext; rlin; ring. Qed.
Lemma turn_about_derive t v : vderive (fun s => turn_about t s v) 0 (vscale (-1) (cross t v)).
Proof.
  assert (U := unit_norm t).
  assert (X : vscale (-1) (cross t v) = vscale (- norm t) (cross (unit t) v)).
  { rewrite <- U at 1. generalize (unit t) (norm t). intros [a b c] k. destruct v. apply V3_ext; rlin; ring. }
  rewrite X. clear X U. unfold turn_about. generalize (unit t) (norm t). clear t. intros [a b c] k. destruct v as [x y z].
  unfold vderive, rotate. rlin.
  splits; auto_derive; trivial; rewrite !Rmult_0_l, !Ropp_0, ?cos_0, ?sin_0; ring.
Qed.
Lemma dot_derive f g x f' g' : vderive f x f' -> vderive g x g' -> is_derive (fun s => dot (f s) (g s)) x (dot f' (g x) + dot (f x) g').
Proof.
  intros (F1 & F2 & F3) (G1 & G2 & G3).
  assert (M := fun h k h' k' H K => is_derive_mult h k x h' k' H K Rmult_comm).
  assert (T : is_derive (fun s => vx (f s) * vx (g s) + vy (f s) * vy (g s) + vz (f s) * vz (g s)) x
     ((vx f' * vx (g x) + vx (f x) * vx g') + (vy f' * vy (g x) + vy (f x) * vy g') + (vz f' * vz (g x) + vz (f x) * vz g'))).
  { apply (is_derive_plus (V := R_NormedModule)); [apply (is_derive_plus (V := R_NormedModule))|]; apply M; assumption. }
  match type of T with is_derive _ _ ?l => replace (dot f' (g x) + dot (f x) g') with l end; [exact T|].
  unfold dot. cbn [fadd fmul R_Scalar]. ring.
Qed.
Lemma mvec_derive J f x f' : vderive f x f' -> vderive (fun s => mvec J (f s)) x (mvec J f').
Proof.
  intros (F1 & F2 & F3). destruct J as [a1 a2 a3 b1 b2 b3 e1 e2 e3].
  assert (T : forall a b c, is_derive (fun s => a * vx (f s) + b * vy (f s) + c * vz (f s)) x (a * vx f' + b * vy f' + c * vz f')).
  { intros. apply (is_derive_plus (V := R_NormedModule)); [apply (is_derive_plus (V := R_NormedModule))|]; apply is_derive_scal; assumption. }
  unfold vderive. cbn [mvec mrow1 mrow2 mrow3 vx vy vz mxx mxy mxz myx myy myz mzx mzy mzz]. splits; apply T.
Qed.
Lemma const_derive (v : V3 R) x : vderive (fun _ => v) x vzero.
Proof. unfold vderive, vzero. cbn [vx vy vz f0 R_Scalar]. splits; apply (is_derive_const (V := R_NormedModule)). Qed.

Lemma turn_all_nth ts s rows i : length ts = length rows -> nth i (turn_all ts s rows) vzero = turn_about (nth i ts vzero) s (nth i rows vzero).
Proof.
  revert rows i. induction ts as [|t ts IH]; intros [|v rows] i L; try discriminate.
  - destruct i; cbn [turn_all nth]; unfold turn_about, rotate; apply V3_ext; rlin; ring.
  - destruct i; cbn [turn_all nth]; [reflexivity|]. apply IH. cbn in L. lia.
Qed.
Lemma turn_all_length ts s rows : length (turn_all ts s rows) = length rows.
Proof. revert rows. induction ts as [|t ts IH]; intros [|v rows]; cbn; auto. Qed.

(** ** The energy of all bonds *)
Lemma sum_dot_seq ts (f : nat -> V3 R) a : sum_dot ts (map f (seq a (length ts))) = rsum (map (fun k => dot (nth (k - a) ts vzero) (f k)) (seq a (length ts))).
Proof.
  revert a. induction ts as [|t ts IH]; intros a; [reflexivity|]. cbn [length seq map sum_dot]. unfold rsum in *. cbn [fold_right]. rewrite Nat.sub_diag. cbn [nth]. f_equal.
  rewrite IH. f_equal. apply map_ext_in. intros k I. apply in_seq in I. replace (k - a)%nat with (S (k - S a)) by lia. reflexivity.
Qed.
Lemma pick (h : nat -> R) i n : rsum (map (fun k => if Nat.eqb i k then h k else 0) (seq 0 n)) = if Nat.ltb i n then h i else 0.
Proof.
  assert (X : forall a, rsum (map (fun k => if Nat.eqb i k then h k else 0) (seq a n)) = if (Nat.leb a i && Nat.ltb i (a + n))%bool then h i else 0).
  { induction n as [|n IH]; intros a; cbn [seq map].
    - destruct (Nat.leb_spec a i), (Nat.ltb_spec i (a + 0)); try lia; reflexivity.
    - unfold rsum in *. cbn [fold_right]. rewrite IH. destruct (Nat.eqb_spec i a) as [->|N].
      + rewrite Nat.leb_refl. destruct (Nat.leb_spec (S a) a), (Nat.ltb_spec a (a + S n)); try lia; cbn; ring.
      + destruct (Nat.leb_spec (S a) i), (Nat.leb_spec a i), (Nat.ltb_spec i (S a + n)), (Nat.ltb_spec i (a + S n)); try lia; cbn; ring. }
  rewrite X. reflexivity.
Qed.
Lemma triple (t v w : V3 R) : dot t (cross v w) = dot (cross t v) w.
Proof. destruct t, v, w. rlin. ring. Qed.
Lemma dot_trans (u v : V3 R) J : dot u (mvec J v) = dot v (mvec (mtrans J) u).
Proof. destruct u, v, J. rlin. ring. Qed.

Section Bonds.
Variables (mu : R) (st : list (M3 R)) (E : @energy_obj R) (rows ts : list (V3 R)).
Hypothesis Hlen : length ts = length rows.

Lemma dot_if (t : V3 R) (b : bool) v w : dot t (cross v (if b then w else vzero)) = if b then dot t (cross v w) else 0.
Proof. destruct b; [reflexivity|]. destruct t, v. rlin. ring. Qed.
Lemma cross_parts (t v a b : V3 R) c : dot t (cross v (vscale c (vadd a b))) = c * (dot t (cross v a) + dot t (cross v b)).
Proof. destruct t, v, a, b. rlin. ring. Qed.

Lemma pair_derive b : is_derive (fun s => pair_part st E (turn_all ts s rows) b) 0
  (- rsum (map (fun k => dot (nth k ts vzero) (cross (nth k rows vzero) (pair_field st E rows k b))) (seq 0 (length rows)))).
Proof using Hlen.
  destruct b as [[[i j] d] l]. unfold pair_part, pair_field.
  set (c := e_factor E * nth i (e_spins E) 0 * nth j (e_spins E) 0). set (J := nth l st mzero).
  set (u := nth i rows vzero). set (v := nth j rows vzero).
  assert (D := dot_derive _ _ _ _ _ (turn_about_derive (nth i ts vzero) u) (mvec_derive J _ _ _ (turn_about_derive (nth j ts vzero) v))).
  cbn beta in D. rewrite !turn_about_at0 in D.
  apply is_derive_ext with (fun s => c * dot (turn_about (nth i ts vzero) s u) (mvec J (turn_about (nth j ts vzero) s v))).
  { intros s. rewrite !turn_all_nth by exact Hlen. reflexivity. }
  match goal with |- is_derive _ _ ?r => replace r with (c * (dot (vscale (-1) (cross (nth i ts vzero) u)) (mvec J v) + dot u (mvec J (vscale (-1) (cross (nth j ts vzero) v))))) end.
  { apply (is_derive_scal (fun s => dot (turn_about (nth i ts vzero) s u) (mvec J (turn_about (nth j ts vzero) s v)))). exact D. }
  rewrite (rsum_ext _ (fun k => c * ((if Nat.eqb i k then dot (nth k ts vzero) (cross (nth k rows vzero) (mvec J v)) else 0)
                                     + (if Nat.eqb j k then dot (nth k ts vzero) (cross (nth k rows vzero) (mvec (mtrans J) u)) else 0)))).
  2: { intros k _. rewrite cross_parts, !dot_if. reflexivity. }
  rewrite rsum_scale, rsum_plus, !pick. fold u v.
  assert (A : (if Nat.ltb i (length rows) then dot (nth i ts vzero) (cross u (mvec J v)) else 0) = dot (nth i ts vzero) (cross u (mvec J v))).
  { destruct (Nat.ltb_spec i (length rows)); [reflexivity|]. rewrite nth_overflow by lia. destruct (cross u (mvec J v)). rlin. ring. }
  assert (B : (if Nat.ltb j (length rows) then dot (nth j ts vzero) (cross v (mvec (mtrans J) u)) else 0) = dot (nth j ts vzero) (cross v (mvec (mtrans J) u))).
  { destruct (Nat.ltb_spec j (length rows)); [reflexivity|]. rewrite (nth_overflow ts) by lia. destruct (cross v (mvec (mtrans J) u)). rlin. ring. }
  rewrite A, B, !triple, (dot_trans u), mvec_vscale || rewrite A, B, !triple, (dot_trans u).
  rewrite !dot_vscale_l. ring.
Qed.

Lemma bonds_derive l : is_derive (fun s => rsum (map (pair_part st E (turn_all ts s rows)) l)) 0
  (- rsum (map (fun k => dot (nth k ts vzero) (cross (nth k rows vzero) (fold_right vadd vzero (map (pair_field st E rows k) l)))) (seq 0 (length rows)))).
Proof using Hlen.
  induction l as [|b l IH].
  - cbn [map fold_right]. replace (- rsum _) with 0.
    + unfold rsum. cbn. apply (is_derive_const (V := R_NormedModule)).
    + rewrite rsum_zero; [ring|]. intros k. destruct (nth k ts vzero), (nth k rows vzero). rlin. ring.
  - cbn [map fold_right]. match goal with |- is_derive _ _ ?r => replace r with
      (- rsum (map (fun k => dot (nth k ts vzero) (cross (nth k rows vzero) (pair_field st E rows k b))) (seq 0 (length rows)))
       + - rsum (map (fun k => dot (nth k ts vzero) (cross (nth k rows vzero) (fold_right vadd vzero (map (pair_field st E rows k) l)))) (seq 0 (length rows)))) end.
    + unfold rsum at 1. cbn [fold_right]. apply (is_derive_plus (V := R_NormedModule)); [apply pair_derive|exact IH].
    + rewrite (rsum_ext (fun k => dot (nth k ts vzero) (cross (nth k rows vzero) (vadd (pair_field st E rows k b) (fold_right vadd vzero (map (pair_field st E rows k) l)))))
         (fun k => dot (nth k ts vzero) (cross (nth k rows vzero) (pair_field st E rows k b)) + dot (nth k ts vzero) (cross (nth k rows vzero) (fold_right vadd vzero (map (pair_field st E rows k) l))))).
      * rewrite rsum_plus. ring.
      * intros k _. generalize (pair_field st E rows k b) (fold_right vadd vzero (map (pair_field st E rows k) l)). intros [] []. destruct (nth k ts vzero), (nth k rows vzero). rlin. ring.
Qed.
End Bonds.

Lemma zeeman_derive mu H gs : forall ts rows a, length ts = length rows ->
  is_derive (fun s => plain_zeeman mu H gs (turn_all ts s rows)) 0
  (- rsum (map (fun k => dot (nth (k - a) ts vzero) (cross (nth (k - a) rows vzero) (match nth_error gs (k - a) with Some g => vscale (mu * g) H | None => vzero end))) (seq a (length rows)))).
Proof.
  induction gs as [|g gs IH]; intros [|t ts] [|v rows] a L; try discriminate.
  - cbn. rewrite Ropp_0. apply (is_derive_const (V := R_NormedModule)).
  - cbn [turn_all plain_zeeman]. replace (- rsum _) with 0; [apply (is_derive_const (V := R_NormedModule))|].
    rewrite rsum_zero; [ring|]. intros k. destruct (k - a)%nat; cbn [nth_error]; generalize (nth n ts vzero) (nth n rows vzero) || idtac; intros; destruct (nth _ (t :: ts) vzero), (nth _ (v :: rows) vzero); rlin; ring.
  - cbn. rewrite Ropp_0. apply (is_derive_const (V := R_NormedModule)).
  - cbn [turn_all plain_zeeman length seq]. cbn in L. injection L as L.
    match goal with |- is_derive _ _ ?r => replace r with (mu * g * dot H (vscale (-1) (cross t v)) +
       - rsum (map (fun k => dot (nth (k - S a) ts vzero) (cross (nth (k - S a) rows vzero) (match nth_error gs (k - S a) with Some g => vscale (mu * g) H | None => vzero end))) (seq (S a) (length rows)))) end.
    + apply (is_derive_plus (V := R_NormedModule)); [|apply IH, L].
      assert (D := dot_derive _ _ _ _ _ (const_derive H 0) (turn_about_derive t v)). cbn beta in D. rewrite turn_about_at0 in D.
      replace (dot H (vscale (-1) (cross t v))) with (dot vzero v + dot H (vscale (-1) (cross t v))) by (destruct v; rlin; ring).
      apply (is_derive_scal (fun s => dot H (turn_about t s v))). exact D.
    + rewrite rsum_cons, Nat.sub_diag.
      rewrite (rsum_ext (fun k : nat => dot (nth (k - a) (t :: ts) vzero) (cross (nth (k - a) (v :: rows) vzero) (match nth_error (g :: gs) (k - a) with Some g => vscale (mu * g) H | None => vzero end)))
         (fun k => dot (nth (k - S a) ts vzero) (cross (nth (k - S a) rows vzero) (match nth_error gs (k - S a) with Some g => vscale (mu * g) H | None => vzero end))) (seq (S a) (length rows))).
      * cbn [nth nth_error]. rewrite dot_vscale_r. replace (dot t (cross v (vscale (mu * g) H))) with (mu * g * dot H (cross t v)) by (destruct t, v, H; rlin; ring). ring.
      * intros k I. apply in_seq in I. replace (k - a)%nat with (S (k - S a)) by lia. reflexivity.
Qed.

Theorem energy_derive mu st E rows ts : length ts = length rows ->
  is_derive (fun s => total_energy mu st E (turn_all ts s rows)) 0 (- sum_dot ts (map (energy_torque mu st E rows) (seq 0 (length rows)))).
Proof.
  intros L. unfold total_energy.
  assert (S : sum_dot ts (map (energy_torque mu st E rows) (seq 0 (length rows))) =
     rsum (map (fun k => dot (nth k ts vzero) (cross (nth k rows vzero) (fold_right vadd vzero (map (pair_field st E rows k) (e_bonds E))))) (seq 0 (length rows)))
     + rsum (map (fun k => dot (nth (k - 0) ts vzero) (cross (nth (k - 0) rows vzero)
         (match e_field E with Some H => match nth_error (e_g E) (k - 0) with Some g => vscale (mu * g) H | None => vzero end | None => vzero end))) (seq 0 (length rows)))).
  { rewrite <- L at 1. rewrite sum_dot_seq, L, <- rsum_plus. apply rsum_ext. intros k _. rewrite Nat.sub_0_r. unfold energy_torque, energy_field.
    generalize (fold_right vadd vzero (map (pair_field st E rows k) (e_bonds E))). intros f.
    destruct (e_field E) as [H|]; [destruct (nth_error (e_g E) k)|]; generalize (nth k ts vzero) (nth k rows vzero); intros [] []; destruct f; try destruct H; rlin; ring. }
  rewrite S, Ropp_plus_distr. apply (is_derive_plus (V := R_NormedModule)).
  - apply bonds_derive, L.
  - destruct (e_field E) as [H|].
    + exact (zeeman_derive mu H (e_g E) ts rows 0 L).
    + rewrite rsum_zero; [rewrite Ropp_0; apply (is_derive_const (V := R_NormedModule))|]. intros k. generalize (nth (k - 0) ts vzero) (nth (k - 0) rows vzero). intros [] []. rlin. ring.
Qed.

(** ** The update of the code is this rotation *)
Lemma turn_row_about t s x : 0 < s -> (t = vzero \/ eps <= s * norm t) -> turn_row (vz t * s) (- vy t * s) (vx t * s) x = turn_about t s x.
Proof.
  intros Hs C. unfold turn_row.
  assert (Th : sqrt ((vz t * s) ^ 2 + (- vy t * s) ^ 2 + (vx t * s) ^ 2) = s * norm t).
  { unfold norm. transitivity (sqrt (Rsqr s * dot t t)); [f_equal; unfold Rsqr, dot; cbn [fadd fmul R_Scalar]; ring|]. rewrite sqrt_mult_alt by (apply Rle_0_sqr). rewrite sqrt_Rsqr by lra. reflexivity. }
  rewrite Th. assert (P := eps_pos). destruct C as [->|C].
  - assert (N : norm (@vzero R _) = 0) by (unfold norm; replace (dot (@vzero R _) vzero) with 0 by (rlin; ring); apply sqrt_0).
    rewrite N. rewrite Rmult_0_r. destruct (Rlt_dec 0 eps); [|lra]. unfold turn_about, rotate. rewrite N, Rmult_0_r, Ropp_0, cos_0, sin_0. destruct x. apply V3_ext; rlin; ring.
  - destruct (Rlt_dec _ _); [lra|]. assert (N : norm t <> 0) by (intros Z; rewrite Z in C; lra).
    unfold turn_about, rotate. rewrite cos_neg, sin_neg. cbn zeta.
    assert (R1 : mkV (- (vx t * s) / (s * norm t)) (- vy t * s / (s * norm t)) (- (vz t * s) / (s * norm t)) = vscale (-1) (unit t)).
    { unfold unit. apply V3_ext; cbn [vx vy vz vscale vmap fmul R_Scalar]; field; split; (exact N || lra). }
    rewrite R1. generalize (unit t) (cos (s * norm t)) (sin (s * norm t)). intros [] c k. destruct x. apply V3_ext; rlin; ring.
Qed.

Lemma every3_order ts : every3 (gradient_order ts) = map vz ts /\ every3 (tl (gradient_order ts)) = map (fun t => - vy t) ts /\ every3 (tl (tl (gradient_order ts))) = map vx ts.
Proof.
  induction ts as [|t ts (A & B & C)]; [auto|]. splits.
  - cbn [gradient_order every3 map]. rewrite A. reflexivity.
  - destruct ts as [|t2 ts]; [reflexivity|]. transitivity (- vy t :: every3 (tl (gradient_order (t2 :: ts)))); [reflexivity|]. rewrite B. reflexivity.
  - destruct ts as [|t2 ts]; [reflexivity|]. transitivity (vx t :: every3 (tl (tl (gradient_order (t2 :: ts))))); [reflexivity|]. rewrite C. reflexivity.
Qed.
Lemma turn_by_all ts s rows : length ts = length rows -> 0 < s -> (forall t, In t ts -> t = vzero \/ eps <= s * norm t) ->
  turn_by (gradient_order ts) s rows = Ret (turn_all ts s rows).
Proof.
  intros L Hs H. unfold turn_by. destruct (every3_order ts) as (-> & -> & ->). rewrite !map_map. clear -L Hs H.
  revert rows L. induction ts as [|t ts IH]; intros [|x rows] L; try discriminate; [reflexivity|].
  cbn [map turn_rows turn_all]. rewrite IH; [|intros; apply H; right; assumption|cbn in L; lia]. cbn [obind]. rewrite turn_row_about; [reflexivity|exact Hs|apply H; left; reflexivity].
Qed.
Lemma layout_order ts : layout ts = gradient_order ts.
Proof. induction ts; [reflexivity|]. cbn. rewrite <- IHts. reflexivity. Qed.

Lemma unit_direction v : dot v v = 1 -> direction v v.
Proof. intros H. split; [exact H|]. exists 1. split; [lra|]. destruct v. apply V3_ext; rlin; ring. Qed.
Lemma unit_directions rows : unit_rows rows -> Forall2 direction rows rows.
Proof. induction 1; constructor; [apply unit_direction; assumption|assumption]. Qed.

Lemma plain_zeeman_model mu H gs so : plain_zeeman mu H gs so = mu * zeeman_sum H gs so.
Proof. revert so. induction gs as [|g gs IH]; intros [|v so]; cbn [plain_zeeman zeeman_sum]; try (cbn; ring). rewrite IH. cbn. ring. Qed.
Lemma sum_pairs st E dirs l x : osum (map (bond_energy st E (fun _ J => J) dirs) l) = Some x -> x = rsum (map (pair_part st E dirs) l).
Proof.
  revert x. induction l as [|b l IH]; intros x H; cbn [map osum] in H; [injection H as <-; reflexivity|].
  destruct (bond_energy _ _ _ _ b) as [y|] eqn:Eb; [|discriminate]. destruct (osum _) as [z|] eqn:Ez; [|discriminate]. injection H as <-.
  unfold rsum in *. cbn [map fold_right]. rewrite <- (IH z eq_refl). apply bond_energy_phase in Eb. destruct b as [[[i j] d] lo]. subst y. reflexivity.
Qed.
Lemma ferro_total mu st E rows e : unit_rows rows -> e_ferro mu st E (SRows rows) = Ret e -> e = total_energy mu st E rows.
Proof.
  intros U H. unfold e_ferro in H. inv_bind H r Hr. apply check_rows in Hr. subst r. inv_bind H dirs Hd.
  assert (N := normalize_all_ok _ _ (unit_directions _ U)). rewrite N in Hd. injection Hd as <-. inv_bind H x Hx. injection H as <-.
  destruct (bonds_energy st E _ rows) as [x'|] eqn:Eb; [|discriminate]. injection Hx as <-. rewrite bonds_energy_osum in Eb. apply sum_pairs in Eb. subst x'.
  unfold total_energy, rsum, zeeman. destruct (e_field E); [rewrite plain_zeeman_model|]; reflexivity.
Qed.

(** ** Central differences are exact for quadratic functions *)
Lemma hstep_pos : 0 < hstep. Proof. unfold hstep. lra. Qed.
Lemma central_quadratic (F : V3 R -> R) v g : (forall w, F (vadd v w) - F (vsub v w) = 2 * dot w g) -> central (fun u => Ret (F u)) v = Ret g.
Proof.
  intros H. unfold central. cbn [obind]. assert (P := hstep_pos). f_equal.
  assert (X := H (mkV hstep 0 0)). assert (Y := H (mkV 0 hstep 0)). assert (Z := H (mkV 0 0 hstep)).
  destruct v as [a b c], g as [g1 g2 g3]. revert X Y Z. rlin.
  rewrite !Rplus_0_r, !Rminus_0_r. intros X Y Z. apply V3_ext; cbn [vx vy vz].
  - rewrite X. field. lra.
  - rewrite Y. field. lra.
  - rewrite Z. field. lra.
Qed.

Lemma nth_middle' (a : list (V3 R)) v b i : nth i (a ++ v :: b) vzero = if Nat.eqb i (length a) then v else nth i (a ++ vzero :: b) vzero.
Proof.
  destruct (Nat.eqb_spec i (length a)) as [->|N]; [apply nth_middle|].
  destruct (Nat.lt_ge_cases i (length a)).
  - rewrite !app_nth1 by lia. reflexivity.
  - rewrite !app_nth2 by lia. destruct (i - length a)%nat eqn:D; [lia|]. reflexivity.
Qed.
Lemma pair_difference st E a v b w bd : 
  pair_part st E (a ++ vadd v w :: b) bd - pair_part st E (a ++ vsub v w :: b) bd = 2 * dot w (pair_field st E (a ++ v :: b) (length a) bd).
Proof.
  destruct bd as [[[i j] d] l]. unfold pair_part, pair_field.
  rewrite !(nth_middle' a (vadd v w)), !(nth_middle' a (vsub v w)), !(nth_middle' a v).
  generalize (nth i (a ++ vzero :: b) vzero) (nth j (a ++ vzero :: b) vzero) (nth l st mzero) (e_factor E * nth i (e_spins E) 0 * nth j (e_spins E) 0).
  intros p q J k. destruct (Nat.eqb i (length a)), (Nat.eqb j (length a)); destruct p, q, v, w, J; rlin; ring.
Qed.
Lemma zeeman_difference mu H v w b : forall a gs,
  plain_zeeman mu H gs (a ++ vadd v w :: b) - plain_zeeman mu H gs (a ++ vsub v w :: b)
  = 2 * dot w (match nth_error gs (length a) with Some g => vscale (mu * g) H | None => vzero end).
Proof.
  induction a as [|x a IH]; intros [|g gs]; cbn [app plain_zeeman length nth_error].
  - destruct w. rlin. ring.
  - destruct w, v, H. rlin. ring.
  - destruct w. rlin. ring.
  - rewrite <- IH. ring.
Qed.
Lemma total_difference mu st E a v b w :
  total_energy mu st E (a ++ vadd v w :: b) - total_energy mu st E (a ++ vsub v w :: b) = 2 * dot w (energy_field mu st E (a ++ v :: b) (length a)).
Proof.
  unfold total_energy, energy_field. rewrite dot_vadd_r.
  assert (B : fold_right Rplus 0 (map (pair_part st E (a ++ vadd v w :: b)) (e_bonds E)) - fold_right Rplus 0 (map (pair_part st E (a ++ vsub v w :: b)) (e_bonds E))
    = 2 * dot w (fold_right vadd vzero (map (pair_field st E (a ++ v :: b) (length a)) (e_bonds E)))).
  { induction (e_bonds E) as [|bd l IH]; cbn [map fold_right]; [destruct w; rlin; ring|]. rewrite dot_vadd_r.
    assert (Q := pair_difference st E a v b w bd). lra. }
  assert (Z : match e_field E with Some H => plain_zeeman mu H (e_g E) (a ++ vadd v w :: b) | None => 0 end - match e_field E with Some H => plain_zeeman mu H (e_g E) (a ++ vsub v w :: b) | None => 0 end
    = 2 * dot w (match e_field E, nth_error (e_g E) (length a) with Some H, Some g => vscale (mu * g) H | _, _ => vzero end)).
  { destruct (e_field E) as [H|]; [apply zeeman_difference|]. destruct w. rlin. ring. }
  lra.
Qed.
Lemma torques_exact mu st E : forall after before,
  torques_of (fun s => Ret (total_energy mu st E s)) before after = Ret (map (energy_torque mu st E (before ++ after)) (seq (length before) (length after))).
Proof.
  induction after as [|v t IH]; intros before; [reflexivity|]. cbn [torques_of length seq map]. unfold torque_of at 1.
  rewrite (central_quadratic (fun u => total_energy mu st E (before ++ u :: t)) v (energy_field mu st E (before ++ v :: t) (length before)))
    by (intros w; apply total_difference).
  cbn [obind]. rewrite IH. cbn [obind]. rewrite <- app_assoc, app_length. cbn [app length]. rewrite Nat.add_1_r. unfold energy_torque at 2. rewrite nth_middle. reflexivity.
Qed.
Lemma grad_exact mu st E rows : grad_ferro (fun s => Ret (total_energy mu st E s)) rows =
  Ret (gradient_order (map (energy_torque mu st E rows) (seq 0 (length rows))), map (energy_torque mu st E rows) (seq 0 (length rows))).
Proof. unfold grad_ferro. rewrite torques_exact. cbn [obind app length]. rewrite layout_order. reflexivity. Qed.

(** ** The derivative with respect to the spiral vector *)
Lemma spiral_dC_bilin n u v J c s : dot n n = 1 -> bilin u (spiral_dC (cone_K n) J c s) v =
  / 2 * (c * (dot (across n u) (mvec J (turned n v)) - dot (turned n u) (mvec J (across n v)))
         - s * (dot (across n u) (mvec J (across n v)) + dot (turned n u) (mvec J (turned n v)))).
Proof.
  intros Hn. unfold bilin, spiral_dC.
  rewrite !mvec_madd, !mvec_mscale, !mvec_msub, !mvec_madd.
  rewrite !(mvec_mmul (mmul (cone_K n) J)), !(mvec_mmul (cone_K n) J), !(mvec_mmul (mmul (mmul (cone_K n) (cone_K n)) J)), !(mvec_mmul (mmul (cone_K n) (cone_K n)) J).
  rewrite (Ksq_across n v Hn), (K_cross n v). fold (turned n v). rewrite !mvec_vscale.
  rewrite !dot_vadd_r, !dot_vscale_r, !dot_vsub_r, !dot_vadd_r, !dot_vscale_r, !(dot_K n u), !(dot_Ksq n u _ Hn).
  unfold f2. cbn [fadd f1 fdiv fopp R_Scalar]. field.
Qed.
Lemma bond_q_derive n u v J q w d : dot n n = 1 ->
  is_derive (fun s => bilin u (spiral_C (cone_K n) J (cos (dot (vadd q (vscale s w)) d)) (sin (dot (vadd q (vscale s w)) d))) v) 0
    (dot w d * bilin u (spiral_dC (cone_K n) J (cos (dot q d)) (sin (dot q d))) v).
Proof.
  intros Hn. rewrite (spiral_dC_bilin _ _ _ _ _ _ Hn).
  apply is_derive_ext with (fun s => dot (along n u) (mvec J (along n v)) + / 2 * (cos (dot q d + s * dot w d) * (dot (across n u) (mvec J (across n v)) + dot (turned n u) (mvec J (turned n v)))
     + sin (dot q d + s * dot w d) * (dot (across n u) (mvec J (turned n v)) - dot (turned n u) (mvec J (across n v))))).
  { intros s. rewrite (spiral_bilin n u v J _ _ Hn), dot_vadd_l, dot_vscale_l. reflexivity. }
  generalize (dot (along n u) (mvec J (along n v))) (dot (across n u) (mvec J (across n v)) + dot (turned n u) (mvec J (turned n v)))
    (dot (across n u) (mvec J (turned n v)) - dot (turned n u) (mvec J (across n v))) (dot q d) (dot w d). intros a b c e k.
  auto_derive; [trivial|]. rewrite Rmult_0_l, Rplus_0_r. field.
Qed.

Lemma fold_vsum {A} (f : A -> option (V3 R)) l : forall a,
  fold_left (fun acc b => match acc, f b with Some x, Some y => Some (vadd x y) | _, _ => None end) l (Some a)
  = match fold_right (fun b acc => match f b, acc with Some y, Some x => Some (vadd y x) | _, _ => None end) (Some vzero) l with Some x => Some (vadd a x) | None => None end.
Proof.
  assert (Hn : forall l, fold_left (fun acc b => match acc, f b with Some x, Some y => Some (vadd x y) | _, _ => None end) l None = None).
  { clear. induction l as [|b l IH]; [reflexivity|]. cbn. exact IH. }
  induction l as [|b l IH]; intros a; cbn [fold_left fold_right].
  - f_equal. destruct a. apply V3_ext; rlin; ring.
  - destruct (f b) as [y|]; [|apply Hn]. rewrite IH. destruct (fold_right _ _ l) as [x|]; [|reflexivity]. f_equal. destruct a, x, y. apply V3_ext; rlin; ring.
Qed.
Lemma bonds_q st E dirs n q w : dot n n = 1 -> forall l,
  (exists x, osum (map (bond_energy st E (fun d J => spiral_C (cone_K n) J (cos (dot q d)) (sin (dot q d))) dirs) l) = Some x) ->
  exists g f, fold_right (fun b acc => match q_term st E dirs n q b, acc with Some y, Some x => Some (vadd y x) | _, _ => None end) (Some vzero) l = Some g /\
    (forall s, osum (map (bond_energy st E (fun d J => spiral_C (cone_K n) J (cos (dot (vadd q (vscale s w)) d)) (sin (dot (vadd q (vscale s w)) d))) dirs) l) = Some (f s)) /\
    is_derive f 0 (dot g w).
Proof.
  intros Hn. induction l as [|b l IH]; intros [x H].
  - exists vzero, (fun _ => 0). splits; auto. replace (dot vzero w) with 0 by (destruct w; rlin; ring). apply (is_derive_const (V := R_NormedModule)).
  - cbn [map osum] in H. destruct (bond_energy _ _ _ _ b) as [y|] eqn:Eb; [|discriminate]. destruct (osum _) as [z|] eqn:Ez; [|discriminate]. clear H.
    destruct IH as (g & f & Hg & Hf & Hd); [eauto|]. destruct b as [[[i j] d] lo]. cbn [map fold_right osum q_term]. rewrite Hg.
    unfold bond_energy in Eb. unfold bond_energy at 1.
    destruct (nth_error (e_spins E) i) as [si|] eqn:E1; [|discriminate]. destruct (nth_error (e_spins E) j) as [sj|] eqn:E2; [|discriminate].
    destruct (nth_error dirs i) as [u|] eqn:E3; [|discriminate]. destruct (nth_error dirs j) as [v|] eqn:E4; [|discriminate]. destruct (nth_error st lo) as [J|] eqn:E5; [|discriminate].
    set (k := e_factor E * si * sj).
    exists (vadd (vscale (k * bilin u (spiral_dC (cone_K n) J (cos (dot q d)) (sin (dot q d))) v) d) g).
    exists (fun s => k * bilin u (spiral_C (cone_K n) J (cos (dot (vadd q (vscale s w)) d)) (sin (dot (vadd q (vscale s w)) d))) v + f s).
    split; [reflexivity|]. split.
    + intros s. unfold bond_energy at 1. rewrite E1, E2, E3, E4, E5, Hf. reflexivity.
    + match goal with |- is_derive _ _ ?r => replace r with (k * (dot w d * bilin u (spiral_dC (cone_K n) J (cos (dot q d)) (sin (dot q d))) v) + dot g w) end.
      * apply (is_derive_plus (V := R_NormedModule)); [|exact Hd].
        apply (is_derive_scal (fun s => bilin u (spiral_C (cone_K n) J (cos (dot (vadd q (vscale s w)) d)) (sin (dot (vadd q (vscale s w)) d))) v)). apply bond_q_derive, Hn.
      * rewrite dot_vadd_l, dot_vscale_l, (dot_sym d w). ring.
Qed.

Theorem q_gradient_derive mu st E rows n q w e : unit_rows rows -> dot n n = 1 -> e_spiral mu st E (SRows rows) (Some n) (Some q) = Ret e ->
  exists g f, q_gradient st E rows n q = Ret g /\ (forall s, e_spiral mu st E (SRows rows) (Some n) (Some (vadd q (vscale s w))) = Ret (f s)) /\ is_derive f 0 (dot g w).
Proof.
  intros U Hn H. unfold e_spiral in *. assert (N := normalize_all_ok _ _ (unit_directions _ U)).
  destruct (direction_unit _ _ (unit_direction _ Hn)) as [Nz Nu].
  destruct (cone_energy_inv _ _ _ _ _ _ _ _ H) as (rows' & dirs & n1 & n2 & q1 & x & Ck & Hd & En & Hdn & Eq & Hb & _).
  assert (Ck' := check_rows _ _ _ Ck). subst rows'. injection En as <-. injection Eq as <-.
  assert (n2 = n) by (apply (direction_unique n); [exact Hdn|apply unit_direction, Hn]). subst n2.
  assert (dirs = rows) by (apply (directions_unique rows); [exact Hd|apply unit_directions, U]). subst dirs.
  rewrite bonds_energy_osum in Hb.
  destruct (bonds_q st E rows n q w Hn (e_bonds E) (ex_intro _ x Hb)) as (g & f & Hg & Hf & Hdf).
  exists g, (fun s => f s + zeeman mu E (so_prime (cone_K n) rows)). splits.
  - unfold q_gradient. rewrite fold_vsum, Hg. cbn [of_option]. f_equal. destruct g. apply V3_ext; rlin; ring.
  - intros s. unfold cone_energy. cbn [check_vector obind]. rewrite Ck. cbn [obind]. rewrite N. cbn [obind]. unfold normalize. destruct (Req_EM_T (norm n) 0); [contradiction|].
    cbn [obind]. rewrite Nu, bonds_energy_osum, Hf. reflexivity.
  - replace (dot g w) with (dot g w + 0) by ring. apply (is_derive_plus (V := R_NormedModule)); [exact Hdf|]. apply (is_derive_const (V := R_NormedModule)).
Qed.
