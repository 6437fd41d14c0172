(** Lemmas about the MatrixParameter model. *)
From Coq Require Import Ring Field Field_theory Ring_theory Lia.
From Coq Require Import QArith Qcanon.
From Verif.Base Require Import Scalar Linear3.
From Verif.Model Require Import MatrixParam.
From Verif.Spec Require Import ParameterSpec.
Local Open Scope fld_scope.

Section Proofs.
Context {F : Type} {SF : Scalar F}.
Add Field F_field : (@f_field F SF).

Ltac par := cbv beta iota zeta delta [p_set_iso p_set_dmi p_set_aniso p_aniso p_iso_matrix p_iso p_dmi p_dmi_matrix p_symm p_asymm
   p_T p_add p_sub p_mul p_neg p_pos dmi_form composed symmetric traceless antisymmetric
    bilin vmat mmul mvec mrow1 mrow2 mrow3 cross dot vadd vsub vscale vopp vzero vmap2 vmap
    madd msub mopp mscale mdivs mzero mid mtrace mtrans mdet mmap2 mmap f2 f3
    vx vy vz mxx mxy mxz myx myy myz mzx mzy mzz].
Ltac fld := field; fside.

Lemma four_neq : (1 + 1) * (1 + 1) <> (0 : F).
Proof.
  intro H. assert ((1 + 1 : F) = 0) as H2; [|exact (f_two H2)].
  transitivity ((1 + 1) * (1 + 1) / (1 + 1) : F); [field; apply f_two|]. rewrite H. field. apply f_two.
Qed.

Lemma iso_trace m : p_iso m = mtrace m / f3.
Proof. destruct m; par; fld. Qed.

Lemma decompose m : composed m (p_iso m) (p_aniso m) (p_dmi m).
Proof.
  destruct m. par. splits; try fld. f_equal; fld.
Qed.

Lemma dmi_matrix_form m : p_dmi_matrix m = dmi_form (p_dmi m).
Proof. destruct m. par. f_equal; fld. Qed.

Lemma dmi_matrix_antisym m : antisymmetric (p_dmi_matrix m).
Proof. destruct m. par. splits; fld. Qed.

Lemma decompose_sum m : m = madd (madd (p_iso_matrix m) (p_aniso m)) (p_dmi_matrix m).
Proof. destruct m. par. f_equal; fld. Qed.

(** The parts of a composed matrix are the components. *)
Lemma composed_parts m j s d : composed m j s d -> p_iso m = j /\ p_aniso m = s /\ p_dmi m = d.
Proof.
  intros [[H1 [H2 H3]] [Ht Hm]]. destruct s as [sxx sxy sxz syx syy syz szx szy szz], d as [dx dy dz].
  cbn in H1, H2, H3, Ht. subst syx szx szy. subst m.
  assert (sxx = - (syy + szz)) as ->.
  { transitivity ((sxx + syy + szz) - (syy + szz)); [fld|]. rewrite Ht. fld. }
  par. splits; [fld| |]; f_equal; fld.
Qed.

Lemma decompose_unique m j s d : composed m j s d -> j = p_iso m /\ s = p_aniso m /\ d = p_dmi m.
Proof. intros H. destruct (composed_parts _ _ _ _ H) as (-> & -> & ->); auto. Qed.

Lemma composed_intro m j s d : symmetric s -> traceless s ->
  m = madd (madd (mscale j mid) s) (dmi_form d) -> composed m j s d.
Proof. intros; unfold composed; auto. Qed.

(** Setters, phrased through [composed] so that reading back all three parts follows. *)
Lemma set_iso_composed m j s d v : composed m j s d -> composed (p_set_iso m v) v s d.
Proof.
  intros H. destruct (composed_parts _ _ _ _ H) as (Hj & _ & _). destruct H as (Hs & Ht & Hm).
  apply composed_intro; auto. unfold p_set_iso. rewrite Hj, Hm.
  destruct s, d; par. f_equal; fld.
Qed.

Lemma set_dmi_composed m j s d v : composed m j s d -> composed (p_set_dmi m v) j s v.
Proof.
  intros H. destruct (composed_parts _ _ _ _ H) as (_ & _ & Hd). destruct H as (Hs & Ht & Hm).
  apply composed_intro; auto. unfold p_set_dmi. rewrite Hd, Hm.
  destruct s, d, v; par. f_equal; fld.
Qed.

Lemma set_aniso_composed m j s d a : symmetric a -> traceless a -> composed m j s d -> composed (p_set_aniso m a) j a d.
Proof.
  intros Ha Hb H. destruct (composed_parts _ _ _ _ H) as (_ & Hx & _). destruct H as (Hs & Ht & Hm).
  apply composed_intro; auto. unfold p_set_aniso. rewrite Hx, Hm.
  destruct s, d, a; par. f_equal; fld.
Qed.

(** What [p.aniso = A] does for an arbitrary 3x3 array [A]. *)
Lemma set_aniso_any m a :
  p_iso (p_set_aniso m a) = p_iso m + p_iso a /\
  p_aniso (p_set_aniso m a) = p_aniso a /\
  p_dmi (p_set_aniso m a) = vadd (p_dmi m) (p_dmi a).
Proof. destruct m, a. par. splits; [fld| |]; f_equal; fld. Qed.

Lemma aniso_fix a : p_aniso a = a <-> symmetric a /\ traceless a.
Proof.
  split.
  - intros H. destruct (decompose a) as (Hs & Ht & _). rewrite H in Hs, Ht. auto.
  - intros [Hs Ht]. apply (composed_parts a 0 a (mkV 0 0 0)). apply composed_intro; auto.
    destruct a; par; f_equal; fld.
Qed.

(** For an arbitrary array the setter does what it promises exactly on the symmetric traceless ones. *)
Lemma set_aniso_iff m a :
  (p_aniso (p_set_aniso m a) = a /\ p_iso (p_set_aniso m a) = p_iso m /\ p_dmi (p_set_aniso m a) = p_dmi m)
  <-> symmetric a /\ traceless a.
Proof.
  destruct (set_aniso_any m a) as (H1 & H2 & H3). split.
  - intros (Ha & _ & _). rewrite H2 in Ha. apply aniso_fix in Ha. exact Ha.
  - intros [Hs Ht]. destruct (composed_parts _ _ _ _ (set_aniso_composed m _ _ _ a Hs Ht (decompose m))) as (A & B & C).
    splits; auto.
Qed.

Lemma init_composed (matrix : option (M3 F)) iso aniso dmi :
  (forall a, aniso = Some a -> symmetric a /\ traceless a) ->
  let base := match matrix with Some x => x | None => mzero end in
  composed (p_init matrix iso aniso dmi)
    (match iso with Some j => j | None => p_iso base end)
    (match aniso with Some a => a | None => p_aniso base end)
    (match dmi with Some d => d | None => p_dmi base end).
Proof.
  intros Ha base. unfold p_init. fold base.
  pose proof (decompose base) as H0.
  set (m1 := match iso with Some x => p_set_iso base x | None => base end).
  assert (H1 : composed m1 (match iso with Some j => j | None => p_iso base end) (p_aniso base) (p_dmi base)).
  { unfold m1; destruct iso; [eapply set_iso_composed|]; eauto. }
  set (m2 := match dmi with Some x => p_set_dmi m1 x | None => m1 end).
  assert (H2 : composed m2 (match iso with Some j => j | None => p_iso base end) (p_aniso base)
                 (match dmi with Some d => d | None => p_dmi base end)).
  { unfold m2; destruct dmi; [eapply set_dmi_composed|]; eauto. }
  destruct aniso as [a|]; [|exact H2]. destruct (Ha a eq_refl). eapply set_aniso_composed; eauto.
Qed.

Lemma T_involutive (m : M3 F) : p_T (p_T m) = m.
Proof. destruct m; reflexivity. Qed.

Lemma T_parts m : p_iso (p_T m) = p_iso m /\ p_aniso (p_T m) = p_aniso m /\ p_dmi (p_T m) = vopp (p_dmi m).
Proof. destruct m; par. splits; [fld| |]; f_equal; fld. Qed.

Lemma lin_parts a b c :
  p_iso (p_add (p_mul a c) b) = p_iso a * c + p_iso b /\
  p_aniso (p_add (p_mul a c) b) = madd (mscale c (p_aniso a)) (p_aniso b) /\
  p_dmi (p_add (p_mul a c) b) = vadd (vscale c (p_dmi a)) (p_dmi b).
Proof. destruct a, b; par. splits; [fld| |]; f_equal; fld. Qed.

Lemma add_parts a b :
  p_iso (p_add a b) = p_iso a + p_iso b /\ p_aniso (p_add a b) = madd (p_aniso a) (p_aniso b) /\
  p_dmi (p_add a b) = vadd (p_dmi a) (p_dmi b).
Proof. destruct a, b; par. splits; [fld| |]; f_equal; fld. Qed.

Lemma sub_add a b : p_add (p_sub a b) b = a.
Proof. destruct a, b; par. f_equal; fld. Qed.

Lemma neg_mul a : p_neg a = p_mul a (- (1)).
Proof. destruct a; par. f_equal; fld. Qed.

Lemma div_mul a c d : p_div a c = Some d -> p_mul d c = a.
Proof.
  unfold p_div. destruct (feq_dec c 0) as [|Hc]; [discriminate|]. intros [= <-].
  destruct a; par. f_equal; field; auto.
Qed.

Lemma T_add (a b : M3 F) : p_T (p_add a b) = p_add (p_T a) (p_T b).
Proof. destruct a, b; reflexivity. Qed.
Lemma T_mul (a : M3 F) c : p_T (p_mul a c) = p_mul (p_T a) c.
Proof. destruct a; reflexivity. Qed.

Lemma get_put (m : M3 F) i j v i' j' : (i < 3)%nat -> (j < 3)%nat -> (i' < 3)%nat -> (j' < 3)%nat ->
  p_get (p_put m i j v) i' j' = (if Nat.eqb i i' then if Nat.eqb j j' then v else p_get m i' j' else p_get m i' j').
Proof.
  intros. destruct m.
  destruct i as [|[|[|?]]]; try lia; destruct j as [|[|[|?]]]; try lia;
  destruct i' as [|[|[|?]]]; try lia; destruct j' as [|[|[|?]]]; try lia; reflexivity.
Qed.

Lemma eqb_eq (a b : M3 F) : p_eqb a b = true <-> a = b.
Proof. unfold p_eqb. destruct (M3_eq_dec a b); intuition congruence. Qed.

(** The bilinear form splits over the parts: s1 J s2 = iso s1.s2 + s1 aniso s2 + D.(s1 x s2). *)
Lemma bilin_parts m a b :
  bilin a m b = p_iso m * dot a b + bilin a (p_aniso m) b + dot (p_dmi m) (cross a b).
Proof. destruct m, a, b; par. fld. Qed.

(** ** Statements used by the property file *)
Lemma decomposition m :
  m = madd (madd (p_iso_matrix m) (p_aniso m)) (p_dmi_matrix m) /\
  p_iso_matrix m = mkM (p_iso m) 0 0 0 (p_iso m) 0 0 0 (p_iso m) /\
  symmetric (p_aniso m) /\ traceless (p_aniso m) /\
  antisymmetric (p_dmi_matrix m) /\ p_dmi_matrix m = dmi_form (p_dmi m).
Proof.
  destruct (decompose m) as (Hs & Ht & _). splits; auto using dmi_matrix_antisym, dmi_matrix_form.
  - apply decompose_sum.
  - unfold p_iso_matrix. generalize (p_iso m). intro x. par. f_equal; fld.
Qed.

Lemma set_iso_parts m v :
  p_iso (p_set_iso m v) = v /\ p_aniso (p_set_iso m v) = p_aniso m /\ p_dmi (p_set_iso m v) = p_dmi m.
Proof. apply composed_parts, (set_iso_composed _ _ _ _ _ (decompose m)). Qed.

Lemma set_dmi_parts m v :
  p_dmi (p_set_dmi m v) = v /\ p_iso (p_set_dmi m v) = p_iso m /\ p_aniso (p_set_dmi m v) = p_aniso m.
Proof. destruct (composed_parts _ _ _ _ (set_dmi_composed m _ _ _ v (decompose m))) as (A & B & C). auto. Qed.

Lemma init_parts matrix iso aniso dmi :
  (forall a, aniso = Some a -> symmetric a /\ traceless a) ->
  let base := match matrix with Some x => x | None => mkM 0 0 0 0 0 0 0 0 0 end in
  let p := p_init matrix iso aniso dmi in
  p_iso p = match iso with Some j => j | None => p_iso base end /\
  p_aniso p = match aniso with Some a => a | None => p_aniso base end /\
  p_dmi p = match dmi with Some d => d | None => p_dmi base end.
Proof. intros H. apply composed_parts, init_composed, H. Qed.

Lemma transpose_parts m :
  p_T (p_T m) = m /\
  p_iso (p_T m) = p_iso m /\ p_aniso (p_T m) = p_aniso m /\ p_dmi (p_T m) = vopp (p_dmi m).
Proof. split; [apply T_involutive|apply T_parts]. Qed.

Lemma arithmetic_parts a b c :
  (p_iso (p_add a b) = p_iso a + p_iso b /\
   p_aniso (p_add a b) = madd (p_aniso a) (p_aniso b) /\
   p_dmi (p_add a b) = vadd (p_dmi a) (p_dmi b)) /\
  (p_iso (p_sub a b) = p_iso a - p_iso b /\
   p_aniso (p_sub a b) = msub (p_aniso a) (p_aniso b) /\
   p_dmi (p_sub a b) = vsub (p_dmi a) (p_dmi b)) /\
  (p_iso (p_mul a c) = c * p_iso a /\
   p_aniso (p_mul a c) = mscale c (p_aniso a) /\
   p_dmi (p_mul a c) = vscale c (p_dmi a)) /\
  (p_iso (p_neg a) = - p_iso a /\
   p_aniso (p_neg a) = mopp (p_aniso a) /\
   p_dmi (p_neg a) = vopp (p_dmi a)) /\
  p_pos a = a /\
  (c <> 0 -> exists d, p_div a c = Some d /\
     c * p_iso d = p_iso a /\ mscale c (p_aniso d) = p_aniso a /\ vscale c (p_dmi d) = p_dmi a).
Proof.
  split; [apply add_parts|].
  split; [destruct a, b; par; splits; [fld| |]; f_equal; fld|].
  split; [destruct a; par; splits; [fld| |]; f_equal; fld|].
  split; [destruct a; par; splits; [fld| |]; f_equal; fld|].
  split; [reflexivity|]. intros Hc. exists (mdivs a c).
  unfold p_div. destruct (feq_dec c 0) as [|_]; [contradiction|]. split; [reflexivity|].
  destruct a; par. splits; [|f_equal|f_equal]; field; splits; fside.
Qed.

End Proofs.

Lemma set_aniso_refuted :
  exists m a : M3 Qc,
    p_aniso (p_set_aniso m a) <> a /\ p_iso (p_set_aniso m a) <> p_iso m /\ p_dmi (p_set_aniso m a) <> p_dmi m.
Proof.
  exists mzero, (mkM f1 f1 f0 f0 f0 f0 f0 f0 f0).
  splits; intro H; first [apply (f_equal (fun x => this (mxx x))) in H | apply (f_equal this) in H
                         | apply (f_equal (fun x => this (vz x))) in H]; vm_compute in H; discriminate H.
Qed.
