(** The matrices A, B, C and h: sums over bonds, Hermiticity, particle-hole symmetry, periodicity. *)
From Coq Require Import List Bool ZArith Reals Lra Lia Permutation Arith.
From Coquelicot Require Import Complex.
From Verif.Base Require Import Scalar ScalarR Linear3 PyDict.
From Verif.Model Require Import MatrixParam Hamiltonian EnergyInit Energy Dispersion.
From Verif.Spec Require Import HamSpec DispersionSpec.
Import ListNotations.
Local Open Scope R_scope.

(** Bonds with their matrices, and the bond seen from its other end. *)
Definition entry := (nat * nat * V3 R * M3 R)%type.
Definition entry_of (st : list (M3 R)) (b : nat * nat * V3 R * loc) : entry := let '(i, j, d, l) := b in (i, j, d, nth l st mzero).
Definition entries st (D : dispersion) : list entry := map (entry_of st) (d_bonds D).
Definition flip (e : entry) : entry := let '(i, j, d, J) := e in (j, i, vopp d, mtrans J).

Definition lsum (l : list C) : C := fold_right Cplus (RtoC 0) l.
Definition form (a : V3 C) (J : M3 R) (b : V3 C) : C := cbil a (cm_scale J (RtoC 1)) b.
Definition weight (a b : V3 C) (k : V3 R) (i j : nat) (e : entry) : C :=
  let '(i', j', d, J) := e in if Nat.eqb i i' && Nat.eqb j j' then Cmult (form a J b) (cexp_neg (dot k d)) else RtoC 0.

Ltac cplx := apply injective_projections; cbn [fst snd Cplus Cmult Cminus Copp Cconj RtoC]; unfold Cplus, Cmult, Cminus, Copp, Cconj, RtoC; cbn [fst snd].

Lemma cbil_add a m n b : cbil a (cm_add m n) b = Cplus (cbil a m b) (cbil a n b).
Proof. unfold cbil, cv_mat, cv_dot, cm_add; cbn [mxx mxy mxz myx myy myz mzx mzy mzz vx vy vz]. ring. Qed.
Lemma cbil_zero a b : cbil a cm_zero b = RtoC 0.
Proof. unfold cbil, cv_mat, cv_dot, cm_zero; cbn [mxx mxy mxz myx myy myz mzx mzy mzz vx vy vz]. ring. Qed.
Lemma cbil_scale a J c b : cbil a (cm_scale J c) b = Cmult (form a J b) c.
Proof. unfold form, cbil, cv_mat, cv_dot, cm_scale; cbn [mxx mxy mxz myx myy myz mzx mzy mzz vx vy vz]. ring. Qed.
Lemma cbil_scale_l c a m b : cbil (cv_scale c a) m b = Cmult (RtoC c) (cbil a m b).
Proof. unfold cbil, cv_mat, cv_dot, cv_scale; cbn [vx vy vz]. ring. Qed.

Lemma lsum_app l l' : lsum (l ++ l') = Cplus (lsum l) (lsum l').
Proof. unfold lsum. induction l as [|x l IH]; cbn [fold_right app]; [ring|]. rewrite IH. ring. Qed.
Lemma lsum_perm l l' : Permutation l l' -> lsum l = lsum l'.
Proof. unfold lsum. induction 1; cbn [fold_right]; try congruence. ring. Qed.
Lemma lsum_conj l : Cconj (lsum l) = lsum (map Cconj l).
Proof.
  unfold lsum. induction l as [|x l IH]; cbn [fold_right map]; [unfold Cconj, RtoC; cbn; f_equal; ring|]. rewrite <- IH. cplx; ring.
Qed.
Lemma lsum_ext {A} (f g : A -> C) l : (forall x, In x l -> f x = g x) -> lsum (map f l) = lsum (map g l).
Proof. intros H. f_equal. apply map_ext_in. exact H. Qed.
Lemma lsum_scale {A} c (f : A -> C) l : lsum (map (fun x => Cmult c (f x)) l) = Cmult c (lsum (map f l)).
Proof. unfold lsum. induction l as [|x l IH]; cbn [fold_right map]; [ring|]. rewrite IH. ring. Qed.

Lemma J_sum st D a k i j b : cbil a (d_J st D k i j) b = lsum (map (weight a b k i j) (entries st D)).
Proof.
  unfold d_J, entries. assert (H : forall l m, cbil a (fold_left (fun acc e => if at_ij i j e then cm_add acc (term_J st k e) else acc) l m) b
    = Cplus (cbil a m b) (lsum (map (weight a b k i j) (map (entry_of st) l)))).
  { induction l as [|[[[i' j'] d] l'] t IH]; intros m; cbn [fold_left map lsum fold_right]; [ring|]. fold (lsum (map (weight a b k i j) (map (entry_of st) t))).
    rewrite IH. cbn [at_ij entry_of weight term_J]. destruct (Nat.eqb i i' && Nat.eqb j j'); [rewrite cbil_add, cbil_scale|]; ring. }
  rewrite H, cbil_zero. ring.
Qed.

Lemma form_conj a J b : Cconj (form a J b) = form (cv_conj a) J (cv_conj b).
Proof.
  destruct a as [[] [] []], b as [[] [] []], J as [j1 j2 j3 j4 j5 j6 j7 j8 j9]. unfold form, cbil, cv_mat, cv_dot, cm_scale, cv_conj; cbn [mxx mxy mxz myx myy myz mzx mzy mzz vx vy vz].
  cplx; ring.
Qed.
Lemma form_trans a J b : form a (mtrans J) b = form b J a.
Proof. destruct J as [j1 j2 j3 j4 j5 j6 j7 j8 j9]. unfold form, cbil, cv_mat, cv_dot, cm_scale, mtrans; cbn [mxx mxy mxz myx myy myz mzx mzy mzz vx vy vz]. ring. Qed.
Lemma conj_conj_v a : cv_conj (cv_conj a) = a.
Proof. destruct a as [[] [] []]. unfold cv_conj, Cconj; cbn. f_equal; f_equal; ring. Qed.
Lemma conj_mult x y : Cconj (Cmult x y) = Cmult (Cconj x) (Cconj y).
Proof. cplx; ring. Qed.
Lemma conj_real x : Cconj (RtoC x) = RtoC x.
Proof. unfold Cconj, RtoC; cbn. f_equal; ring. Qed.
Lemma conj_exp x : Cconj (cexp_neg x) = cexp_neg (- x).
Proof. unfold Cconj, cexp_neg; cbn. rewrite cos_neg, sin_neg. reflexivity. Qed.
Lemma Cconj_conj x : Cconj (Cconj x) = x.
Proof. destruct x. unfold Cconj; cbn. f_equal; ring. Qed.
Lemma conj_minus x y : Cconj (Cminus x y) = Cminus (Cconj x) (Cconj y).
Proof. cplx; ring. Qed.
Lemma dot_opp_l (k d : V3 R) : dot (vopp k) d = - dot k d.
Proof. destruct k, d. unfold dot, vopp, vmap; cbn. ring. Qed.
Lemma dot_opp_r (k d : V3 R) : dot k (vopp d) = - dot k d.
Proof. destruct k, d. unfold dot, vopp, vmap; cbn. ring. Qed.
Lemma vopp_invol (k : V3 R) : vopp (vopp k) = k.
Proof. destruct k. unfold vopp, vmap; cbn. f_equal; ring. Qed.

(** One bond and the same bond seen from the other end. *)
Lemma weight_flip_conj a b k i j e : weight (cv_conj b) (cv_conj a) k j i (flip e) = Cconj (weight a b k i j e).
Proof.
  destruct e as [[[i' j'] d] J]. cbn [flip weight]. rewrite (andb_comm (Nat.eqb j j')). destruct (Nat.eqb i i' && Nat.eqb j j'); [|rewrite conj_real; reflexivity].
  rewrite conj_mult, conj_exp, form_conj, form_trans, dot_opp_r. reflexivity.
Qed.
Lemma weight_flip a b k i j e : weight b a (vopp k) j i (flip e) = weight a b k i j e.
Proof.
  destruct e as [[[i' j'] d] J]. cbn [flip weight]. rewrite (andb_comm (Nat.eqb j j')). destruct (Nat.eqb i i' && Nat.eqb j j'); [|reflexivity].
  rewrite form_trans, dot_opp_l, dot_opp_r, Ropp_involutive. reflexivity.
Qed.

(** Every bond is listed from both ends. *)
Definition both_ends st D : Prop := Permutation (entries st D) (map flip (entries st D)).

Lemma J_flip_conj st D a b k i j : both_ends st D ->
  Cconj (cbil a (d_J st D k i j) b) = cbil (cv_conj b) (d_J st D k j i) (cv_conj a).
Proof.
  intros P. rewrite !J_sum, lsum_conj, map_map. rewrite (lsum_perm (map (weight (cv_conj b) (cv_conj a) k j i) _) _ (Permutation_map _ P)), map_map.
  apply lsum_ext. intros e _. symmetry. apply weight_flip_conj.
Qed.
Lemma J_flip st D a b k i j : both_ends st D -> cbil a (d_J st D k i j) b = cbil b (d_J st D (vopp k) j i) a.
Proof.
  intros P. rewrite !J_sum. rewrite (lsum_perm (map (weight b a (vopp k) j i) _) _ (Permutation_map _ P)), map_map.
  apply lsum_ext. intros e _. symmetry. apply weight_flip.
Qed.
Lemma J_conj st D a b k i j : Cconj (cbil a (d_J st D k i j) b) = cbil (cv_conj a) (d_J st D (vopp k) i j) (cv_conj b).
Proof.
  rewrite !J_sum, lsum_conj, map_map. apply lsum_ext. intros [[[i' j'] d] J] _. cbn [weight].
  destruct (Nat.eqb i i' && Nat.eqb j j'); [|apply conj_real]. rewrite conj_mult, conj_exp, form_conj, dot_opp_l. reflexivity.
Qed.

Lemma A_hermitian st D k i j : both_ends st D -> d_A st D k j i = Cconj (d_A st D k i j).
Proof.
  intros P. unfold d_A. rewrite conj_mult, conj_real, (J_flip_conj _ _ _ _ _ _ _ P), conj_conj_v.
  f_equal. f_equal. f_equal. f_equal. ring.
Qed.
Lemma B_symmetric st D k i j : both_ends st D -> d_B st D (vopp k) j i = d_B st D k i j.
Proof.
  intros P. unfold d_B. rewrite (J_flip st D (u_ D i) (u_ D j) (vopp k) i j P). f_equal. f_equal. f_equal. f_equal. ring.
Qed.

(** The third axes are real. *)
Definition real_axes (D : dispersion) : Prop := Forall (fun v => cv_conj v = v) (d_v D).
Lemma v_real D i : real_axes D -> cv_conj (v_ D i) = v_ D i.
Proof.
  intros H. unfold v_. destruct (nth_in_or_default i (d_v D) cv_zero) as [I| ->].
  - unfold real_axes in H. rewrite Forall_forall in H. apply H, I.
  - unfold cv_conj, cv_zero; cbn. rewrite !conj_real. reflexivity.
Qed.
Lemma vopp_zero : vopp (@vzero R _) = vzero.
Proof. unfold vopp, vmap, vzero; cbn. f_equal; ring. Qed.
Lemma C_real st D i j : real_axes D -> Cconj (d_C st D i j) = d_C st D i j.
Proof.
  intros H. unfold d_C. destruct (Nat.eqb i j); [|apply conj_real].
  assert (G : forall l x, Cconj x = x -> Cconj (fold_left (fun acc l => Cplus acc (cbil (cv_scale (norm (S_ D l)) (v_ D i)) (d_J st D vzero i l) (v_ D l))) l x)
    = fold_left (fun acc l => Cplus acc (cbil (cv_scale (norm (S_ D l)) (v_ D i)) (d_J st D vzero i l) (v_ D l))) l x).
  { induction l as [|y l IH]; intros x Hx; [exact Hx|]. cbn. apply IH.
    assert (E : forall a b, Cconj (Cplus a b) = Cplus (Cconj a) (Cconj b)) by (intros; cplx; ring). rewrite E, Hx. f_equal.
    rewrite cbil_scale_l, conj_mult, conj_real, J_conj, vopp_zero, !(v_real D) by exact H. reflexivity. }
  apply G, conj_real.
Qed.
Lemma C_diag st D i j : d_C st D i j = d_C st D j i.
Proof. unfold d_C. destruct (Nat.eqb_spec i j) as [->|N]; [rewrite Nat.eqb_refl; reflexivity|]. destruct (Nat.eqb_spec j i); congruence. Qed.

Lemma h_hermitian st D k : both_ends st D -> real_axes D -> hermitian (2 * d_N D) (d_h st D k).
Proof.
  intros P V p q Hp Hq. unfold d_h, c2. destruct (Nat.ltb_spec p (d_N D)); destruct (Nat.ltb_spec q (d_N D)).
  - rewrite conj_minus, !conj_mult, !conj_real, (A_hermitian st D k p q P), (C_real st D p q V), (C_diag st D q p). reflexivity.
  - rewrite !conj_mult, !conj_real. reflexivity.
  - rewrite conj_mult, conj_real, Cconj_conj. reflexivity.
  - rewrite conj_minus, !conj_mult, !conj_real, <- (A_hermitian st D (vopp k) _ _ P), (C_real st D _ _ V), (C_diag st D (q - d_N D)).
    rewrite (A_hermitian st D (vopp k) (q - d_N D) (p - d_N D) P), Cconj_conj. reflexivity.
Qed.

Lemma h_particle_hole st D k p q : both_ends st D -> real_axes D -> (p < 2 * d_N D)%nat -> (q < 2 * d_N D)%nat ->
  d_h st D (vopp k) p q = Cconj (d_h st D k (other_half (d_N D) p) (other_half (d_N D) q)).
Proof.
  intros P V Hp Hq. unfold d_h, c2, other_half. set (N := d_N D) in *. rewrite !vopp_invol.
  destruct (Nat.ltb_spec p N) as [Lp|Lp]; destruct (Nat.ltb_spec q N) as [Lq|Lq].
  - destruct (Nat.ltb_spec (p + N) N); [lia|]. destruct (Nat.ltb_spec (q + N) N); [lia|]. rewrite !Nat.add_sub.
    rewrite conj_minus, !conj_mult, !conj_real, Cconj_conj, (C_real st D _ _ V). reflexivity.
  - destruct (Nat.ltb_spec (p + N) N); [lia|]. destruct (Nat.ltb_spec (q - N) N); [|lia]. rewrite !Nat.add_sub.
    rewrite conj_mult, conj_real, Cconj_conj, <- (B_symmetric st D k _ _ P). reflexivity.
  - destruct (Nat.ltb_spec (p - N) N); [|lia]. destruct (Nat.ltb_spec (q + N) N); [lia|]. rewrite !Nat.add_sub.
    rewrite conj_mult, conj_real, (B_symmetric st D k (p - N) q P). reflexivity.
  - destruct (Nat.ltb_spec (p - N) N); [|lia]. destruct (Nat.ltb_spec (q - N) N); [|lia].
    rewrite conj_minus, !conj_mult, !conj_real, (C_real st D _ _ V). reflexivity.
Qed.
