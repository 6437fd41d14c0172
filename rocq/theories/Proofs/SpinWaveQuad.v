(** The quadratic form of the magnon matrix as a sum over the listed bonds. *)
From Coq Require Import List Bool ZArith Reals Lra Lia Permutation Arith.
From Coquelicot Require Import Complex.
From Verif.Base Require Import Scalar ScalarR Linear3 PyDict.
From Verif.Model Require Import MatrixParam Hamiltonian EnergyInit Energy Dispersion.
From Verif.Spec Require Import HamSpec DispersionSpec SpinWaveSpec.
From Verif.Proofs Require Import DispersionMatrix.
From Coq Require Import List.
Import ListNotations.
Local Open Scope R_scope.

(** ** Sums *)
Lemma csum_ext n f g : (forall p, (p < n)%nat -> f p = g p) -> csum n f = csum n g.
Proof. induction n as [|n IH]; intros H; cbn [csum]; [reflexivity|]. rewrite IH by (intros; apply H; lia). rewrite (H n) by lia. reflexivity. Qed.
Lemma csum_zero n f : (forall p, (p < n)%nat -> f p = RtoC 0) -> csum n f = RtoC 0.
Proof. induction n as [|n IH]; intros H; cbn [csum]; [reflexivity|]. rewrite IH by (intros; apply H; lia). rewrite (H n) by lia. ring. Qed.
Lemma csum_plus n f g : csum n (fun p => Cplus (f p) (g p)) = Cplus (csum n f) (csum n g).
Proof. induction n as [|n IH]; cbn [csum]; [ring|]. rewrite IH. ring. Qed.
Lemma csum_scale n c f : csum n (fun p => Cmult c (f p)) = Cmult c (csum n f).
Proof. induction n as [|n IH]; cbn [csum]; [ring|]. rewrite IH. ring. Qed.
Lemma csum_split n m f : csum (n + m) f = Cplus (csum n f) (csum m (fun q => f (n + q)%nat)).
Proof. induction m as [|m IH]; cbn [csum]; [rewrite Nat.add_0_r; ring|]. rewrite Nat.add_succ_r. cbn [csum]. rewrite IH. ring. Qed.
Lemma csum_delta n p f : (p < n)%nat -> csum n (fun q => if Nat.eqb p q then f q else RtoC 0) = f p.
Proof.
  revert p; induction n as [|n IH]; intros p H; [lia|]. cbn [csum]. destruct (Nat.eqb_spec p n) as [->|N].
  - rewrite csum_zero; [ring|]. intros q Hq. destruct (Nat.eqb_spec n q); [lia|reflexivity].
  - rewrite IH by lia. ring.
Qed.
Lemma fold_csum f n : fold_left (fun acc l => Cplus acc (f l)) (seq 0 n) (RtoC 0) = csum n f.
Proof. induction n as [|n IH]; [reflexivity|]. rewrite seq_S, fold_left_app, IH. reflexivity. Qed.

Definition ends (e : entry) : nat * nat := let '(i, j, _, _) := e in (i, j).
Definition at_ends (p q : nat) (e : entry) : bool := Nat.eqb p (fst (ends e)) && Nat.eqb q (snd (ends e)).
Lemma sum_entries n (g : nat -> nat -> entry -> C) l : Forall (fun e => (fst (ends e) < n)%nat /\ (snd (ends e) < n)%nat) l ->
  csum n (fun p => csum n (fun q => lsum (map (fun e => if at_ends p q e then g p q e else RtoC 0) l))) =
  lsum (map (fun e => g (fst (ends e)) (snd (ends e)) e) l).
Proof.
  induction 1 as [|e l [He1 He2] _ IH]; cbn [map lsum fold_right].
  - apply csum_zero. intros p _. apply csum_zero. reflexivity.
  - fold (lsum (map (fun e => g (fst (ends e)) (snd (ends e)) e) l)). rewrite <- IH.
    transitivity (Cplus (csum n (fun p => csum n (fun q => if at_ends p q e then g p q e else RtoC 0)))
      (csum n (fun p => csum n (fun q => lsum (map (fun e => if at_ends p q e then g p q e else RtoC 0) l))))).
    { rewrite <- csum_plus. apply csum_ext. intros p _. rewrite <- csum_plus. apply csum_ext. intros q _. reflexivity. }
    f_equal. transitivity (csum n (fun p => if Nat.eqb (fst (ends e)) p then g p (snd (ends e)) e else RtoC 0)).
    + apply csum_ext. intros p Hp. unfold at_ends. rewrite (Nat.eqb_sym p). destruct (Nat.eqb_spec (fst (ends e)) p) as [<-|N]; cbn [andb].
      * rewrite <- (csum_delta n (snd (ends e)) (fun q => g (fst (ends e)) q e) He2). apply csum_ext. intros q _. rewrite (Nat.eqb_sym q). reflexivity.
      * apply csum_zero. reflexivity.
    + apply (csum_delta n (fst (ends e)) (fun p => g p (snd (ends e)) e) He1).
Qed.

(** ** The form *)
Definition cv_lin (x : C) (a : V3 C) (y : C) (b : V3 C) : V3 C :=
  mkV (Cplus (Cmult x (vx a)) (Cmult y (vx b))) (Cplus (Cmult x (vy a)) (Cmult y (vy b))) (Cplus (Cmult x (vz a)) (Cmult y (vz b))).
Lemma cbil_lin x a y b m x' a' y' b' : cbil (cv_lin x a y b) m (cv_lin x' a' y' b') =
  Cplus (Cplus (Cmult (Cmult x x') (cbil a m a')) (Cmult (Cmult x y') (cbil a m b')))
        (Cplus (Cmult (Cmult y x') (cbil b m a')) (Cmult (Cmult y y') (cbil b m b'))).
Proof. unfold cbil, cv_mat, cv_dot, cv_lin; cbn [vx vy vz]. ring. Qed.
Lemma cv_conj_lin x a y b : cv_conj (cv_lin x a y b) = cv_lin (Cconj x) (cv_conj a) (Cconj y) (cv_conj b).
Proof. unfold cv_conj, cv_lin; cbn [vx vy vz]. f_equal; cplx; ring. Qed.

Section Quad.
Variables (st : list (M3 R)) (D : dispersion) (k : V3 R) (psi : nat -> C).
Hypothesis both : both_ends st D.
Hypothesis inside : Forall (fun e => (fst (ends e) < d_N D)%nat /\ (snd (ends e) < d_N D)%nat) (entries st D).
Notation N := (d_N D).
Definition wave (p : nat) : V3 C := cv_lin (psi p) (cv_conj (u_ D p)) (psi (N + p)%nat) (u_ D p).
Definition number (p : nat) : C := Cplus (Cmult (Cconj (psi p)) (psi p)) (Cmult (Cconj (psi (N + p)%nat)) (psi (N + p)%nat)).
Definition bond_part (i j : nat) (e : entry) : C :=
  let '(_, _, d, J) := e in
  Cminus (Cmult (RtoC (sqrt (norm (S_ D i) * norm (S_ D j)))) (Cmult (form (cv_conj (wave i)) J (wave j)) (cexp_neg (dot (vopp k) d))))
         (Cmult (Cmult (RtoC (2 * norm (S_ D j))) (Cmult (form (v_ D i) J (v_ D j)) (cexp_neg (dot vzero d)))) (number i)).

Lemma block p q :
  Cplus (Cplus (Cmult (Cmult (Cconj (psi p)) (c2 (d_A st D k p q))) (psi q))
               (Cmult (Cmult (Cconj (psi p)) (c2 (d_B st D k p q))) (psi (N + q)%nat)))
        (Cplus (Cmult (Cmult (Cconj (psi (N + p)%nat)) (c2 (Cconj (d_B st D k q p)))) (psi q))
               (Cmult (Cmult (Cconj (psi (N + p)%nat)) (c2 (Cconj (d_A st D (vopp k) p q)))) (psi (N + q)%nat))) =
  Cmult (RtoC (sqrt (norm (S_ D p) * norm (S_ D q)))) (cbil (cv_conj (wave p)) (d_J st D (vopp k) p q) (wave q)).
Proof.
  unfold c2, d_A, d_B. rewrite !conj_mult, !conj_real. rewrite (J_flip_conj st D (u_ D q) (u_ D p) (vopp k) q p both).
  rewrite (J_conj st D (u_ D p) (cv_conj (u_ D q)) (vopp (vopp k)) p q), conj_conj_v, !vopp_invol.
  unfold wave. rewrite cv_conj_lin, conj_conj_v, cbil_lin. rewrite (Rmult_comm (norm (S_ D q))).
  set (s := sqrt (norm (S_ D p) * norm (S_ D q))). assert (E : forall z, Cmult (RtoC 2) (Cmult (RtoC (s / 2)) z) = Cmult (RtoC s) z).
  { intros z. rewrite Cmult_assoc, <- RtoC_mult. f_equal. f_equal. field. }
  rewrite !E. ring.
Qed.

Lemma C_row p : (p < N)%nat ->
  csum N (fun q => Cmult (c2 (d_C st D p q)) (Cplus (Cmult (Cconj (psi p)) (psi q)) (Cmult (Cconj (psi (N + p)%nat)) (psi (N + q)%nat)))) =
  csum N (fun q => Cmult (Cmult (RtoC (2 * norm (S_ D q))) (cbil (v_ D p) (d_J st D vzero p q) (v_ D q))) (number p)).
Proof.
  intros Hp. transitivity (Cmult (c2 (d_C st D p p)) (number p)).
  - unfold number. rewrite <- (csum_delta N p (fun q => Cmult (c2 (d_C st D p q)) (Cplus (Cmult (Cconj (psi p)) (psi q)) (Cmult (Cconj (psi (N + p)%nat)) (psi (N + q)%nat)))) Hp).
    apply csum_ext. intros q _. destruct (Nat.eqb_spec p q) as [->|Ne]; [reflexivity|]. unfold d_C, c2. destruct (Nat.eqb_spec p q); [contradiction|]. ring.
  - unfold d_C, c2. rewrite Nat.eqb_refl, fold_csum, <- csum_scale. rewrite (Cmult_comm _ (number p)), <- csum_scale.
    apply csum_ext. intros q _. rewrite cbil_scale_l, RtoC_mult. ring.
Qed.

Lemma quad_entries : quad (2 * N) (d_h st D k) psi = lsum (map (fun e => bond_part (fst (ends e)) (snd (ends e)) e) (entries st D)).
Proof.
  unfold quad. replace (2 * N)%nat with (N + N)%nat by lia. rewrite csum_split.
  assert (L : forall p, (p < N)%nat -> Nat.ltb p N = true) by (intros; apply Nat.ltb_lt; assumption).
  assert (G : forall p, Nat.ltb (N + p) N = false) by (intros; apply Nat.ltb_ge; lia).
  assert (M : forall p, (N + p - N = p)%nat) by (intros; lia).
  rewrite <- csum_plus. rewrite <- (sum_entries N bond_part _ inside). apply csum_ext. intros p Hp.
  rewrite !csum_split.
  transitivity (Cminus (csum N (fun q => Cmult (RtoC (sqrt (norm (S_ D p) * norm (S_ D q)))) (cbil (cv_conj (wave p)) (d_J st D (vopp k) p q) (wave q))))
     (csum N (fun q => Cmult (c2 (d_C st D p q)) (Cplus (Cmult (Cconj (psi p)) (psi q)) (Cmult (Cconj (psi (N + p)%nat)) (psi (N + q)%nat)))))).
  - unfold Cminus. rewrite <- (Cmult_1_l (Copp _)). replace (Cmult (RtoC 1) (Copp (csum N (fun q => Cmult (c2 (d_C st D p q)) (Cplus (Cmult (Cconj (psi p)) (psi q)) (Cmult (Cconj (psi (N + p)%nat)) (psi (N + q)%nat)))))))
      with (Cmult (Copp (RtoC 1)) (csum N (fun q => Cmult (c2 (d_C st D p q)) (Cplus (Cmult (Cconj (psi p)) (psi q)) (Cmult (Cconj (psi (N + p)%nat)) (psi (N + q)%nat)))))) by ring.
    rewrite <- csum_scale, <- !csum_plus. apply csum_ext. intros q Hq. rewrite <- block. unfold d_h. rewrite !L, !G, !M by assumption. ring.
  - rewrite (C_row p Hp). unfold Cminus. rewrite <- (Cmult_1_l (Copp _)).
    replace (Cmult (RtoC 1) (Copp (csum N (fun q => Cmult (Cmult (RtoC (2 * norm (S_ D q))) (cbil (v_ D p) (d_J st D vzero p q) (v_ D q))) (number p)))))
      with (Cmult (Copp (RtoC 1)) (csum N (fun q => Cmult (Cmult (RtoC (2 * norm (S_ D q))) (cbil (v_ D p) (d_J st D vzero p q) (v_ D q))) (number p)))) by ring.
    rewrite <- csum_scale, <- csum_plus. apply csum_ext. intros q Hq. rewrite !J_sum.
    rewrite <- lsum_scale. set (f := fun e => Cmult (RtoC (sqrt (norm (S_ D p) * norm (S_ D q)))) (weight (cv_conj (wave p)) (wave q) (vopp k) p q e)).
    clear - inside. induction (entries st D) as [|[[[i j] d] J] l IH]; cbn [map lsum fold_right]; [ring|].
    fold (lsum (map f l)) (lsum (map (weight (v_ D p) (v_ D q) vzero p q) l)) (lsum (map (fun e => if at_ends p q e then bond_part p q e else RtoC 0) l)).
    inversion inside; subst. rewrite <- IH by assumption. unfold f at 1. cbn [weight at_ends ends fst snd bond_part]. unfold at_ends; cbn [ends fst snd].
    destruct (Nat.eqb p i && Nat.eqb q j); ring.
Qed.
End Quad.
