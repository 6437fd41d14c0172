(** Proofs for C88: the state along the easy axis has the lowest energy. *)
From Coq Require Import List Bool ZArith Reals Lra Lia Permutation.
From Coquelicot Require Import Coquelicot.
From Coq Require Import List.
From Verif.Base Require Import Scalar ScalarR Linear3 PyDict.
From Verif.Model Require Import MatrixParam Hamiltonian EnergyInit Energy.
From Verif.Spec Require Import HamSpec NotationSpec EnergySpec EasyAxisSpec.
From Verif.Proofs Require Import DictProofs HamBasics HamDouble FilterProofs EnergyInitProofs EnergyProofs InvarianceProofs RotationProofs RotationEnergy ConeProofs ConeSymmetry.
Import ListNotations.
Local Open Scope R_scope.

Lemma dot_square (u : V3 R) : 0 <= dot u u.
Proof. destruct u as [a b c]. unfold dot. cbn. assert (A := Rle_0_sqr a). assert (B := Rle_0_sqr b). assert (C := Rle_0_sqr c). unfold Rsqr in *. lra. Qed.
Lemma dot_bound (u v : V3 R) : dot u u = 1 -> dot v v = 1 -> -1 <= dot u v <= 1.
Proof.
  intros U V. assert (A := dot_square (vsub u v)). assert (B := dot_square (vadd u v)).
  assert (E1 : dot (vsub u v) (vsub u v) = dot u u + dot v v - 2 * dot u v) by (destruct u, v; rlin; ring).
  assert (E2 : dot (vadd u v) (vadd u v) = dot u u + dot v v + 2 * dot u v) by (destruct u, v; rlin; ring).
  rewrite E1 in A. rewrite E2 in B. lra.
Qed.
Lemma product_bound a b : -1 <= a <= 1 -> -1 <= b <= 1 -> a * b <= 1.
Proof.
  intros A B. assert (H : 0 <= (1 - a) * (1 + b) + (1 + a) * (1 - b)) by (apply Rplus_le_le_0_compat; apply Rmult_le_pos; lra). lra.
Qed.

(** What the energy object holds: [c] is the prefactor of the bond. *)
Definition floor_bond (st : list (M3 R)) (E : @energy_obj R) (n : V3 R) (b : nat * nat * V3 R * loc) : Prop :=
  let '(i, j, d, l) := b in forall si sj J, nth_error (e_spins E) i = Some si -> nth_error (e_spins E) j = Some sj -> nth_error st l = Some J ->
  (forall u v, dot u u = 1 -> dot v v = 1 -> e_factor E * si * sj * dot n (mvec J n) <= e_factor E * si * sj * dot u (mvec J v)) \/
  (i = j /\ d = vzero /\ forall u, dot u u = 1 -> e_factor E * si * sj * dot n (mvec J n) <= e_factor E * si * sj * dot u (mvec J u)).

Lemma exchange_floor n c x z u v : dot n n = 1 -> dot u u = 1 -> dot v v = 1 -> c * x <= 0 -> c * z <= 0 ->
  c * (x * dot n n + z * (dot n n * dot n n)) <= c * (x * dot u v + z * (dot n u * dot n v)).
Proof.
  intros N U V X Z. rewrite N. assert (B := dot_bound u v U V). assert (P := product_bound _ _ (dot_bound n u N U) (dot_bound n v N V)).
  assert (H1 : 0 <= - (c * x) * (1 - dot u v)) by (apply Rmult_le_pos; lra).
  assert (H2 : 0 <= - (c * z) * (1 - dot n u * dot n v)) by (apply Rmult_le_pos; lra). lra.
Qed.
Lemma onsite_floor n c x y u : dot n n = 1 -> dot u u = 1 -> c * y <= 0 ->
  c * (x * dot n n + y * (dot n n * dot n n)) <= c * (x * dot u u + y * (dot n u * dot n u)).
Proof.
  intros N U Y. rewrite N, U. assert (P := product_bound _ _ (dot_bound n u N U) (dot_bound n u N U)).
  assert (H2 : 0 <= - (c * y) * (1 - dot n u * dot n u)) by (apply Rmult_le_pos; lra). lra.
Qed.

Lemma built_floor atoms cell (w w1 : world) E ef of_ ro re n : NoDup atoms -> dot n n = 1 -> of_ <> 0 -> (forall a s, spin_of w a = Some s -> 0 <= s) ->
  easy_axis n ef of_ w -> built atoms cell w w1 E ef of_ ro re -> Forall (floor_bond (w_store w1) E n) (e_bonds E).
Proof.
  intros Nd Hn Nz Sp [Hb Ho] B. destruct B as [B1 B2 _ B4 B5 B6 _ _ B9 _ _].
  assert (Pos : forall i s, nth_error (e_spins E) i = Some s -> 0 <= s).
  { intros i s Es. assert (X : In (Some s) (map (spin_of w) atoms)) by (rewrite B2; apply in_map; apply nth_error_In in Es; exact Es).
    apply in_map_iff in X as (a & Ea & _). exact (Sp a s Ea). }
  assert (Bo : forall k J, bond_value w k = Some J -> exists x z, ef * x <= 0 /\ ef * z <= 0 /\ forall u v, dot u (mvec (mtrans J) v) = x * dot u v + z * (dot n u * dot n v)).
  { intros k J EJ. destruct (Hb k J EJ) as (x & z & X & Z & F). exists x, z. split; [exact X|]. split; [exact Z|]. intros u v.
    transitivity (dot v (mvec J u)); [destruct u, v, J; rlin; ring|]. rewrite F, (dot_sym v u). ring. }
  apply Forall_forall. intros [[[i j] d] l] I si sj J Ei Ej EJ. rewrite B1.
  assert (Ps : 0 <= si * sj) by (apply Rmult_le_pos; eauto).
  assert (X : exists kl, In kl (ro ++ re) /\ indexed atoms cell kl (i, j, d, l)).
  { clear - B4 I. induction B4 as [|kl b t t' H _ IH]; [destruct I|]. destruct I as [->|I]; [exists kl; split; [left; reflexivity|exact H]|].
    destruct (IH I) as (kl' & A & B). exists kl'. split; [right; exact A|exact B]. }
  destruct X as ([k l'] & Ik & (Xi & Xj & Xd & El)). cbn [snd fst] in *. subst l'. apply in_app_or in Ik as [Ik|Ik].
  - right.
    assert (K : exists a, k = mkB a a (0, 0, 0)%Z).
    { assert (Y : In k (map fst ro)) by (apply in_map_iff; exists (k, l); auto). rewrite B5 in Y. apply in_map_iff in Y as (a & <- & _). eauto. }
    destruct K as [a ->]. cbn [b_from b_to b_cell] in *. split; [|split].
    + apply (NoDup_nth_error atoms); [exact Nd|apply nth_error_Some; congruence|congruence].
    + subst d. unfold lattice_vector. change (@fZ R R_Scalar 0%Z) with 0. destruct cell. apply V3_ext; rlin; ring.
    + assert (Y : In (nth_error (w_store w1) l) (map (fun a => option_map (mscale (ef / of_)%fld) (onsite_value w a)) (sites w))).
      { rewrite <- B6. apply in_map_iff. exists (mkB a a (0, 0, 0)%Z, l). auto. }
      apply in_map_iff in Y as (a' & Ya & _). rewrite EJ in Ya. destruct (onsite_value w a') as [A|] eqn:EA; [|discriminate]. injection Ya as <-.
      destruct (Ho _ _ EA) as (x & y & Hy & F). intros u U. rewrite !mvec_mscale, !dot_vscale_r, !F.
      assert (E1 : forall t, ef * si * sj * ((ef / of_)%fld * t) = ef * (ef / of_) * (si * sj) * t) by (intros; change (ef / of_)%fld with (ef / of_); ring).
      rewrite !E1. apply onsite_floor; auto.
      replace (ef * (ef / of_) * (si * sj) * y) with ((ef / of_ * (ef / of_)) * (si * sj) * (of_ * y)) by (field; exact Nz).
      assert (0 <= ef / of_ * (ef / of_) * (si * sj)) by (apply Rmult_le_pos; [apply Rle_0_sqr|exact Ps]).
      assert (Z : 0 <= ef / of_ * (ef / of_) * (si * sj) * - (of_ * y)) by (apply Rmult_le_pos; lra). lra.
  - left. rewrite (B9 _ _ Ik) in EJ.
    assert (Q : exists x z, ef * x <= 0 /\ ef * z <= 0 /\ forall u v, dot u (mvec J v) = x * dot u v + z * (dot n u * dot n v)).
    { unfold mirrored_value in EJ. destruct (dmem _ _); [|exact (Hb _ _ EJ)]. destruct (bond_value w (mirror k)) as [J'|] eqn:E'; [|discriminate]. cbn in EJ. injection EJ as <-. exact (Bo _ _ E'). }
    destruct Q as (x & z & X & Z & F). intros u v U V. rewrite !F. rewrite !(Rmult_assoc ef si sj).
    apply exchange_floor; auto.
    + assert (0 <= si * sj * - (ef * x)) by (apply Rmult_le_pos; lra). lra.
    + assert (0 <= si * sj * - (ef * z)) by (apply Rmult_le_pos; lra). lra.
Qed.
Lemma init_floor order g cell (w w1 : world) (E : @energy_obj R) (dc sn : bool) (ef of_ : R) n : (forall l, Permutation (order l) l) -> wf w ->
  (if dc then mirror_closed w else unshared w) -> notation_is w dc sn ef of_ -> of_ <> 0 -> (forall a, carries w a -> spin_of w a <> None) ->
  (forall a s, spin_of w a = Some s -> 0 <= s) -> dot n n = 1 -> easy_axis n ef of_ w -> energy_init order g cell w = (w1, Ret E) ->
  Forall (floor_bond (w_store w1) E n) (e_bonds E).
Proof.
  intros Po W Hd (N1 & N2 & N3 & N4) Nz Sp Pos Hn Ea' H. destruct (init_atoms order w Po Sp) as (atoms & Ea & Sa).
  assert (Mc : dc = true -> mirror_closed w) by (intros ->; exact Hd). assert (Uu : dc = false -> unshared w) by (intros ->; exact Hd).
  destruct (@energy_init_ok R R_Scalar order g cell w atoms ef of_ dc Po W Mc Uu N1 N3 N4 Nz Ea Sa) as (v1 & F1 & ro & re & X1 & _ & B1 & _).
  rewrite H in X1. injection X1 as <- <-. destruct (magnetic_covers order w atoms Po Ea) as [Nd _].
  exact (built_floor _ _ _ _ _ _ _ _ _ _ Nd Hn Nz Pos Ea' B1).
Qed.

(** One bond of a state against the same bond of the aligned state. *)
Lemma bond_floor st E n C dirs b y : dot n n = 1 -> floor_bond st E n b -> List.length dirs = List.length (e_spins E) ->
  (let '(i, j, d, l) := b in forall c u v J, In u dirs -> In v dirs -> nth_error st l = Some J ->
     ((forall u' v', dot u' u' = 1 -> dot v' v' = 1 -> c * dot n (mvec J n) <= c * dot u' (mvec J v')) -> c * dot n (mvec J n) <= c * bilin u (C d J) v) /\
     (u = v -> d = vzero -> (forall u', dot u' u' = 1 -> c * dot n (mvec J n) <= c * dot u' (mvec J u')) -> c * dot n (mvec J n) <= c * bilin u (C d J) v)) ->
  bond_energy st E C dirs b = Some y -> exists y0, bond_energy st E (fun _ J => J) (repeat n (List.length (e_spins E))) b = Some y0 /\ y0 <= y.
Proof.
  destruct b as [[[i j] d] l]. intros Hn F L HC. unfold bond_energy, floor_bond in *.
  destruct (nth_error (e_spins E) i) as [si|] eqn:E1; [|discriminate]. destruct (nth_error (e_spins E) j) as [sj|] eqn:E2; [|discriminate].
  destruct (nth_error dirs i) as [u|] eqn:E3; [|discriminate]. destruct (nth_error dirs j) as [v|] eqn:E4; [|discriminate]. destruct (nth_error st l) as [J|] eqn:E5; [|discriminate].
  intros [= <-].
  assert (Rp : forall m k, (k < m)%nat -> nth_error (repeat n m) k = Some n) by (intros m k; revert k; induction m; intros [|k] Hk; cbn; auto; try lia; apply IHm; lia).
  rewrite !Rp by (apply nth_error_Some; congruence). exists (e_factor E * si * sj * bilin n J n). split; [reflexivity|]. unfold bilin at 1.
  destruct (HC (e_factor E * si * sj) u v J (nth_error_In _ _ E3) (nth_error_In _ _ E4) eq_refl) as [H1 H2].
  destruct (F si sj J eq_refl eq_refl eq_refl) as [G|(-> & -> & G)]; [apply H1, G|apply H2; auto; congruence].
Qed.
Lemma bonds_floor st E n C dirs x : Forall (floor_bond st E n) (e_bonds E) -> dot n n = 1 -> List.length dirs = List.length (e_spins E) ->
  (forall i j d l, In (i, j, d, l) (e_bonds E) -> forall c u v J, In u dirs -> In v dirs -> nth_error st l = Some J ->
     ((forall u' v', dot u' u' = 1 -> dot v' v' = 1 -> c * dot n (mvec J n) <= c * dot u' (mvec J v')) -> c * dot n (mvec J n) <= c * bilin u (C d J) v) /\
     (u = v -> d = vzero -> (forall u', dot u' u' = 1 -> c * dot n (mvec J n) <= c * dot u' (mvec J u')) -> c * dot n (mvec J n) <= c * bilin u (C d J) v)) ->
  bonds_energy st E C dirs = Some x -> exists x0, bonds_energy st E (fun _ J => J) (repeat n (List.length (e_spins E))) = Some x0 /\ x0 <= x.
Proof.
  intros F Hn L HC. rewrite !bonds_energy_osum. revert x. 
  assert (H : forall bs x, (forall b, In b bs -> In b (e_bonds E)) -> osum (map (bond_energy st E C dirs) bs) = Some x ->
    exists x0, osum (map (bond_energy st E (fun _ J => J) (repeat n (List.length (e_spins E)))) bs) = Some x0 /\ x0 <= x).
  { induction bs as [|b bs IH]; intros x I; cbn [map osum]; [intros [= <-]; exists 0; split; [reflexivity|lra]|].
    destruct (bond_energy st E C dirs b) as [y|] eqn:Ey; [|discriminate]. destruct (osum (map (bond_energy st E C dirs) bs)) as [t|] eqn:Et; [|discriminate]. intros [= <-].
    destruct (IH t (fun b' H' => I b' (or_intror H')) eq_refl) as (t0 & -> & Lt).
    assert (Fb := proj1 (Forall_forall _ _) F b (I b (or_introl eq_refl))).
    assert (Hc := fun i j d l => HC i j d l). destruct b as [[[i j] d] l].
    destruct (bond_floor st E n C dirs (i, j, d, l) y Hn Fb L (HC i j d l (I _ (or_introl eq_refl))) Ey) as (y0 & -> & Ly).
    exists (y0 + t0). split; [reflexivity|]. change (y0 + t0 <= y + t). lra. }
  intros x. apply H. auto.
Qed.

Lemma Forall2_size {A B} (P : A -> B -> Prop) l l' : Forall2 P l l' -> List.length l = List.length l'.
Proof. induction 1; cbn; auto. Qed.
Section Floor.
Variables (st : list (M3 R)) (E : @energy_obj R) (n : V3 R).
Hypotheses (F : Forall (floor_bond st E n) (e_bonds E)) (Hn : dot n n = 1).
Let aligned := repeat n (List.length (e_spins E)).

Lemma check_length a rows : check_spins E a = Ret rows -> List.length rows = List.length (e_spins E) /\ rows <> [].
Proof.
  destruct a as [rows'|v|]; cbn [check_spins]; [|destruct (Nat.eqb_spec (List.length (e_spins E)) 1) as [Q|]; [|discriminate]; intros [= <-]; split; [cbn; auto|discriminate]|discriminate].
  destruct rows' as [|r t]; [discriminate|]. destruct (Nat.eqb_spec (List.length (e_spins E)) (List.length (r :: t))) as [Q|]; [|discriminate]. intros [= <-]. split; [auto|discriminate].
Qed.
Lemma aligned_ferro mu H x0 : e_spins E <> [] -> bonds_energy st E (fun _ J => J) aligned = Some x0 ->
  e_ferro mu st (set_field E H) (SRows aligned) = Ret (x0 + zeeman mu (set_field E H) aligned).
Proof.
  intros Ne Hx. unfold e_ferro.
  assert (C : check_spins (set_field E H) (SRows aligned) = Ret aligned).
  { unfold aligned, check_spins. change (e_spins (set_field E H)) with (e_spins E). destruct (e_spins E) as [|s ss]; [exfalso; apply Ne; reflexivity|]. cbn [List.length repeat]. cbn. rewrite repeat_length, Nat.eqb_refl. reflexivity. }
  rewrite C. cbn [obind]. assert (Dn : direction n n) by (split; [exact Hn|exists 1; split; [lra|destruct n; apply V3_ext; rlin; ring]]).
  assert (NA : normalize_all aligned = Ret aligned).
  { apply normalize_directions. clear Hx C. unfold aligned. induction (List.length (e_spins E)) as [|m IH]; cbn [repeat]; [constructor|constructor; [exact Dn|exact IH]]. }
  rewrite NA. cbn [obind]. change (bonds_energy st (set_field E H)) with (bonds_energy st E). rewrite Hx. reflexivity.
Qed.
Lemma units rows dirs : Forall2 direction rows dirs -> forall u, In u dirs -> dot u u = 1.
Proof. induction 1 as [|v u l l' D _ IH]; intros u' I; [destruct I|]. destruct I as [<-|I]; [apply D|exact (IH _ I)]. Qed.

Lemma ferro_floor mu H a e : (forall dirs, List.length dirs = List.length (e_spins E) -> (forall u, In u dirs -> dot u u = 1) ->
    zeeman mu (set_field E H) aligned <= zeeman mu (set_field E H) dirs) ->
  e_ferro mu st (set_field E H) a = Ret e -> exists e0, e_ferro mu st (set_field E H) (SRows aligned) = Ret e0 /\ e0 <= e.
Proof using F Hn.
  intros Hz. unfold e_ferro at 1. change (check_spins (set_field E H) a) with (check_spins E a). destruct (check_spins E a) as [rows|] eqn:C; [|discriminate]. cbn [obind].
  destruct (normalize_all rows) as [dirs|] eqn:D; [|discriminate]. cbn [obind]. apply normalize_all_inv in D. apply check_length in C as [L Ne].
  assert (L' := Forall2_size _ _ _ D). change (bonds_energy st (set_field E H)) with (bonds_energy st E).
  destruct (bonds_energy st E (fun _ J => J) dirs) as [x|] eqn:X; [|discriminate]. cbn [of_option obind]. intros [= <-].
  destruct (bonds_floor st E n (fun _ J => J) dirs x F Hn ltac:(congruence)) as (x0 & E0 & Lx).
  - intros i j d l I c u v J Iu Iv EJ. split; [intros G; apply G; eapply units; eauto|]. intros -> _ G. apply G. eapply units; eauto.
  - exact X.
  - exists (x0 + zeeman mu (set_field E H) aligned). split; [apply aligned_ferro; [intros Z; rewrite Z in L; destruct rows; [congruence|discriminate]|exact E0]|].
    assert (Z := Hz dirs ltac:(congruence) (units _ _ D)). fold aligned in Z. lra.
Qed.
Lemma cone_floor C mu a m q e : (forall k u v J c theta, dot k k = 1 -> dot u u = 1 -> dot v v = 1 ->
     ((forall u' v', dot u' u' = 1 -> dot v' v' = 1 -> c * dot n (mvec J n) <= c * dot u' (mvec J v')) -> c * dot n (mvec J n) <= c * bilin u (C (cone_K k) J (cos theta) (sin theta)) v) /\
     (u = v -> theta = 0 -> (forall u', dot u' u' = 1 -> c * dot n (mvec J n) <= c * dot u' (mvec J u')) -> c * dot n (mvec J n) <= c * bilin u (C (cone_K k) J (cos theta) (sin theta)) v)) ->
  cone_energy C mu st (set_field E None) a m q = Ret e -> exists e0, e_ferro mu st (set_field E None) (SRows aligned) = Ret e0 /\ e0 <= e.
Proof using F Hn.
  intros HC H. apply cone_energy_inv in H as (rows & dirs & n1 & k & q' & x & Ck & D & _ & Dk & _ & X & ->).
  change (check_spins (set_field E None) a) with (check_spins E a) in Ck. apply check_length in Ck as [L Ne]. assert (L' := Forall2_size _ _ _ D).
  change (bonds_energy st (set_field E None)) with (bonds_energy st E) in X.
  destruct (bonds_floor st E n (fun d J => C (cone_K k) J (cos (dot q' d)) (sin (dot q' d))) dirs x F Hn ltac:(congruence)) as (x0 & E0 & Lx); [|exact X|].
  - intros i j d l I c u v J Iu Iv EJ. destruct (HC k u v J c (dot q' d) (proj1 Dk) (units _ _ D u Iu) (units _ _ D v Iv)) as [H1 H2].
    split; [exact H1|]. intros Q -> G. apply H2; auto. destruct q'; rlin; ring.
  - exists (x0 + zeeman mu (set_field E None) aligned). split; [apply aligned_ferro; [intros Z; rewrite Z in L; destruct rows; [congruence|discriminate]|exact E0]|].
    unfold zeeman. cbn [set_field e_field]. lra.
Qed.
End Floor.

Lemma spiral_bond_floor n k u v (J : M3 R) c theta : dot k k = 1 -> dot u u = 1 -> dot v v = 1 ->
  ((forall u' v', dot u' u' = 1 -> dot v' v' = 1 -> c * dot n (mvec J n) <= c * dot u' (mvec J v')) -> c * dot n (mvec J n) <= c * bilin u (spiral_C (cone_K k) J (cos theta) (sin theta)) v) /\
  (u = v -> theta = 0 -> (forall u', dot u' u' = 1 -> c * dot n (mvec J n) <= c * dot u' (mvec J u')) -> c * dot n (mvec J n) <= c * bilin u (spiral_C (cone_K k) J (cos theta) (sin theta)) v).
Proof.
  intros K U V.
  assert (M : (forall phi, c * dot n (mvec J n) <= c * dot (rotate k phi u) (mvec J (rotate k (phi + theta) v))) ->
    c * dot n (mvec J n) <= c * bilin u (spiral_C (cone_K k) J (cos theta) (sin theta)) v).
  { intros G. assert (I := spiral_bond_average k u v J theta K). revert I G. generalize (bilin u (spiral_C (cone_K k) J (cos theta) (sin theta)) v) (dot n (mvec J n)). intros X Y I G.
    apply (is_RInt_scal _ _ _ c) in I. assert (I0 := is_RInt_const (V := R_NormedModule) 0 (2 * PI) (c * Y)).
    assert (P := PI_RGT_0). assert (Le := is_RInt_le _ _ 0 (2 * PI) _ _ ltac:(lra) I0 I (fun phi _ => G phi)).
    change ((2 * PI - 0) * (c * Y) <= c * (2 * PI * X)) in Le. apply (Rmult_le_reg_l (2 * PI)); [lra|]. lra. }
  split; [intros G; apply M; intros phi; apply G; rewrite rotate_dot; auto|].
  intros -> -> G. apply M. intros phi. rewrite Rplus_0_r. apply G. rewrite rotate_dot; auto.
Qed.
Lemma antiferro_bond_floor n k u v (J : M3 R) c theta : dot k k = 1 -> dot u u = 1 -> dot v v = 1 ->
  ((forall u' v', dot u' u' = 1 -> dot v' v' = 1 -> c * dot n (mvec J n) <= c * dot u' (mvec J v')) -> c * dot n (mvec J n) <= c * bilin u (antiferro_C (cone_K k) J (cos theta) (sin theta)) v) /\
  (u = v -> theta = 0 -> (forall u', dot u' u' = 1 -> c * dot n (mvec J n) <= c * dot u' (mvec J u')) -> c * dot n (mvec J n) <= c * bilin u (antiferro_C (cone_K k) J (cos theta) (sin theta)) v).
Proof.
  intros K U V. rewrite (antiferro_bond_average k u v J theta K). split.
  - intros G. assert (A := G (rotate k 0 u) (rotate k (0 + theta) v) ltac:(rewrite rotate_dot; auto) ltac:(rewrite rotate_dot; auto)).
    assert (B := G (rotate k PI u) (rotate k (PI + theta) v) ltac:(rewrite rotate_dot; auto) ltac:(rewrite rotate_dot; auto)). lra.
  - intros -> -> G. rewrite !Rplus_0_r. assert (A := G (rotate k 0 v) ltac:(rewrite rotate_dot; auto)). assert (B := G (rotate k PI v) ltac:(rewrite rotate_dot; auto)). lra.
Qed.
Lemma zeeman_floor mu (E : @energy_obj R) n h dirs : dot n n = 1 -> (forall x, In x (e_g E) -> mu * h * x <= 0) ->
  List.length dirs = List.length (e_spins E) -> (forall u, In u dirs -> dot u u = 1) ->
  zeeman mu (set_field E (Some (vscale h n))) (repeat n (List.length (e_spins E))) <= zeeman mu (set_field E (Some (vscale h n))) dirs.
Proof.
  intros Hn Hg L U. unfold zeeman. cbn [set_field e_field e_g]. rewrite <- L. clear L.
  change (e_g (set_field E (Some (vscale h n)))) with (e_g E). revert dirs U. induction (e_g E) as [|x gs IH]; intros dirs U; [cbn; lra|].
  destruct dirs as [|u dirs]; [cbn; lra|]. cbn [List.length repeat zeeman_sum]. rewrite !dot_vscale_l, Hn.
  assert (A := IH (fun x' I => Hg x' (or_intror I)) dirs (fun u' I => U u' (or_intror I))).
  assert (B := dot_bound n u Hn (U u (or_introl eq_refl))). assert (G := Hg x (or_introl eq_refl)).
  assert (P : 0 <= - (mu * h * x) * (1 - dot n u)) by (apply Rmult_le_pos; lra).
  revert A. generalize (zeeman_sum (vscale h n) gs (repeat n (List.length dirs))) (zeeman_sum (vscale h n) gs dirs). intros Y Z A.
  change (mu * Y <= mu * Z) in A. change (mu * (x * (h * 1) + Y) <= mu * (x * (h * dot n u) + Z)). lra.
Qed.
