(** Proofs for C90: the collinear state of an unfrustrated magnet has the lowest energy. *)
From Coq Require Import List Bool ZArith Reals Lra Lia Permutation.
From Coquelicot Require Import Coquelicot.
From Coq Require Import List.
From Verif.Base Require Import Scalar ScalarR Linear3 PyDict.
From Verif.Model Require Import MatrixParam Hamiltonian EnergyInit Energy.
From Verif.Spec Require Import HamSpec NotationSpec EnergySpec CollinearSpec.
From Verif.Proofs Require Import DictProofs HamBasics HamDouble FilterProofs EnergyInitProofs EnergyProofs InvarianceProofs RotationProofs RotationEnergy ConeProofs ConeSymmetry EasyAxisProofs.
Import ListNotations.
Local Open Scope R_scope.

(** What the energy object holds: [al] are the directions of the collinear state. *)
Definition state_bond (st : list (M3 R)) (E : @energy_obj R) (al : list (V3 R)) (b : nat * nat * V3 R * loc) : Prop :=
  let '(i, j, d, l) := b in forall si sj J u0 v0, nth_error (e_spins E) i = Some si -> nth_error (e_spins E) j = Some sj -> nth_error st l = Some J ->
  nth_error al i = Some u0 -> nth_error al j = Some v0 ->
  (forall u v, dot u u = 1 -> dot v v = 1 -> e_factor E * si * sj * dot u0 (mvec J v0) <= e_factor E * si * sj * dot u (mvec J v)) \/
  (i = j /\ d = vzero /\ forall u, dot u u = 1 -> e_factor E * si * sj * dot u0 (mvec J v0) <= e_factor E * si * sj * dot u (mvec J u)).

Lemma product_bound_below a b : -1 <= a <= 1 -> -1 <= b <= 1 -> -1 <= a * b.
Proof. intros A B. assert (H := product_bound (- a) b ltac:(lra) B). lra. Qed.
Lemma against_dots n : dot n n = 1 -> dot n (vopp n) = -1 /\ dot (vopp n) n = -1 /\ dot (vopp n) (vopp n) = 1.
Proof.
  intros N. assert (A : dot n (vopp n) = - dot n n) by (destruct n; rlin; ring). assert (B : dot (vopp n) n = - dot n n) by (destruct n; rlin; ring).
  rewrite A, B, dot_opp_opp, N. repeat split; lra.
Qed.
Lemma pair_floor up n c x z a b u v : dot n n = 1 -> dot u u = 1 -> dot v v = 1 ->
  (if Bool.eqb (up a) (up b) then c * x <= 0 /\ c * z <= 0 else 0 <= c * x /\ 0 <= c * z) ->
  let u0 := along_or_against up n a in let v0 := along_or_against up n b in
  c * (x * dot u0 v0 + z * (dot n u0 * dot n v0)) <= c * (x * dot u v + z * (dot n u * dot n v)).
Proof.
  intros N U V Hs u0 v0. destruct (against_dots n N) as (A1 & A2 & A3).
  assert (B := dot_bound u v U V). assert (P := product_bound _ _ (dot_bound n u N U) (dot_bound n v N V)).
  assert (Q := product_bound_below _ _ (dot_bound n u N U) (dot_bound n v N V)).
  unfold u0, v0, along_or_against. destruct (up a), (up b); cbn [Bool.eqb] in Hs; rewrite ?A1, ?A2, ?A3, ?N; destruct Hs as [X Z].
  - assert (H1 : 0 <= - (c * x) * (1 - dot u v)) by (apply Rmult_le_pos; lra). assert (H2 : 0 <= - (c * z) * (1 - dot n u * dot n v)) by (apply Rmult_le_pos; lra). lra.
  - assert (H1 : 0 <= c * x * (1 + dot u v)) by (apply Rmult_le_pos; lra). assert (H2 : 0 <= c * z * (1 + dot n u * dot n v)) by (apply Rmult_le_pos; lra). lra.
  - assert (H1 : 0 <= c * x * (1 + dot u v)) by (apply Rmult_le_pos; lra). assert (H2 : 0 <= c * z * (1 + dot n u * dot n v)) by (apply Rmult_le_pos; lra). lra.
  - assert (H1 : 0 <= - (c * x) * (1 - dot u v)) by (apply Rmult_le_pos; lra). assert (H2 : 0 <= - (c * z) * (1 - dot n u * dot n v)) by (apply Rmult_le_pos; lra). lra.
Qed.

Lemma built_state atoms cell (w w1 : world) E ef of_ ro re up n : NoDup atoms -> dot n n = 1 -> of_ <> 0 -> (forall a s, spin_of w a = Some s -> 0 <= s) ->
  unfrustrated up n ef of_ w -> built atoms cell w w1 E ef of_ ro re -> Forall (state_bond (w_store w1) E (map (along_or_against up n) atoms)) (e_bonds E).
Proof.
  intros Nd Hn Nz Sp [Hb Ho] B. destruct B as [B1 B2 _ B4 B5 B6 _ _ B9 _ _].
  assert (Pos : forall i s, nth_error (e_spins E) i = Some s -> 0 <= s).
  { intros i s Es. assert (X : In (Some s) (map (spin_of w) atoms)) by (rewrite B2; apply in_map; apply nth_error_In in Es; exact Es).
    apply in_map_iff in X as (a & Ea & _). exact (Sp a s Ea). }
  apply Forall_forall. intros [[[i j] d] l] I si sj J u0 v0 Ei Ej EJ Eu Ev. rewrite B1.
  assert (Ps : 0 <= si * sj) by (apply Rmult_le_pos; eauto).
  assert (X : exists kl, In kl (ro ++ re) /\ indexed atoms cell kl (i, j, d, l)).
  { clear - B4 I. induction B4 as [|kl b t t' H _ IH]; [destruct I|]. destruct I as [->|I]; [exists kl; split; [left; reflexivity|exact H]|].
    destruct (IH I) as (kl' & A & B). exists kl'. split; [right; exact A|exact B]. }
  destruct X as ([k l'] & Ik & (Xi & Xj & Xd & El)). cbn [snd fst] in *. subst l'.
  rewrite nth_error_map, Xi in Eu. rewrite nth_error_map, Xj in Ev. cbn [option_map] in Eu, Ev. injection Eu as <-. injection Ev as <-. apply in_app_or in Ik as [Ik|Ik].
  - right.
    assert (K : exists a, k = mkB a a (0, 0, 0)%Z).
    { assert (Y : In k (map fst ro)) by (apply in_map_iff; exists (k, l); auto). rewrite B5 in Y. apply in_map_iff in Y as (a & <- & _). eauto. }
    destruct K as [a ->]. cbn [b_from b_to b_cell] in *. split; [|split].
    + apply (NoDup_nth_error atoms); [exact Nd|apply nth_error_Some; congruence|congruence].
    + subst d. unfold lattice_vector. change (@fZ R R_Scalar 0%Z) with 0. destruct cell. apply V3_ext; rlin; ring.
    + assert (Y : In (nth_error (w_store w1) l) (map (fun a => option_map (mscale (ef / of_)%fld) (onsite_value w a)) (sites w))).
      { rewrite <- B6. apply in_map_iff. exists (mkB a a (0, 0, 0)%Z, l). auto. }
      apply in_map_iff in Y as (a' & Ya & _). rewrite EJ in Ya. destruct (onsite_value w a') as [A|] eqn:EA; [|discriminate]. injection Ya as <-.
      destruct (Ho _ _ EA) as (x & y & Hy & F). intros u U.
      assert (S : forall t, (forall p q, dot p (mvec A q) = x * dot p q + y * (dot n p * dot n q)) -> t = along_or_against up n a -> dot t (mvec A t) = x * dot n n + y * (dot n n * dot n n)).
      { intros t Ft ->. rewrite Ft. destruct (against_dots n Hn) as (A1 & A2 & A3). unfold along_or_against. destruct (up a); rewrite ?A1, ?A2, ?A3, ?Hn; ring. }
      rewrite !mvec_mscale, !dot_vscale_r, (S _ F eq_refl), F.
      assert (E1 : forall t, ef * si * sj * ((ef / of_)%fld * t) = ef * (ef / of_) * (si * sj) * t) by (intros; change (ef / of_)%fld with (ef / of_); ring).
      rewrite !E1. apply onsite_floor; auto.
      replace (ef * (ef / of_) * (si * sj) * y) with ((ef / of_ * (ef / of_)) * (si * sj) * (of_ * y)) by (field; exact Nz).
      assert (0 <= ef / of_ * (ef / of_) * (si * sj)) by (apply Rmult_le_pos; [apply Rle_0_sqr|exact Ps]).
      assert (Z : 0 <= ef / of_ * (ef / of_) * (si * sj) * - (of_ * y)) by (apply Rmult_le_pos; lra). lra.
  - left. rewrite (B9 _ _ Ik) in EJ.
    assert (Q : exists x z, (forall u v, dot u (mvec J v) = x * dot u v + z * (dot n u * dot n v)) /\
      (if Bool.eqb (up (b_from k)) (up (b_to k)) then ef * x <= 0 /\ ef * z <= 0 else 0 <= ef * x /\ 0 <= ef * z)).
    { unfold mirrored_value in EJ. destruct (dmem _ _); [|exact (Hb _ _ EJ)]. destruct (bond_value w (mirror k)) as [J'|] eqn:E'; [|discriminate]. cbn in EJ. injection EJ as <-.
      destruct (Hb _ _ E') as (x & z & F & Hs). exists x, z. split.
      - intros u v. transitivity (dot v (mvec J' u)); [destruct u, v, J'; rlin; ring|]. rewrite F, (dot_sym v u). ring.
      - replace (Bool.eqb (up (b_from k)) (up (b_to k))) with (Bool.eqb (up (b_from (mirror k))) (up (b_to (mirror k)))); [exact Hs|].
        assert (M1 : b_from (mirror k) = b_to k) by (destruct k as [p q [[? ?] ?]]; reflexivity). assert (M2 : b_to (mirror k) = b_from k) by (destruct k as [p q [[? ?] ?]]; reflexivity).
        rewrite M1, M2. destruct (up (b_from k)), (up (b_to k)); reflexivity. }
    destruct Q as (x & z & F & Hs). intros u v U V. rewrite !F. rewrite !(Rmult_assoc ef si sj).
    apply pair_floor; auto. destruct (Bool.eqb _ _); destruct Hs as [X Z]; split.
    + assert (0 <= si * sj * - (ef * x)) by (apply Rmult_le_pos; lra). lra.
    + assert (0 <= si * sj * - (ef * z)) by (apply Rmult_le_pos; lra). lra.
    + assert (0 <= si * sj * (ef * x)) by (apply Rmult_le_pos; lra). lra.
    + assert (0 <= si * sj * (ef * z)) by (apply Rmult_le_pos; lra). lra.
Qed.
Lemma init_state order g cell (w w1 : world) (E : @energy_obj R) (dc sn : bool) (ef of_ : R) up n atoms : (forall l, Permutation (order l) l) -> wf w ->
  (if dc then mirror_closed w else unshared w) -> notation_is w dc sn ef of_ -> of_ <> 0 -> (forall a, carries w a -> spin_of w a <> None) ->
  (forall a s, spin_of w a = Some s -> 0 <= s) -> dot n n = 1 -> unfrustrated up n ef of_ w -> energy_init order g cell w = (w1, Ret E) ->
  magnetic_atoms order w = (w, Ret atoms) ->
  Forall (state_bond (w_store w1) E (map (along_or_against up n) atoms)) (e_bonds E) /\ List.length atoms = List.length (e_spins E).
Proof.
  intros Po W Hd (N1 & N2 & N3 & N4) Nz Sp Pos Hn Ea' H Ha. destruct (init_atoms order w Po Sp) as (atoms' & Ea & Sa).
  assert (Q : atoms' = atoms) by congruence. subst atoms'.
  assert (Mc : dc = true -> mirror_closed w) by (intros ->; exact Hd). assert (Uu : dc = false -> unshared w) by (intros ->; exact Hd).
  destruct (@energy_init_ok R R_Scalar order g cell w atoms ef of_ dc Po W Mc Uu N1 N3 N4 Nz Ea Sa) as (v1 & F1 & ro & re & X1 & _ & B1 & _).
  rewrite H in X1. injection X1 as <- <-. destruct (magnetic_covers order w atoms Po Ea) as [Nd _].
  split; [exact (built_state _ _ _ _ _ _ _ _ _ _ _ Nd Hn Nz Pos Ea' B1)|].
  assert (X := f_equal (@List.length _) (bu_spins _ _ _ _ _ _ _ _ _ B1)). rewrite !map_length in X. exact X.
Qed.

(** One bond of a state against the same bond of the collinear state. *)
Lemma bond_state st E al C dirs b y : state_bond st E al b -> List.length dirs = List.length al ->
  (let '(i, j, d, l) := b in forall c u v u0 v0 J, In u dirs -> In v dirs -> nth_error st l = Some J ->
     ((forall u' v', dot u' u' = 1 -> dot v' v' = 1 -> c * dot u0 (mvec J v0) <= c * dot u' (mvec J v')) -> c * dot u0 (mvec J v0) <= c * bilin u (C d J) v) /\
     (u = v -> d = vzero -> (forall u', dot u' u' = 1 -> c * dot u0 (mvec J v0) <= c * dot u' (mvec J u')) -> c * dot u0 (mvec J v0) <= c * bilin u (C d J) v)) ->
  bond_energy st E C dirs b = Some y -> exists y0, bond_energy st E (fun _ J => J) al b = Some y0 /\ y0 <= y.
Proof.
  destruct b as [[[i j] d] l]. intros F L HC. unfold bond_energy, state_bond in *.
  destruct (nth_error (e_spins E) i) as [si|] eqn:E1; [|discriminate]. destruct (nth_error (e_spins E) j) as [sj|] eqn:E2; [|discriminate].
  destruct (nth_error dirs i) as [u|] eqn:E3; [|discriminate]. destruct (nth_error dirs j) as [v|] eqn:E4; [|discriminate]. destruct (nth_error st l) as [J|] eqn:E5; [|discriminate].
  intros [= <-].
  assert (A1 : nth_error al i <> None) by (apply nth_error_Some; rewrite <- L; apply nth_error_Some; congruence).
  assert (A2 : nth_error al j <> None) by (apply nth_error_Some; rewrite <- L; apply nth_error_Some; congruence).
  destruct (nth_error al i) as [u0|] eqn:F1; [|congruence]. destruct (nth_error al j) as [v0|] eqn:F2; [|congruence].
  exists (e_factor E * si * sj * bilin u0 J v0). split; [reflexivity|]. unfold bilin at 1.
  destruct (HC (e_factor E * si * sj) u v u0 v0 J (nth_error_In _ _ E3) (nth_error_In _ _ E4) eq_refl) as [H1 H2].
  destruct (F si sj J u0 v0 eq_refl eq_refl eq_refl eq_refl eq_refl) as [G|(-> & -> & G)]; [apply H1, G|apply H2; auto; congruence].
Qed.
Lemma bonds_state st E al C dirs x : Forall (state_bond st E al) (e_bonds E) -> List.length dirs = List.length al ->
  (forall i j d l, In (i, j, d, l) (e_bonds E) -> forall c u v u0 v0 J, In u dirs -> In v dirs -> nth_error st l = Some J ->
     ((forall u' v', dot u' u' = 1 -> dot v' v' = 1 -> c * dot u0 (mvec J v0) <= c * dot u' (mvec J v')) -> c * dot u0 (mvec J v0) <= c * bilin u (C d J) v) /\
     (u = v -> d = vzero -> (forall u', dot u' u' = 1 -> c * dot u0 (mvec J v0) <= c * dot u' (mvec J u')) -> c * dot u0 (mvec J v0) <= c * bilin u (C d J) v)) ->
  bonds_energy st E C dirs = Some x -> exists x0, bonds_energy st E (fun _ J => J) al = Some x0 /\ x0 <= x.
Proof.
  intros F L HC. rewrite !bonds_energy_osum. revert x.
  assert (H : forall bs x, (forall b, In b bs -> In b (e_bonds E)) -> osum (map (bond_energy st E C dirs) bs) = Some x ->
    exists x0, osum (map (bond_energy st E (fun _ J => J) al) bs) = Some x0 /\ x0 <= x).
  { induction bs as [|b bs IH]; intros x I; cbn [map osum]; [intros [= <-]; exists 0; split; [reflexivity|lra]|].
    destruct (bond_energy st E C dirs b) as [y|] eqn:Ey; [|discriminate]. destruct (osum (map (bond_energy st E C dirs) bs)) as [t|] eqn:Et; [|discriminate]. intros [= <-].
    destruct (IH t (fun b' H' => I b' (or_intror H')) eq_refl) as (t0 & -> & Lt).
    assert (Fb := proj1 (Forall_forall _ _) F b (I b (or_introl eq_refl))). destruct b as [[[i j] d] l].
    destruct (bond_state st E al C dirs (i, j, d, l) y Fb L (HC i j d l (I _ (or_introl eq_refl))) Ey) as (y0 & -> & Ly).
    exists (y0 + t0). split; [reflexivity|]. change (y0 + t0 <= y + t). lra. }
  intros x. apply H. auto.
Qed.

Section Ground.
Variables (st : list (M3 R)) (E : @energy_obj R) (al : list (V3 R)).
Hypotheses (F : Forall (state_bond st E al) (e_bonds E)) (La : List.length al = List.length (e_spins E)) (Ua : forall u, In u al -> dot u u = 1).

Lemma state_ferro mu x0 : e_spins E <> [] -> bonds_energy st E (fun _ J => J) al = Some x0 -> e_ferro mu st (set_field E None) (SRows al) = Ret (x0 + 0).
Proof using F La Ua.
  intros Ne Hx. unfold e_ferro.
  assert (C : check_spins (set_field E None) (SRows al) = Ret al).
  { unfold check_spins. change (e_spins (set_field E None)) with (e_spins E). rewrite <- La, Nat.eqb_refl. destruct al; [|reflexivity]. destruct (e_spins E); [congruence|discriminate]. }
  rewrite C. cbn [obind].
  assert (NA : normalize_all al = Ret al).
  { apply normalize_directions. clear - Ua. induction al as [|u t IH]; constructor.
    - split; [apply Ua; left; reflexivity|]. exists 1. split; [lra|]. destruct u. apply V3_ext; rlin; ring.
    - apply IH. intros v I. apply Ua. right. exact I. }
  rewrite NA. cbn [obind]. change (bonds_energy st (set_field E None)) with (bonds_energy st E). rewrite Hx. reflexivity.
Qed.
Lemma ferro_state mu a e : e_ferro mu st (set_field E None) a = Ret e -> exists e0, e_ferro mu st (set_field E None) (SRows al) = Ret e0 /\ e0 <= e.
Proof using F La Ua.
  unfold e_ferro at 1. change (check_spins (set_field E None) a) with (check_spins E a). destruct (check_spins E a) as [rows|] eqn:C; [|discriminate]. cbn [obind].
  destruct (normalize_all rows) as [dirs|] eqn:D; [|discriminate]. cbn [obind]. apply normalize_all_inv in D. apply check_length in C as [L Ne].
  assert (L' := Forall2_size _ _ _ D). change (bonds_energy st (set_field E None)) with (bonds_energy st E).
  destruct (bonds_energy st E (fun _ J => J) dirs) as [x|] eqn:X; [|discriminate]. cbn [of_option obind]. intros [= <-].
  destruct (bonds_state st E al (fun _ J => J) dirs x F ltac:(congruence)) as (x0 & E0 & Lx); [|exact X|].
  - intros i j d l I c u v u0 v0 J Iu Iv EJ. split; [intros G; apply G; eapply units; eauto|]. intros -> _ G. apply G. eapply units; eauto.
  - exists (x0 + 0). split; [apply state_ferro; [intros Z; rewrite Z in L; destruct rows; [congruence|discriminate]|exact E0]|]. unfold zeeman. cbn [set_field e_field]. change (x0 + 0 <= x + 0). lra.
Qed.
Lemma cone_state C mu a m q e : (forall k u v u0 v0 J c theta, dot k k = 1 -> dot u u = 1 -> dot v v = 1 ->
     ((forall u' v', dot u' u' = 1 -> dot v' v' = 1 -> c * dot u0 (mvec J v0) <= c * dot u' (mvec J v')) -> c * dot u0 (mvec J v0) <= c * bilin u (C (cone_K k) J (cos theta) (sin theta)) v) /\
     (u = v -> theta = 0 -> (forall u', dot u' u' = 1 -> c * dot u0 (mvec J v0) <= c * dot u' (mvec J u')) -> c * dot u0 (mvec J v0) <= c * bilin u (C (cone_K k) J (cos theta) (sin theta)) v)) ->
  cone_energy C mu st (set_field E None) a m q = Ret e -> exists e0, e_ferro mu st (set_field E None) (SRows al) = Ret e0 /\ e0 <= e.
Proof using F La Ua.
  intros HC H. apply cone_energy_inv in H as (rows & dirs & n1 & k & q' & x & Ck & D & _ & Dk & _ & X & ->).
  change (check_spins (set_field E None) a) with (check_spins E a) in Ck. apply check_length in Ck as [L Ne]. assert (L' := Forall2_size _ _ _ D).
  change (bonds_energy st (set_field E None)) with (bonds_energy st E) in X.
  destruct (bonds_state st E al (fun d J => C (cone_K k) J (cos (dot q' d)) (sin (dot q' d))) dirs x F ltac:(congruence)) as (x0 & E0 & Lx); [|exact X|].
  - intros i j d l I c u v u0 v0 J Iu Iv EJ. destruct (HC k u v u0 v0 J c (dot q' d) (proj1 Dk) (units _ _ D u Iu) (units _ _ D v Iv)) as [H1 H2].
    split; [exact H1|]. intros Q -> G. apply H2; auto. destruct q'; rlin; ring.
  - exists (x0 + 0). split; [apply state_ferro; [intros Z; rewrite Z in L; destruct rows; [congruence|discriminate]|exact E0]|].
    unfold zeeman. cbn [set_field e_field]. change (x0 + 0 <= x + 0). lra.
Qed.
End Ground.

Lemma spiral_bond_state u0 v0 k u v (J : M3 R) c theta : dot k k = 1 -> dot u u = 1 -> dot v v = 1 ->
  ((forall u' v', dot u' u' = 1 -> dot v' v' = 1 -> c * dot u0 (mvec J v0) <= c * dot u' (mvec J v')) -> c * dot u0 (mvec J v0) <= c * bilin u (spiral_C (cone_K k) J (cos theta) (sin theta)) v) /\
  (u = v -> theta = 0 -> (forall u', dot u' u' = 1 -> c * dot u0 (mvec J v0) <= c * dot u' (mvec J u')) -> c * dot u0 (mvec J v0) <= c * bilin u (spiral_C (cone_K k) J (cos theta) (sin theta)) v).
Proof.
  intros K U V.
  assert (M : (forall phi, c * dot u0 (mvec J v0) <= c * dot (rotate k phi u) (mvec J (rotate k (phi + theta) v))) ->
    c * dot u0 (mvec J v0) <= c * bilin u (spiral_C (cone_K k) J (cos theta) (sin theta)) v).
  { intros G. assert (I := spiral_bond_average k u v J theta K). revert I G. generalize (bilin u (spiral_C (cone_K k) J (cos theta) (sin theta)) v) (dot u0 (mvec J v0)). intros X Y I G.
    apply (is_RInt_scal _ _ _ c) in I. assert (I0 := is_RInt_const (V := R_NormedModule) 0 (2 * PI) (c * Y)).
    assert (P := PI_RGT_0). assert (Le := is_RInt_le _ _ 0 (2 * PI) _ _ ltac:(lra) I0 I (fun phi _ => G phi)).
    change ((2 * PI - 0) * (c * Y) <= c * (2 * PI * X)) in Le. apply (Rmult_le_reg_l (2 * PI)); [lra|]. lra. }
  split; [intros G; apply M; intros phi; apply G; rewrite rotate_dot; auto|].
  intros -> -> G. apply M. intros phi. rewrite Rplus_0_r. apply G. rewrite rotate_dot; auto.
Qed.
Lemma antiferro_bond_state u0 v0 k u v (J : M3 R) c theta : dot k k = 1 -> dot u u = 1 -> dot v v = 1 ->
  ((forall u' v', dot u' u' = 1 -> dot v' v' = 1 -> c * dot u0 (mvec J v0) <= c * dot u' (mvec J v')) -> c * dot u0 (mvec J v0) <= c * bilin u (antiferro_C (cone_K k) J (cos theta) (sin theta)) v) /\
  (u = v -> theta = 0 -> (forall u', dot u' u' = 1 -> c * dot u0 (mvec J v0) <= c * dot u' (mvec J u')) -> c * dot u0 (mvec J v0) <= c * bilin u (antiferro_C (cone_K k) J (cos theta) (sin theta)) v).
Proof.
  intros K U V. rewrite (antiferro_bond_average k u v J theta K). split.
  - intros G. assert (A := G (rotate k 0 u) (rotate k (0 + theta) v) ltac:(rewrite rotate_dot; auto) ltac:(rewrite rotate_dot; auto)).
    assert (B := G (rotate k PI u) (rotate k (PI + theta) v) ltac:(rewrite rotate_dot; auto) ltac:(rewrite rotate_dot; auto)). lra.
  - intros -> -> G. rewrite !Rplus_0_r. assert (A := G (rotate k 0 v) ltac:(rewrite rotate_dot; auto)). assert (B := G (rotate k PI v) ltac:(rewrite rotate_dot; auto)). lra.
Qed.

Section Collinear.
Variables (order : list atom -> list atom) (g : atom -> R) (cell : M3 R) (w w1 : world) (E : @energy_obj R) (dc sn : bool) (ef of_ : R) (up : atom -> bool) (n : V3 R) (atoms : list atom).
Hypotheses (Po : forall l, Permutation (order l) l) (W : wf w) (Hd : if dc then mirror_closed w else unshared w)
  (No : notation_is w dc sn ef of_) (Nz : of_ <> 0) (Sp : forall a, carries w a -> spin_of w a <> None)
  (Pos : forall a s, spin_of w a = Some s -> 0 <= s) (Hn : dot n n = 1) (Ea : unfrustrated up n ef of_ w) (Hi : energy_init order g cell w = (w1, Ret E))
  (Ha : magnetic_atoms order w = (w, Ret atoms)).
Lemma collinear_ground mu e : (exists a, e_ferro mu (w_store w1) (set_field E None) a = Ret e) \/ (exists a m q, e_spiral mu (w_store w1) (set_field E None) a m q = Ret e) \/
    (exists a m q, e_antiferro mu (w_store w1) (set_field E None) a m q = Ret e) ->
  exists e0, e_ferro mu (w_store w1) (set_field E None) (SRows (map (along_or_against up n) atoms)) = Ret e0 /\ e0 <= e.
Proof.
  destruct (init_state order g cell w w1 E dc sn ef of_ up n atoms Po W Hd No Nz Sp Pos Hn Ea Hi Ha) as [F L].
  assert (La : List.length (map (along_or_against up n) atoms) = List.length (e_spins E)) by (rewrite map_length; exact L).
  assert (Ua : forall u, In u (map (along_or_against up n) atoms) -> dot u u = 1).
  { intros u I. apply in_map_iff in I as (a & <- & _). unfold along_or_against. destruct (up a); [exact Hn|rewrite dot_opp_opp; exact Hn]. }
  intros [(a & H)|[(a & m & q & H)|(a & m & q & H)]].
  - exact (ferro_state _ _ _ F La Ua mu a e H).
  - apply (cone_state _ _ _ F La Ua spiral_C mu a m q e); [|exact H]. intros. apply spiral_bond_state; assumption.
  - apply (cone_state _ _ _ F La Ua antiferro_C mu a m q e); [|exact H]. intros. apply antiferro_bond_state; assumption.
Qed.
End Collinear.
