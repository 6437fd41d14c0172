(** Proofs for C87: cone states of Hamiltonians without a preferred direction. *)
From Coq Require Import List Bool ZArith Reals Lra Lia Permutation Ring Field.
From Verif.Base Require Import Scalar ScalarR Linear3 PyDict.
From Verif.Model Require Import MatrixParam Hamiltonian EnergyInit Energy.
From Verif.Spec Require Import HamSpec NotationSpec EnergySpec DispersionSpec InvarianceSpec RotationSpec ConeSpec.
From Verif.Proofs Require Import DictProofs HamBasics HamDouble FilterProofs EnergyInitProofs EnergyProofs RotationProofs RotationEnergy InvarianceProofs ConeProofs ConeSymmetry.
Import ListNotations.
Local Open Scope R_scope.

Definition scalar_matrix (J : M3 R) : Prop := exists x, forall u v, dot u (mvec J v) = x * dot u v.
Lemma scalar_trans J : scalar_matrix J -> scalar_matrix (mtrans J).
Proof.
  intros [x H]. exists x. intros u v. transitivity (dot v (mvec J u)); [destruct u, v, J; rlin; ring|]. rewrite H, dot_sym. reflexivity.
Qed.
Lemma scalar_scale c J : scalar_matrix J -> scalar_matrix (mscale c J).
Proof. intros [x H]. exists (c * x). intros u v. rewrite mvec_mscale, dot_vscale_r, H. ring. Qed.
Lemma mirrored_scalar (w : world) k J : isotropic_parameters w -> mirrored_value w k = Some J -> scalar_matrix J.
Proof.
  intros [Hb _]. unfold mirrored_value. destruct (dmem _ _).
  - destruct (bond_value w (mirror k)) as [J'|] eqn:E; [|discriminate]. cbn. intros [= <-]. apply scalar_trans, (Hb _ _ E).
  - intros E. exact (Hb _ _ E).
Qed.
Lemma built_scalar atoms cell (w w1 : world) E ef of_ ro re : isotropic_parameters w -> built atoms cell w w1 E ef of_ ro re ->
  forall i j d l J, In (i, j, d, l) (e_bonds E) -> nth_error (w_store w1) l = Some J -> scalar_matrix J.
Proof.
  intros Iso B i j d l J I EJ. destruct B as [_ _ _ B4 _ B6 _ _ B9 _ _].
  assert (X : exists kl, In kl (ro ++ re) /\ indexed atoms cell kl (i, j, d, l)).
  { clear - B4 I. induction B4 as [|kl b t t' H _ IH]; [destruct I|]. destruct I as [->|I]; [exists kl; split; [left; reflexivity|exact H]|].
    destruct (IH I) as (kl' & A & B). exists kl'. split; [right; exact A|exact B]. }
  destruct X as ([k l'] & Ik & (_ & _ & _ & El)). cbn [snd] in El. subst l'. apply in_app_or in Ik as [Ik|Ik].
  - assert (Y : In (nth_error (w_store w1) l) (map (fun a => option_map (mscale (ef / of_)%fld) (onsite_value w a)) (sites w))).
    { rewrite <- B6. apply in_map_iff. exists (k, l). auto. }
    apply in_map_iff in Y as (a & Ya & _). rewrite EJ in Ya. destruct (onsite_value w a) as [A|] eqn:EA; [|discriminate]. injection Ya as <-.
    apply scalar_scale, (proj2 Iso _ _ EA).
  - rewrite (B9 _ _ Ik) in EJ. exact (mirrored_scalar w k J Iso EJ).
Qed.
Lemma init_scalar order g cell (w w1 : world) (E : @energy_obj R) (dc sn : bool) (ef of_ : R) : (forall l, Permutation (order l) l) -> wf w ->
  (if dc then mirror_closed w else unshared w) -> notation_is w dc sn ef of_ -> of_ <> 0 -> (forall a, carries w a -> spin_of w a <> None) ->
  isotropic_parameters w -> energy_init order g cell w = (w1, Ret E) ->
  forall i j d l J, In (i, j, d, l) (e_bonds E) -> nth_error (w_store w1) l = Some J -> scalar_matrix J.
Proof.
  intros Po W Hd (N1 & N2 & N3 & N4) Nz Sp Iso H. destruct (init_atoms order w Po Sp) as (atoms & Ea & Sa).
  assert (Mc : dc = true -> mirror_closed w) by (intros ->; exact Hd). assert (Uu : dc = false -> unshared w) by (intros ->; exact Hd).
  destruct (@energy_init_ok R R_Scalar order g cell w atoms ef of_ dc Po W Mc Uu N1 N3 N4 Nz Ea Sa) as (v1 & F1 & ro & re & X1 & _ & B1 & _).
  rewrite H in X1. injection X1 as <- <-. exact (built_scalar _ _ _ _ _ _ _ _ _ Iso B1).
Qed.

Lemma dot_parts n u v : dot n n = 1 -> dot (turned n u) (turned n v) = dot (across n u) (across n v) /\
  dot (turned n u) (across n v) = - dot (across n u) (turned n v) /\
  dot (along n u) (along n v) + dot (across n u) (across n v) = dot u v.
Proof.
  intros H. unfold across, along, turned.
  assert (D : forall x y z : V3 R, dot (vsub x y) z = dot x z - dot y z) by (intros; destruct x, y, z; rlin; ring).
  rewrite !D, !dot_vsub_r, !dot_vscale_l, !dot_vscale_r, H.
  assert (E1 : dot (cross n u) (cross n v) = dot n n * dot u v - dot n u * dot n v) by (destruct n, u, v; rlin; ring).
  assert (E2 : dot (cross n u) n = 0) by (destruct n, u; rlin; ring). assert (E3 : dot n (cross n v) = 0) by (destruct n, v; rlin; ring).
  assert (E4 : dot (cross n u) v = - dot u (cross n v)) by (destruct n, u, v; rlin; ring).
  rewrite E1, E2, E3, E4, H, (dot_sym u n). splits; ring.
Qed.
Lemma scalar_cone n J c s u v : scalar_matrix J -> dot n n = 1 ->
  bilin u (antiferro_C (cone_K n) J c s) v = bilin u (spiral_C (cone_K n) J c s) v.
Proof.
  intros [x HJ] H. rewrite antiferro_bilin, spiral_bilin by exact H. rewrite !HJ. destruct (dot_parts n u v H) as (A & B & _). rewrite A, B. field.
Qed.
Lemma scalar_zero n J u v : scalar_matrix J -> dot n n = 1 -> bilin u (spiral_C (cone_K n) J 1 0) v = bilin u J v.
Proof.
  intros [x HJ] H. rewrite spiral_bilin by exact H. unfold bilin. rewrite !HJ. destruct (dot_parts n u v H) as (A & _ & C). rewrite A, <- C. field.
Qed.

Section Isotropic.
Variables (order : list atom -> list atom) (g : atom -> R) (cell : M3 R) (w w1 : world) (E : @energy_obj R) (dc sn : bool) (ef of_ : R).
Hypothesis (Po : forall l, Permutation (order l) l) (W : wf w) (Hd : if dc then mirror_closed w else unshared w)
  (No : notation_is w dc sn ef of_) (Nz : of_ <> 0) (Sp : forall a, carries w a -> spin_of w a <> None)
  (Iso : isotropic_parameters w) (Hi : energy_init order g cell w = (w1, Ret E)).

Lemma iso_antiferro mu H a n q : e_antiferro mu (w_store w1) (set_field E H) a n q = e_spiral mu (w_store w1) (set_field E H) a n q.
Proof.
  unfold e_antiferro, e_spiral, cone_energy. destruct n as [n|]; [|reflexivity]. destruct q as [q|]; [|reflexivity]. cbn [check_vector obind].
  destruct (check_spins _ a) as [rows|]; [|reflexivity]. cbn [obind]. destruct (normalize_all rows) as [dirs|]; [|reflexivity]. cbn [obind].
  unfold normalize. destruct (Req_EM_T (norm n) 0) as [|N]; [reflexivity|]. cbn [obind].
  match goal with |- obind (of_option ?a) _ = obind (of_option ?b) _ => assert (a = b) as ->; [|reflexivity] end.
  apply bonds_energy_ext. intros [[[i j] d] l] I. apply bond_energy_ext. intros u v J EJ. apply scalar_cone; [|apply unit_unit, N].
  exact (init_scalar order g cell w w1 E dc sn ef of_ Po W Hd No Nz Sp Iso Hi i j d l J I EJ).
Qed.
Lemma iso_zero mu a n : dot n n <> 0 -> e_spiral mu (w_store w1) (set_field E None) a (Some n) (Some vzero) = e_ferro mu (w_store w1) (set_field E None) a.
Proof.
  intros Hn. unfold e_spiral, e_ferro, cone_energy. cbn [check_vector obind].
  destruct (check_spins _ a) as [rows|]; [|reflexivity]. cbn [obind]. destruct (normalize_all rows) as [dirs|]; [|reflexivity]. cbn [obind].
  unfold normalize. destruct (Req_EM_T (norm n) 0) as [Z|N].
  { exfalso. apply Hn. unfold norm in Z. apply sqrt_eq_0 in Z; [exact Z|]. destruct n as [a1 a2 a3]. unfold dot. cbn. assert (X1 := Rle_0_sqr a1). assert (X2 := Rle_0_sqr a2). assert (X3 := Rle_0_sqr a3). unfold Rsqr in *. lra. }
  cbn [obind]. unfold zeeman. cbn [set_field e_field].
  match goal with |- obind (of_option ?a) _ = obind (of_option ?b) _ => assert (a = b) as ->; [|reflexivity] end.
  apply bonds_energy_ext. intros [[[i j] d] l] I. apply bond_energy_ext. intros u v J EJ.
  replace (dot vzero d) with 0 by (destruct d; rlin; ring). rewrite cos_0, sin_0. apply scalar_zero; [|apply unit_unit, N].
  exact (init_scalar order g cell w w1 E dc sn ef of_ Po W Hd No Nz Sp Iso Hi i j d l J I EJ).
Qed.

Lemma scalar_turned O J : rotation O -> scalar_matrix J -> RotationSpec.turned O J = J.
Proof.
  intros HO' [x HJ].
  assert (Ex : forall A B : M3 R, (forall u v, dot u (mvec A v) = dot u (mvec B v)) -> A = B).
  { clear. intros A B X. destruct A, B. 
    assert (X1 := X (mkV 1 0 0) (mkV 1 0 0)). assert (X2 := X (mkV 1 0 0) (mkV 0 1 0)). assert (X3 := X (mkV 1 0 0) (mkV 0 0 1)).
    assert (X4 := X (mkV 0 1 0) (mkV 1 0 0)). assert (X5 := X (mkV 0 1 0) (mkV 0 1 0)). assert (X6 := X (mkV 0 1 0) (mkV 0 0 1)).
    assert (X7 := X (mkV 0 0 1) (mkV 1 0 0)). assert (X8 := X (mkV 0 0 1) (mkV 0 1 0)). assert (X9 := X (mkV 0 0 1) (mkV 0 0 1)). clear X.
    unfold dot, mvec, mrow1, mrow2, mrow3 in *. cbn in *. unfold dot in *. cbn in *. f_equal; lra. }
  assert (T : forall (A : M3 R) u v, dot u (mvec A v) = dot (mvec (mtrans A) u) v) by (intros A u v; destruct A, u, v; rlin; ring).
  assert (OO := rotation_rows' O HO').
  unfold RotationSpec.turned. apply Ex. intros u v. rewrite !mvec_mmul, T, HJ, HJ, <- T, <- mvec_mmul, OO, mvec_mid. reflexivity.
Qed.
End Isotropic.

Lemma turned_mid cell : turned_cell mid cell = cell.
Proof. unfold turned_cell. destruct cell. apply M3_ext; rlin; ring. Qed.
Lemma isometry_mid : isometry mid.
Proof. intros a b. rewrite !mvec_mid. reflexivity. Qed.
Lemma iso_rotation O order g cell (w w1 : world) E (dc sn : bool) ef of_ : rotation O -> (forall l, Permutation (order l) l) -> wf w ->
  (if dc then mirror_closed w else unshared w) -> notation_is w dc sn ef of_ -> of_ <> 0 -> (forall a, carries w a -> spin_of w a <> None) ->
  distinctly_indexed w -> isotropic_parameters w -> energy_init order g cell w = (w1, Ret E) ->
  (forall mu a, e_ferro mu (w_store w1) (set_field E None) (turn_arg O a) = e_ferro mu (w_store w1) (set_field E None) a) /\
  (forall mu a n q, e_spiral mu (w_store w1) (set_field E None) (turn_arg O a) (option_map (mvec O) n) q = e_spiral mu (w_store w1) (set_field E None) a n q).
Proof.
  intros HO Po W Hd No Nz Sp Di Iso Hi.
  assert (Rp : rotated_parameters O w w).
  { split; [reflexivity|]. split; intros k.
    - destruct (bond_value w k) as [J|] eqn:EJ; [|reflexivity]. cbn. rewrite (scalar_turned O J HO (proj1 Iso _ _ EJ)). reflexivity.
    - destruct (onsite_value w k) as [J|] eqn:EJ; [|reflexivity]. cbn. rewrite (scalar_turned O J HO (proj2 Iso _ _ EJ)). reflexivity. }
  assert (Hd' : if dc then mirror_closed w else unshared w /\ unshared w) by (destruct dc; auto).
  assert (Hi' : energy_init order g (turned_cell mid cell) w = (w1, Ret E)) by (rewrite turned_mid; exact Hi).
  destruct (energies_rotated O mid order order g cell w w w1 w1 E E dc sn sn ef of_ HO isometry_mid Po Po W W Hd' No No Nz Sp Di Rp Hi Hi') as (A & _ & B).
  split; [intros mu a; exact (A mu None a)|]. intros mu a n q. rewrite <- (B mu None a n q). cbn [option_map]. destruct q as [q|]; cbn [option_map]; [rewrite mvec_mid|]; reflexivity.
Qed.
