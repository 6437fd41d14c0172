(** Proofs for C87: descriptions of the same cone state. *)
From Coq Require Import List Bool ZArith Reals Lra Lia Permutation Ring Field.
From Coquelicot Require Import Coquelicot.
From Verif.Base Require Import Scalar ScalarR Linear3 PyDict.
From Verif.Model Require Import MatrixParam Hamiltonian EnergyInit Energy.
From Verif.Spec Require Import HamSpec NotationSpec EnergySpec DispersionSpec InvarianceSpec RotationSpec ConeSpec.
From Verif.Proofs Require Import DictProofs HamBasics HamDouble FilterProofs EnergyInitProofs EnergyProofs RotationEnergy DispersionModes ConeProofs.
Import ListNotations.
Local Open Scope R_scope.
Notation world := (@world R).

(** ** Equal terms *)
Lemma bonds_energy_ext (st : list (M3 R)) E C C' dirs dirs' :
  (forall b, In b (e_bonds E) -> bond_energy st E C dirs b = bond_energy st E C' dirs' b) ->
  bonds_energy st E C dirs = bonds_energy st E C' dirs'.
Proof. intros H. rewrite !bonds_energy_osum. f_equal. apply map_ext_in, H. Qed.
Lemma bond_energy_ext (st : list (M3 R)) E C C' dirs i j d l :
  (forall u v J, nth_error st l = Some J -> bilin u (C d J) v = bilin u (C' d J) v) ->
  bond_energy st E C dirs (i, j, d, l) = bond_energy st E C' dirs (i, j, d, l).
Proof.
  intros H. unfold bond_energy. destruct (nth_error (e_spins E) i), (nth_error (e_spins E) j), (nth_error dirs i), (nth_error dirs j); auto.
  destruct (nth_error st l) as [J|] eqn:EJ; [|reflexivity]. rewrite (H _ _ J eq_refl). reflexivity.
Qed.

(** ** Vectors of the reciprocal lattice *)
Lemma init_lattice order g cell (w w1 : world) E : energy_init order g cell w = (w1, Ret E) ->
  forall i j d l, In (i, j, d, l) (e_bonds E) -> exists c, d = lattice_vector cell c.
Proof.
  unfold energy_init. intros H.
  apply bind_inv in H as (v1 & f & _ & H). apply bind_inv in H as (v2 & atoms & _ & H). apply bind_inv in H as (v3 & sp & _ & H).
  apply bind_inv in H as (v4 & dc & _ & H). apply bind_inv in H as (v5 & u & _ & H). apply bind_inv in H as (v6 & items & _ & H).
  apply bind_inv in H as (v7 & bs & Hb & H). apply bind_inv in H as (v8 & u' & _ & H). injection H as _ <-. cbn [e_bonds]. clear - Hb.
  revert v6 v7 bs Hb. induction items as [|[k l] t IH]; intros v6 v7 bs Hb; cbn [index_bonds] in Hb.
  - injection Hb as _ <-. intros i j d l' [].
  - apply bind_inv in Hb as (x1 & i & _ & Hb). apply bind_inv in Hb as (x2 & j & _ & Hb). apply bind_inv in Hb as (x3 & r & Hr & Hb).
    injection Hb as _ <-. intros i' j' d' l' [X|I]; [injection X as _ _ <- _; eauto|]. exact (IH _ _ _ Hr _ _ _ _ I).
Qed.
Lemma whole_turns (x : R) (n : Z) : cos (x + 2 * PI * IZR n) = cos x /\ sin (x + 2 * PI * IZR n) = sin x.
Proof.
  assert (P : forall k x, cos (x + 2 * PI * INR k) = cos x /\ sin (x + 2 * PI * INR k) = sin x).
  { clear. intros k x. replace (2 * PI * INR k) with (2 * INR k * PI) by ring. split; [apply cos_period|apply sin_period]. }
  destruct (Z_le_gt_dec 0 n) as [L|L].
  - replace (IZR n) with (INR (Z.to_nat n)) by (rewrite INR_IZR_INZ; f_equal; lia). apply P.
  - assert (Q := P (Z.to_nat (- n)) (x + 2 * PI * IZR n)). replace (INR (Z.to_nat (- n))) with (- IZR n) in Q by (rewrite INR_IZR_INZ, <- opp_IZR; f_equal; lia).
    replace (x + 2 * PI * IZR n + 2 * PI * - IZR n) with x in Q by ring. split; symmetry; apply Q.
Qed.

Lemma cone_reciprocal C order g cell (w w1 : world) E G mu st H a n q : energy_init order g cell w = (w1, Ret E) -> reciprocal_vector cell G ->
  cone_energy C mu st (set_field E H) a n (Some (vadd q G)) = cone_energy C mu st (set_field E H) a n (Some q).
Proof.
  intros Hi HG. unfold cone_energy. cbn [check_vector obind]. destruct n as [n|]; [|reflexivity]. cbn [check_vector obind].
  destruct (check_spins (set_field E H) a) as [rows|]; [|reflexivity]. cbn [obind]. destruct (normalize_all rows) as [dirs|]; [|reflexivity]. cbn [obind].
  destruct (normalize n) as [m|]; [|reflexivity]. cbn [obind].
  rewrite (bonds_energy_ext st (set_field E H) _ (fun d J => C (cone_K m) J (cos (dot q d)) (sin (dot q d))) dirs dirs); [reflexivity|].
  intros [[[i j] d] l] I. apply bond_energy_ext. intros u v J _. destruct (init_lattice _ _ _ _ _ _ Hi i j d l I) as [[[c1 c2] c3] ->].
  destruct (HG c1 c2 c3) as [k Hk]. rewrite dot_vadd_l. unfold lattice_vector.
  assert (Hk' : dot G (vmat (mkV (fZ c1) (fZ c2) (fZ c3)) cell) = 2 * PI * IZR k) by (rewrite <- Hk; rewrite !fZ_IZR; reflexivity).
  rewrite Hk'. destruct (whole_turns (dot q (vmat (mkV (fZ c1) (fZ c2) (fZ c3)) cell)) k) as [-> ->]. reflexivity.
Qed.

(** ** The opposite axis with the opposite spiral vector *)
Lemma along_opp n v : along (vopp n) v = along n v.
Proof. unfold along. destruct n, v. apply V3_ext; rlin; ring. Qed.
Lemma across_opp n v : across (vopp n) v = across n v.
Proof. unfold across. rewrite along_opp. reflexivity. Qed.
Lemma turned_opp n v : turned (vopp n) v = vscale (-1) (turned n v).
Proof. unfold turned. destruct n, v. apply V3_ext; rlin; ring. Qed.
Lemma dot_opp_opp (n : V3 R) : dot (vopp n) (vopp n) = dot n n.
Proof. destruct n. rlin. ring. Qed.
Lemma norm_opp n : norm (vopp n) = norm n.
Proof. unfold norm. rewrite dot_opp_opp. reflexivity. Qed.
Lemma unit_opp n : unit (vopp n) = vopp (unit n).
Proof. unfold unit. rewrite norm_opp. destruct n. apply V3_ext; rlin; unfold Rdiv; ring. Qed.
Lemma unit_unit n : norm n <> 0 -> dot (unit n) (unit n) = 1.
Proof. intros H. exact (proj1 (unit_is_direction n H)). Qed.
Definition axis_even (C : M3 R -> M3 R -> R -> R -> M3 R) : Prop :=
  forall n J c s u v, dot n n = 1 -> bilin u (C (cone_K (vopp n)) J c (- s)) v = bilin u (C (cone_K n) J c s) v.
Lemma spiral_even : axis_even spiral_C.
Proof.
  intros n J c s u v Hn. rewrite !spiral_bilin by (rewrite ?dot_opp_opp; exact Hn). rewrite !along_opp, !across_opp, !turned_opp, !mvec_vscale, !dot_vscale_r, !dot_vscale_l. ring.
Qed.
Lemma antiferro_even : axis_even antiferro_C.
Proof.
  intros n J c s u v Hn. rewrite !antiferro_bilin by (rewrite ?dot_opp_opp; exact Hn). rewrite !along_opp, !across_opp, !turned_opp, !mvec_vscale, !dot_vscale_r. ring.
Qed.
Lemma cone_K_opp n : mmul (cone_K (vopp n)) (cone_K (vopp n)) = mmul (cone_K n) (cone_K n).
Proof. destruct n. unfold cone_K. apply M3_ext; rlin; ring. Qed.
Lemma cone_reversed C mu st E a n q : axis_even C ->
  cone_energy C mu st E a (Some (vopp n)) (Some (vopp q)) = cone_energy C mu st E a (Some n) (Some q).
Proof.
  intros HC. unfold cone_energy. cbn [check_vector obind].
  destruct (check_spins E a) as [rows|]; [|reflexivity]. cbn [obind]. destruct (normalize_all rows) as [dirs|]; [|reflexivity]. cbn [obind].
  unfold normalize. rewrite norm_opp. destruct (Req_EM_T (norm n) 0) as [|N]; [reflexivity|]. cbn [obind]. rewrite unit_opp. unfold so_prime. rewrite cone_K_opp.
  rewrite (bonds_energy_ext st E _ (fun d J => C (cone_K (unit n)) J (cos (dot q d)) (sin (dot q d))) dirs dirs); [reflexivity|].
  intros [[[i j] d] l] I. apply bond_energy_ext. intros u v J _. replace (dot (vopp q) d) with (- dot q d) by (destruct q, d; rlin; ring).
  rewrite cos_neg, sin_neg. apply HC, unit_unit, N.
Qed.

(** ** All spins turned about the axis *)
Lemma dot_n_rotate n phi v : dot n n = 1 -> dot n (rotate n phi v) = dot n v.
Proof.
  intros H. unfold rotate. rewrite !dot_vadd_r, !dot_vscale_r, H. replace (dot n (cross n v)) with 0 by (destruct n, v; rlin; ring). ring.
Qed.
Lemma along_rotate n phi v : dot n n = 1 -> along n (rotate n phi v) = along n v.
Proof. intros H. unfold along. rewrite dot_n_rotate by exact H. reflexivity. Qed.
Lemma across_rotate n phi v : dot n n = 1 -> across n (rotate n phi v) = vadd (vscale (cos phi) (across n v)) (vscale (sin phi) (turned n v)).
Proof.
  intros H. unfold across at 1. rewrite along_rotate by exact H. rewrite rotate_parts. destruct (along n v), (across n v), (turned n v). apply V3_ext; rlin; ring.
Qed.
Lemma turned_rotate n phi v : dot n n = 1 -> turned n (rotate n phi v) = vsub (vscale (cos phi) (turned n v)) (vscale (sin phi) (across n v)).
Proof.
  intros H. unfold turned at 1. rewrite rotate_parts.
  assert (X : forall a b c x y, cross n (vadd (vadd a (vscale x b)) (vscale y c)) = vadd (vadd (cross n a) (vscale x (cross n b))) (vscale y (cross n c))).
  { clear. intros. destruct n, a, b, c. apply V3_ext; rlin; ring. }
  rewrite X. unfold turned at 1. rewrite (cross_cross n v H).
  assert (Y : cross n (along n v) = vzero) by (unfold along; destruct n, v; apply V3_ext; rlin; ring).
  assert (Z : cross n (across n v) = turned n v) by (unfold across, along, turned; destruct n, v; apply V3_ext; rlin; ring).
  rewrite Y, Z. destruct (turned n v), (across n v). apply V3_ext; rlin; ring.
Qed.
Lemma spiral_turned_about n J c s u v phi : dot n n = 1 ->
  bilin (rotate n phi u) (spiral_C (cone_K n) J c s) (rotate n phi v) = bilin u (spiral_C (cone_K n) J c s) v.
Proof.
  intros H. rewrite !spiral_bilin by exact H. rewrite !along_rotate, !across_rotate, !turned_rotate by exact H.
  assert (MS : forall x y, mvec J (vsub x y) = vsub (mvec J x) (mvec J y)) by (intros; destruct J, x, y; apply V3_ext; rlin; ring).
  assert (DS : forall x y z : V3 R, dot (vsub x y) z = dot x z - dot y z) by (intros; destruct x, y, z; rlin; ring).
  rewrite !MS, !mvec_vadd, !mvec_vscale, !DS, !dot_vsub_r, !dot_vadd_l, !dot_vadd_r, ?DS, ?dot_vsub_r, !dot_vscale_l, !dot_vscale_r.
  assert (S := sin2_cos2 phi). unfold Rsqr in S. revert S. generalize (sin phi) (cos phi). intros y z S.
  assert (Z : z * z = 1 - y * y) by lra.
  match goal with |- ?a = ?b => transitivity (dot (along n u) (mvec J (along n v)) + / 2 * (c * ((z * z + y * y) * (dot (across n u) (mvec J (across n v)) + dot (turned n u) (mvec J (turned n v)))) + s * ((z * z + y * y) * (dot (across n u) (mvec J (turned n v)) - dot (turned n u) (mvec J (across n v)))))) end; [ring|].
  rewrite Z. ring.
Qed.
Lemma rotate_dot n phi v : dot n n = 1 -> dot (rotate n phi v) (rotate n phi v) = dot v v.
Proof.
  intros H. assert (S := sin2_cos2 phi). unfold Rsqr in S. unfold rotate. set (y := sin phi) in *. set (z := cos phi) in *. clearbody y z.
  rewrite !dot_vadd_l, !dot_vadd_r, !dot_vscale_l, !dot_vscale_r, H.
  assert (E1 : dot v (cross n v) = 0) by (destruct n, v; rlin; ring). assert (E2 : dot (cross n v) v = 0) by (destruct n, v; rlin; ring).
  assert (E3 : dot (cross n v) (cross n v) = dot n n * dot v v - dot n v * dot n v) by (destruct n, v; rlin; ring).
  assert (E4 : dot (cross n v) n = 0) by (destruct n, v; rlin; ring). assert (E5 : dot n (cross n v) = 0) by (destruct n, v; rlin; ring).
  rewrite E1, E2, E3, E4, E5, H, (dot_sym v n). assert (Z : y * y = 1 - z * z) by lra.
  transitivity (z * z * dot v v + y * y * (dot v v - dot n v * dot n v) + (1 - z * z) * (dot n v * dot n v)); [ring|]. rewrite Z. ring.
Qed.
Lemma rotate_scale n phi c v : rotate n phi (vscale c v) = vscale c (rotate n phi v).
Proof. unfold rotate. destruct n, v. apply V3_ext; rlin; ring. Qed.
Lemma direction_rotate n phi v u : dot n n = 1 -> direction v u -> direction (rotate n phi v) (rotate n phi u).
Proof.
  intros H (D & c & P & ->). split; [rewrite rotate_dot by exact H; exact D|]. exists c. split; [exact P|apply rotate_scale].
Qed.
Lemma normalize_directions rows dirs : Forall2 direction rows dirs -> normalize_all rows = Ret dirs.
Proof.
  induction 1 as [|v u l l' D _ IH]; [reflexivity|]. cbn. apply direction_unit in D as [D1 D2]. destruct (Req_EM_T (norm v) 0); [contradiction|]. rewrite IH, D2. reflexivity.
Qed.
Lemma spiral_about mu st E rows n phi q : e_field E = None -> dot n n = 1 ->
  e_spiral mu st E (SRows (map (rotate n phi) rows)) (Some n) q = e_spiral mu st E (SRows rows) (Some n) q.
Proof.
  intros HF Hn. unfold e_spiral, cone_energy. cbn [check_vector obind]. destruct q as [q|]; [|reflexivity]. cbn [check_vector obind].
  destruct rows as [|r0 t]; [reflexivity|]. cbn [map check_spins]. replace (List.length (rotate n phi r0 :: map (rotate n phi) t)) with (List.length (r0 :: t)) by (cbn; rewrite map_length; reflexivity).
  destruct (Nat.eqb _ _); [|reflexivity]. cbn [obind]. change (rotate n phi r0 :: map (rotate n phi) t) with (map (rotate n phi) (r0 :: t)). generalize (r0 :: t). intros rows.
  assert (X : match normalize_all rows with Ret dirs => normalize_all (map (rotate n phi) rows) = Ret (map (rotate n phi) dirs) | Raise e => normalize_all (map (rotate n phi) rows) = Raise e end).
  { induction rows as [|v l IH]; [reflexivity|]. cbn [map normalize_all]. assert (Nv : norm (rotate n phi v) = norm v) by (unfold norm; rewrite rotate_dot by exact Hn; reflexivity).
    rewrite Nv. destruct (Req_EM_T (norm v) 0) as [|Z]; [reflexivity|]. destruct (normalize_all l) as [dirs|e]; rewrite IH; [|reflexivity]. cbn [map]. do 2 f_equal.
    assert (D := direction_rotate n phi v (unit v) Hn (unit_is_direction v Z)). apply direction_unit in D as [_ D]. exact D. }
  destruct (normalize_all rows) as [dirs|e]; rewrite X; [|reflexivity]. cbn [obind]. clear X.
  assert (Nn : normalize n = Ret n).
  { unfold normalize. assert (D : direction n n) by (split; [exact Hn|exists 1; split; [lra|destruct n; apply V3_ext; rlin; ring]]). apply direction_unit in D as [D1 D2].
    destruct (Req_EM_T (norm n) 0); [contradiction|]. rewrite D2. reflexivity. }
  rewrite Nn. cbn [obind]. unfold zeeman. rewrite HF.
  match goal with |- obind (of_option ?a) _ = obind (of_option ?b) _ => assert (a = b) as ->; [|reflexivity] end.
  apply bonds_energy_ext. intros [[[i j] d] l] I. unfold bond_energy. rewrite !nth_error_map.
  destruct (nth_error (e_spins E) i), (nth_error (e_spins E) j), (nth_error dirs i), (nth_error dirs j); cbn [option_map]; auto.
  destruct (nth_error st l) as [J|]; [|reflexivity]. rewrite spiral_turned_about by exact Hn. reflexivity.
Qed.
