(** The ground state attributes. *)
From Coq Require Import List Reals Lra Psatz.
From Verif.Base Require Import Scalar ScalarR Linear3.
From Verif.Model Require Import Hamiltonian GroundState.
From Verif.Spec Require Import GroundSpec.
Import ListNotations.
Local Open Scope R_scope.

Lemma close0 x : close x 0 = true <-> Rabs x <= 1 / 100000000.
Proof.
  unfold close, atol, rtol. rewrite Rminus_0_r, Rabs_R0, Rmult_0_r, Rplus_0_r. destruct (Rle_dec _ _); split; auto; try discriminate.
Qed.
Lemma allclose0_sizable v : allclose0 v = false <-> sizable v.
Proof.
  unfold allclose0, sizable. split.
  - intros H. destruct (close (vx v) 0) eqn:E1; [destruct (close (vy v) 0) eqn:E2; [destruct (close (vz v) 0) eqn:E3; [discriminate|]|]|].
    + exists (vz v). split; [auto|]. apply Rnot_le_lt. intros C. apply close0 in C. congruence.
    + exists (vy v). split; [auto|]. apply Rnot_le_lt. intros C. apply close0 in C. congruence.
    + exists (vx v). split; [auto|]. apply Rnot_le_lt. intros C. apply close0 in C. congruence.
  - intros (x & Hx & L). apply Bool.not_true_is_false. intros H. apply andb_prop in H. destruct H as [H H3]. apply andb_prop in H. destruct H as [H1 H2].
    apply close0 in H1, H2, H3. destruct Hx as [->|[->| ->]]; lra.
Qed.
Lemma sizable_pos v : sizable v -> 0 < vx v * vx v + vy v * vy v + vz v * vz v.
Proof.
  intros (x & Hx & L). assert (x <> 0) by (intros ->; rewrite Rabs_R0 in L; lra).
  pose proof (Rsqr_pos_lt x H). unfold Rsqr in *. pose proof (Rle_0_sqr (vx v)). pose proof (Rle_0_sqr (vy v)). pose proof (Rle_0_sqr (vz v)).
  unfold Rsqr in *. destruct Hx as [->|[->| ->]]; lra.
Qed.

Lemma cone_accepted a b c g : sizable (mkV a b c) -> exists n, set_cone_axis g (Array1 [a; b; c]) = (mkG (g_spiral g) (Some n), Ret tt)
  /\ unit_vector n /\ same_direction (mkV a b c) n.
Proof.
  intros S. pose proof (sizable_pos _ S) as P. apply allclose0_sizable in S. unfold set_cone_axis. rewrite S.
  eexists. split; [reflexivity|]. set (r := norm (mkV a b c)).
  assert (Hr : 0 < r) by (apply sqrt_lt_R0; exact P). assert (E : r * r = a * a + b * b + c * c) by (apply sqrt_sqrt; cbn in P; lra).
  split.
  - unfold unit_vector. cbn. replace (a / r * (a / r) + b / r * (b / r) + c / r * (c / r)) with ((a * a + b * b + c * c) / (r * r)) by (field; lra).
    rewrite <- E. field. lra.
  - exists r. cbn. split; [exact Hr|]. repeat split; field; lra.
Qed.
Lemma cone_success g x g' : set_cone_axis g x = (g', Ret tt) -> exists a b c n, x = Array1 [a; b; c] /\ sizable (mkV a b c)
  /\ g' = mkG (g_spiral g) (Some n) /\ unit_vector n /\ same_direction (mkV a b c) n.
Proof.
  intros H. destruct x as [|[|a [|b [|c [|]]]]|]; try discriminate. cbn in H. destruct (allclose0 (mkV a b c)) eqn:E; [discriminate|].
  apply allclose0_sizable in E. destruct (cone_accepted a b c g E) as (n & H' & U & D). exists a, b, c, n.
  split; [reflexivity|]. split; [exact E|]. split; [|split; assumption]. cbn in H'. rewrite (proj2 (allclose0_sizable _) E) in H'. congruence.
Qed.
Lemma cone_rejected g x g' e : set_cone_axis g x = (g', Raise e) -> g' = g /\ e = ValueError
  /\ ~ exists a b c, x = Array1 [a; b; c] /\ sizable (mkV a b c).
Proof.
  intros H. assert (G : g' = g /\ e = ValueError).
  { destruct x as [|[|a [|b [|c [|]]]]|]; cbn in H; try (inversion H; auto; fail). destruct (allclose0 _); inversion H; auto. }
  destruct G as [-> ->]. split; [reflexivity|]. split; [reflexivity|]. intros (a & b & c & -> & S).
  destruct (cone_accepted a b c g S) as (n & E & _). rewrite E in H. discriminate.
Qed.
Lemma cone_total g x : (exists a b c, x = Array1 [a; b; c] /\ sizable (mkV a b c)) <-> snd (set_cone_axis g x) = Ret tt.
Proof.
  split.
  - intros (a & b & c & -> & S). destruct (cone_accepted a b c g S) as (n & E & _). rewrite E. reflexivity.
  - intros H. destruct (set_cone_axis g x) as [g' o] eqn:E. cbn in H. subst o. destruct (cone_success _ _ _ E) as (a & b & c & n & -> & S & _). eauto.
Qed.
Lemma spiral_spec g x : match x with
  | Array1 [a; b; c] => set_spiral_vector g x = (mkG (Some (mkV a b c)) (g_cone g), Ret tt)
  | _ => set_spiral_vector g x = (g, Raise ValueError) end.
Proof. destruct x as [|[|a [|b [|c [|]]]]|]; reflexivity. Qed.
Lemma cone_always l n : g_cone (assigns l) = Some n -> unit_vector n.
Proof.
  unfold assigns. assert (G : forall l g, (forall n, g_cone g = Some n -> unit_vector n) -> forall n, g_cone (fold_left assign l g) = Some n -> unit_vector n).
  { induction l0 as [|x l0 IH]; intros g Hg m; [apply Hg|]. cbn. apply IH. clear m. intros m. destruct x as [x|x]; cbn [assign].
    - destruct x as [|[|a [|b [|c [|]]]]|]; cbn; apply Hg.
    - destruct (set_cone_axis g x) as [g' [[]|e]] eqn:E; cbn [fst].
      + destruct (cone_success _ _ _ E) as (a & b & c & n0 & _ & _ & -> & U & _). cbn. intros H; inversion H; subst. exact U.
      + apply cone_rejected in E. destruct E as [-> _]. apply Hg. }
  apply G. intros m H. discriminate.
Qed.

Lemma cone_case : sizable (mkV 3 0 4) /\ set_cone_axis new_ground (Array1 [3; 0; 4]) = (mkG None (Some (mkV (3/5) 0 (4/5))), Ret tt).
Proof.
  assert (S : sizable (mkV 3 0 4)) by (exists 3; split; [left; reflexivity|]; rewrite Rabs_right; lra). split; [exact S|].
  unfold set_cone_axis. rewrite (proj2 (allclose0_sizable _) S). unfold norm. cbn [vx vy vz].
  replace (3 * 3 + 0 * 0 + 4 * 4) with (5 * 5) by ring. rewrite sqrt_square by lra. unfold new_ground. cbn [g_spiral]. repeat f_equal. field.
Qed.
Lemma cone_rejected_case : set_cone_axis (mkG None (Some (mkV 0 0 1))) (Array1 [0; 0; 0]) = (mkG None (Some (mkV 0 0 1)), Raise ValueError)
  /\ set_cone_axis (mkG None (Some (mkV 0 0 1))) (Array1 [1; 2]) = (mkG None (Some (mkV 0 0 1)), Raise ValueError).
Proof.
  split; [|reflexivity]. unfold set_cone_axis, allclose0. cbn [vx vy vz]. assert (E : close 0 0 = true) by (apply close0; rewrite Rabs_R0; lra). rewrite E. reflexivity.
Qed.
