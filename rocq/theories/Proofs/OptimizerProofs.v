(** The minimizer: updates, line search and loop (C27, C30-C34). *)
From Coq Require Import List Bool ZArith Reals Lra Lia Ring Field.
From Verif.Base Require Import Scalar ScalarR Linear3.
From Verif.Model Require Import MatrixParam Hamiltonian EnergyInit Energy Optimizer.
From Verif.Spec Require Import EnergySpec OptimizerSpec.
From Verif.Proofs Require Import EnergyProofs.
Import ListNotations.
Local Open Scope R_scope.

Lemma obind_inv {A B} (m : out A) (k : A -> out B) b : obind m k = Ret b -> exists a, m = Ret a /\ k a = Ret b.
Proof. destruct m; cbn; [eauto|discriminate]. Qed.
Ltac inv_bind H a Ha := let H' := fresh in apply obind_inv in H; destruct H as [a [Ha H']]; rename H' into H.

(** ** Updates *)
Lemma eps_pos : 0 < eps.
Proof. unfold eps. apply Rinv_0_lt_compat, pow_lt. lra. Qed.

Lemma turn_row_unit a b c x : dot x x = 1 -> dot (turn_row a b c x) (turn_row a b c x) = 1.
Proof.
  intros H. unfold turn_row. destruct (Rlt_dec _ _) as [L|L]; [exact H|].
  set (th := sqrt (a ^ 2 + b ^ 2 + c ^ 2)) in *. assert (P := eps_pos).
  assert (T : th <> 0) by lra.
  assert (S : th * th = a ^ 2 + b ^ 2 + c ^ 2).
  { apply sqrt_sqrt. assert (X := pow2_ge_0 a). assert (Y := pow2_ge_0 b). assert (Z := pow2_ge_0 c). lra. }
  assert (U : dot (mkV (- c / th) (b / th) (- a / th)) (mkV (- c / th) (b / th) (- a / th)) = 1).
  { rlin. transitivity ((a ^ 2 + b ^ 2 + c ^ 2) / (th * th)); [field; exact T|]. rewrite <- S. field. exact T. }
  revert U. generalize (mkV (- c / th) (b / th) (- a / th)). intros r U.
  assert (C := sin2_cos2 th). unfold Rsqr in C. revert C. generalize (sin th) (cos th). intros s k C.
  clear -H U C. destruct r as [r1 r2 r3], x as [x1 x2 x3]. revert H U. rlin. intros H U.
  set (e := r1 * x1 + r2 * x2 + r3 * x3).
  assert (X : forall y1 y2 y3, y1 = k * x1 + s * (r2 * x3 - r3 * x2) + e * ((1 - k) * r1) ->
     y2 = k * x2 + s * (r3 * x1 - r1 * x3) + e * ((1 - k) * r2) -> y3 = k * x3 + s * (r1 * x2 - r2 * x1) + e * ((1 - k) * r3) ->
     y1 * y1 + y2 * y2 + y3 * y3 = 1).
  { intros y1 y2 y3 -> -> ->.
    transitivity (k * k * (x1 * x1 + x2 * x2 + x3 * x3) + s * s * ((r1 * r1 + r2 * r2 + r3 * r3) * (x1 * x1 + x2 * x2 + x3 * x3) - e * e)
       + 2 * k * (1 - k) * e * e + (1 - k) * (1 - k) * e * e * (r1 * r1 + r2 * r2 + r3 * r3)).
    - unfold e. ring.
    - rewrite H, U. replace (s * s) with (1 - k * k) by lra. ring. }
  eapply X; reflexivity.
Qed.

Lemma turn_rows_unit a b c rows y : turn_rows a b c rows = Ret y -> unit_rows rows -> unit_rows y /\ length y = length rows.
Proof.
  revert b c rows y. induction a as [|a0 a IH]; intros [|b0 b] [|c0 c] rows y H U; try discriminate H.
  - injection H as <-. auto.
  - cbn in H. destruct rows as [|x t]; [discriminate|]. inv_bind H r Hr. injection H as <-.
    inversion_clear U. destruct (IH _ _ _ _ Hr) as [V L]; [assumption|]. split; [|cbn; congruence].
    constructor; [apply turn_row_unit; assumption|exact V].
Qed.
Lemma turn_by_unit sd step rows y : turn_by sd step rows = Ret y -> unit_rows rows -> unit_rows y /\ length y = length rows.
Proof. apply turn_rows_unit. Qed.

Lemma turn_rows_total a b c rows : length b = length a -> length c = length a -> (length a <= length rows)%nat ->
  exists y, turn_rows a b c rows = Ret y.
Proof.
  revert b c rows. induction a as [|a0 a IH]; intros [|b0 b] [|c0 c] rows Lb Lc L; try discriminate; [eexists; reflexivity|].
  destruct rows as [|x t]; [cbn in L; lia|]. cbn in Lb, Lc, L. destruct (IH b c t) as [y Hy]; try lia. cbn. rewrite Hy. eexists; reflexivity.
Qed.
Lemma every3_length {A} (l : list A) n : length l = (3 * n)%nat -> length (every3 l) = n /\ length (every3 (tl l)) = n /\ length (every3 (tl (tl l))) = n.
Proof.
  revert l. induction n as [|n IH]; intros l H.
  - destruct l; [auto|cbn in H; lia].
  - destruct l as [|a [|b [|c t]]]; cbn in H; try lia. destruct (IH t ltac:(lia)) as (H1 & H2 & H3).
    cbn [every3 tl]. destruct t as [|d [|e [|f t']]]; cbn in *; try lia.
Qed.
Lemma turn_by_total sd step rows n : length sd = (3 * n)%nat -> (n <= length rows)%nat -> exists y, turn_by sd step rows = Ret y.
Proof. intros H L. destruct (every3_length sd n H) as (A & B & C). apply turn_rows_total; rewrite !map_length; congruence. Qed.

Lemma update_ferro_keeps x sd step y : update_ferro x sd step = Ret y -> unit_rows x -> unit_rows y /\ length y = length x.
Proof. apply turn_by_unit. Qed.
Lemma update_antiferro_keeps x sd step y : update_antiferro x sd step = Ret y -> unit_rows (fst x) ->
  unit_rows (fst y) /\ length (fst y) = length (fst x) /\ snd y = snd x.
Proof.
  intros H U. unfold update_antiferro in H. inv_bind H r Hr. injection H as <-. destruct (turn_by_unit _ _ _ _ Hr U). auto.
Qed.
Lemma update_spiral_keeps x sd step y : update_spiral x sd step = Ret y -> unit_rows (fst x) ->
  unit_rows (fst y) /\ length (fst y) = length (fst x).
Proof.
  intros H U. unfold update_spiral in H. inv_bind H r Hr. destruct (take_last 3 sd) as [|a [|b [|c [|]]]]; try discriminate. injection H as <-.
  exact (turn_by_unit _ _ _ _ Hr U).
Qed.
Lemma drop_last_length {A} n (l : list A) : length (drop_last n l) = (length l - n)%nat.
Proof. unfold drop_last. rewrite firstn_length. lia. Qed.
Lemma take_last_length {A} n (l : list A) : (n <= length l)%nat -> length (take_last n l) = n.
Proof. unfold take_last. intros. rewrite skipn_length. lia. Qed.
Lemma update_antiferro_total x sd step n : length sd = (3 * n + 3)%nat -> (n <= length (fst x))%nat -> exists y, update_antiferro x sd step = Ret y.
Proof.
  intros H L. destruct (turn_by_total (drop_last 3 sd) step (fst x) n) as [y Hy]; [rewrite drop_last_length; lia|exact L|].
  unfold update_antiferro. rewrite Hy. eexists; reflexivity.
Qed.
Lemma three {A} (l : list A) : length l = 3%nat -> exists a b c, l = [a; b; c].
Proof. destruct l as [|a [|b [|c [|]]]]; cbn; intros; try lia. eauto. Qed.
Lemma update_spiral_total x sd step n : length sd = (3 * n + 3)%nat -> (n <= length (fst x))%nat -> exists y, update_spiral x sd step = Ret y.
Proof.
  intros H L. destruct (turn_by_total (drop_last 3 sd) step (fst x) n) as [y Hy]; [rewrite drop_last_length; lia|exact L|].
  destruct (three (take_last 3 sd)) as (a & b & c & E); [apply take_last_length; lia|].
  unfold update_spiral. rewrite Hy, E. eexists; reflexivity.
Qed.

(** Rows beyond the angles stay. *)
Lemma turn_rows_skip a b c rows y : turn_rows a b c rows = Ret y -> skipn (length a) y = skipn (length a) rows.
Proof.
  revert b c rows y. induction a as [|a0 a IH]; intros [|b0 b] [|c0 c] rows y H; try discriminate H.
  - injection H as <-. reflexivity.
  - cbn in H. destruct rows as [|x t]; [discriminate|]. inv_bind H r Hr. injection H as <-. cbn. eauto.
Qed.

(** ** Line search *)
Section Search.
Context {X : Type} (P : problem X) (c1 c2 : R).

Lemma rejected_spec fx g sd t e g' : rejected c1 c2 fx g sd t e g' = false <-> e <= fx + c1 * t * ldot g sd /\ Rabs (ldot g' sd) <= Rabs (c2 * ldot g sd).
Proof.
  unfold rejected. destruct (Rlt_dec _ e) as [A|A]; [split; [discriminate|intros [H _]; lra]|].
  destruct (Rlt_dec _ (Rabs (ldot g' sd))) as [B|B]; (split; [try discriminate; intros _; lra|intros [_ H]; try lra; reflexivity]).
Qed.

Lemma shrink_ok left x sd fx g t x' g' ts' : p_update P x sd t = Ret x' -> p_grad P x' = Ret (g', ts') ->
  forall r, shrink X P c1 c2 left x sd fx g t x' g' = Ret r ->
  exists i, (i <= left)%nat /\ r = t * (99 / 100) ^ i /\ acceptable P c1 c2 x sd fx g r /\
    forall j, (j < i)%nat -> ~ acceptable P c1 c2 x sd fx g (t * (99 / 100) ^ j).
Proof.
  revert t x' g' ts'. induction left as [|left IH]; intros t x' g' ts' U G r H; cbn [shrink] in H; inv_bind H e He;
    destruct (rejected c1 c2 fx g sd t e g') eqn:RJ.
  - inv_bind H x2 Hx. inv_bind H g2 Hg. destruct g2. inv_bind H e2 He2. discriminate.
  - injection H as <-. exists O. rewrite Rmult_1_r. splits; [lia|reflexivity| |intros; lia].
    exists x', e, g', ts'. apply rejected_spec in RJ. tauto.
  - inv_bind H x2 Hx. inv_bind H g2 Hg. destruct g2 as [g2 ts2]. inv_bind H e2 He2.
    destruct (IH _ _ _ _ Hx Hg _ H) as (i & Li & Ri & Ai & Ni). exists (S i).
    split; [lia|]. split; [rewrite Ri; cbn; ring|]. split; [exact Ai|].
    intros [|j] Lj.
    + rewrite Rmult_1_r. intros (x3 & e3 & g3 & ts3 & U3 & E3 & G3 & W). rewrite U in U3. injection U3 as <-. rewrite He in E3. injection E3 as <-.
      rewrite G in G3. injection G3 as <- <-. apply rejected_spec in W. congruence.
    + intros W. apply (Ni j); [lia|]. replace (t * (99 / 100) * (99 / 100) ^ j) with (t * (99 / 100) ^ S j) by (cbn; ring). exact W.
  - injection H as <-. exists O. rewrite Rmult_1_r. splits; [lia|reflexivity| |intros; lia].
    exists x', e, g', ts'. apply rejected_spec in RJ. tauto.
Qed.
Lemma shrink_fail left x sd fx g t x' g' ts' : defined_along P x sd -> p_update P x sd t = Ret x' -> p_grad P x' = Ret (g', ts') ->
  forall e, shrink X P c1 c2 left x sd fx g t x' g' = Raise e ->
  e = ValueError /\ forall j, (j <= left)%nat -> ~ acceptable P c1 c2 x sd fx g (t * (99 / 100) ^ j).
Proof.
  intros (_ & _ & D). revert t x' g' ts'. induction left as [|left IH]; intros t x' g' ts' U G r H; cbn [shrink] in H;
    destruct (D t) as (x1 & U1 & [e1 E1] & _); rewrite U in U1; injection U1 as <-; rewrite E1 in H; cbn [obind] in H;
    destruct (rejected c1 c2 fx g sd t e1 g') eqn:RJ; try discriminate;
    destruct (D (t * (99 / 100))) as (x2 & U2 & [e2 E2] & [[g2 ts2] G2]); rewrite U2 in H; cbn [obind] in H; rewrite G2 in H; cbn [obind] in H;
    rewrite E2 in H; cbn [obind] in H;
    assert (N0 : ~ acceptable P c1 c2 x sd fx g t)
      by (intros (x3 & e3 & g3 & ts3 & U3 & E3 & G3 & W); rewrite U in U3; injection U3 as <-; rewrite E1 in E3; injection E3 as <-;
          rewrite G in G3; injection G3 as <- <-; apply rejected_spec in W; congruence).
  - injection H as <-. split; [reflexivity|]. intros j Lj. replace j with O by lia. rewrite Rmult_1_r. exact N0.
  - destruct (IH _ _ _ _ U2 G2 _ H) as [A B]. split; [exact A|]. intros [|j] Lj; [rewrite Rmult_1_r; exact N0|].
    intros W. apply (B j); [lia|]. replace (t * (99 / 100) * (99 / 100) ^ j) with (t * (99 / 100) ^ S j) by (cbn; ring). exact W.
Qed.

Variable iter_max : nat.
Lemma line_search_ok x sd r : line_search X P c1 c2 iter_max x sd = Ret r ->
  exists fx g ts i, p_energy P x = Ret fx /\ p_grad P x = Ret (g, ts) /\ (i <= iter_max + 1)%nat /\ r = (99 / 100) ^ i /\
    acceptable P c1 c2 x sd fx g r /\ forall j, (j < i)%nat -> ~ acceptable P c1 c2 x sd fx g ((99 / 100) ^ j).
Proof.
  unfold line_search. intros H. inv_bind H fx Hfx. inv_bind H x' Hx. inv_bind H g1 Hg1. destruct g1 as [g1 ts1]. inv_bind H g Hg. destruct g as [g ts].
  destruct (shrink_ok _ _ _ _ _ _ _ _ _ Hx Hg1 _ H) as (i & Li & Ri & Ai & Ni). exists fx, g, ts, i. rewrite Rmult_1_l in Ri.
  splits; auto. intros j Lj. specialize (Ni j Lj). rewrite Rmult_1_l in Ni. exact Ni.
Qed.
Lemma line_search_fail x sd e : defined_along P x sd -> line_search X P c1 c2 iter_max x sd = Raise e ->
  e = ValueError /\ forall fx g ts, p_energy P x = Ret fx -> p_grad P x = Ret (g, ts) ->
    forall j, (j <= iter_max + 1)%nat -> ~ acceptable P c1 c2 x sd fx g ((99 / 100) ^ j).
Proof.
  intros D H. destruct D as ([fx Hfx] & [[g ts] Hg] & D). destruct (D 1) as (x1 & U1 & [e1 E1] & [[g1 ts1] G1]).
  unfold line_search in H. rewrite Hfx in H. cbn [obind] in H. rewrite U1 in H. cbn [obind] in H. rewrite G1 in H. cbn [obind] in H. rewrite Hg in H. cbn [obind] in H.
  destruct (shrink_fail _ _ _ _ _ _ _ _ _ (conj (ex_intro _ fx Hfx) (conj (ex_intro _ (g, ts) Hg) D)) U1 G1 _ H) as [A B]. split; [exact A|].
  intros fx' g' ts' Hfx' Hg' j Lj. rewrite Hfx in Hfx'. injection Hfx' as <-. rewrite Hg in Hg'. injection Hg' as <- <-.
  specialize (B j Lj). rewrite Rmult_1_l in B. exact B.
Qed.
Lemma step_range i : 0 < (99 / 100) ^ i <= 1.
Proof.
  induction i as [|i IH]; cbn; [lra|]. destruct IH. split; [nra|]. nra.
Qed.
End Search.

(** ** The loop *)
Section Loop.
Context {X : Type} (P : problem X).
Variables (m : nat) (c1 c2 : R) (iter_max : nat) (save : bool) (hs : nat) (tol : R) (tols : list R) (mx : option Z).
Notation opt_step := (opt_step X P m c1 c2 iter_max save hs).
Notation opt_loop := (opt_loop X P m c1 c2 iter_max save hs tol tols mx).
Notation opt_start := (opt_start X P m save tol tols).
Notation ost := (ost X).
Notation continues := (continues tol tols).

Definition maxed (s : ost) : bool := match mx with Some z => Z.leb z (Z.of_nat (o_iter X s)) | None => false end.

Lemma opt_loop_inv (Inv : ost -> Prop) fuel s x h : opt_loop fuel s = Some (Ret (x, h)) -> Inv s ->
  (forall s s', Inv s -> maxed s = false -> opt_step s = Ret s' -> Inv s') ->
  exists s', Inv s' /\ x = o_x X s' /\
    ((continues (o_diff X s') (o_targets X s') = false /\ h = o_out X s' ++ o_hist X s') \/
     (maxed s' = true /\ h = o_out X s')).
Proof.
  intros H I Hs. revert s H I. induction fuel as [|fuel IH]; intros s H I; cbn [Optimizer.opt_loop] in H;
    destruct (continues (o_diff X s) (o_targets X s)) eqn:C.
  - fold (maxed s) in H. destruct (maxed s) eqn:M; [|discriminate]. injection H as <- <-. exists s. auto.
  - injection H as <- <-. exists s. auto.
  - fold (maxed s) in H. destruct (maxed s) eqn:M; [injection H as <- <-; exists s; auto|].
    destruct (opt_step s) as [s'|] eqn:S; [|discriminate]. eauto.
  - injection H as <- <-. exists s. auto.
Qed.

(** What one turn does. *)
Lemma opt_step_inv s s' : opt_step s = Ret s' ->
  exists g ts L k sd step t', p_grad P (o_x X s) = Ret (g, ts) /\
    search_direction m (p_size P) (o_L X s) (o_k X s) g (o_prev X s) = Ret (L, k, sd) /\
    line_search X P c1 c2 iter_max (o_x X s) sd = Ret step /\
    p_update P (o_x X s) sd step = Ret (o_x X s') /\ p_energy P (o_x X s') = Ret (o_energy X s') /\
    p_target P ts = Ret t' /\ o_targets X s' = t' /\ o_diff X s' = Rabs (o_energy X s - o_energy X s') /\ o_iter X s' = S (o_iter X s) /\
    (o_L X s' = L /\ o_prev X s' = Some (step, g, sd) /\ o_k X s' = S k) /\
    (save = true -> hs <> O /\
       (if Nat.eqb (Nat.modulo (S (o_iter X s)) hs) 0
        then o_hist X s' = [] /\ o_out X s' = o_out X s ++ o_hist X s ++ [(o_energy X s', t', o_x X s')]
        else o_hist X s' = o_hist X s ++ [(o_energy X s', t', o_x X s')] /\ o_out X s' = o_out X s)).
Proof.
  unfold Optimizer.opt_step. intros H. inv_bind H g0 Hg. destruct g0 as [g ts]. inv_bind H r Hr. destruct r as [[L k] sd]. inv_bind H step Hstep.
  inv_bind H x' Hx. inv_bind H e' He. inv_bind H t' Ht. exists g, ts, L, k, sd, step, t'.
  destruct save.
  - destruct hs as [|h0] eqn:Eh; [discriminate|]. destruct (Nat.eqb _ 0) eqn:E0; injection H as <-; cbn [o_x o_energy o_targets o_diff o_iter o_hist o_out o_L o_prev o_k];
      splits; auto; intros _; (split; [discriminate|]); rewrite ?E0; auto.
  - injection H as <-. cbn [o_x o_energy o_targets o_diff o_iter o_hist o_out o_L o_prev o_k]. splits; auto. discriminate.
Qed.

Lemma mod_step n h : h <> O -> (S n mod h = 0 <-> exists q, S n = q * h)%nat.
Proof. intros. rewrite Nat.mod_divide by assumption. unfold Nat.divide. tauto. Qed.
Lemma written_flush n h : h <> O -> (S n mod h = 0)%nat -> written (S n) h = S (S n).
Proof.
  intros H E. unfold written. assert (D := Nat.div_mod (S n) h H). rewrite E in D.
  destruct (Nat.ltb_spec (S n) h) as [L|L].
  - rewrite Nat.mod_small in E by exact L. lia.
  - f_equal. lia.
Qed.
Lemma written_keep n h : h <> O -> (S n mod h <> 0)%nat -> written (S n) h = written n h.
Proof.
  intros H E. unfold written.
  assert (Q : (S n / h = n / h)%nat).
  { assert (D := Nat.div_mod (S n) h H). assert (B := Nat.mod_upper_bound (S n) h H).
    apply Nat.div_unique with (S n mod h - 1)%nat; revert D B E; generalize (S n / h)%nat (S n mod h)%nat; intros q r; [|generalize (h * q)%nat]; lia. }
  rewrite Q. destruct (Nat.ltb_spec (S n) h), (Nat.ltb_spec n h); try reflexivity; try lia.
  exfalso. apply E. replace (S n) with h by lia. apply Nat.mod_same, H.
Qed.
Lemma written_le n h : (written n h <= S n)%nat.
Proof.
  unfold written. destruct (Nat.ltb_spec n h); [lia|]. apply le_n_S. destruct h; [rewrite Nat.mul_0_r; lia|]. rewrite Nat.mul_comm. apply Nat.mul_div_le. discriminate.
Qed.

(** The invariant of the loop. *)
Definition inv (x0 : X) (s : ost) : Prop :=
  exists es, visits P x0 (es ++ [(o_energy X s, o_targets X s, o_x X s)]) /\ length es = o_iter X s /\
    (match mx with Some z => (o_iter X s <= Z.to_nat z)%nat | None => True end) /\
    (match o_iter X s with
     | O => o_diff X s = tol * 2 /\ o_targets X s = map (fun a => 2 * a) tols
     | _ => exists es' e t x, es = es' ++ [(e, t, x)] /\ o_diff X s = Rabs (e - o_energy X s)
     end) /\
    (save = true -> hs <> O \/ o_iter X s = O) /\
    (save = true -> o_out X s ++ o_hist X s = es ++ [(o_energy X s, o_targets X s, o_x X s)] /\
                    length (o_out X s) = written (o_iter X s) hs \/ (o_iter X s = O /\ o_out X s = [] /\ o_hist X s = [(o_energy X s, o_targets X s, o_x X s)] /\ es = [])).

Lemma inv_start x0 s : opt_start x0 = Ret s -> inv x0 s.
Proof.
  unfold Optimizer.opt_start. intros H. inv_bind H e He. injection H as <-. exists []. cbn [o_x o_energy o_targets o_diff o_iter o_hist o_out].
  splits; auto; try reflexivity.
  - constructor. exact He.
  - destruct mx; [lia|trivial].
  - intros ->. right. auto.
Qed.
Lemma inv_step x0 s s' : inv x0 s -> maxed s = false -> opt_step s = Ret s' -> inv x0 s'.
Proof.
  intros (es & V & Le & Lm & Df & Hh & Ho) M S.
  destruct (opt_step_inv _ _ S) as (g & ts & L & k & sd & step & t' & Hg & Hsd & Hst & Hup & Hen & Htg & Et & Ed & Ei & Ek & Hsave).
  exists (es ++ [(o_energy X s, o_targets X s, o_x X s)]).
  destruct (line_search_ok _ _ _ _ _ _ _ Hst) as (_ & _ & _ & i & _ & _ & _ & Ri & _).
  splits.
  - rewrite <- app_assoc. cbn [app]. rewrite Et. apply (V_step P x0 es _ _ _ _ _ _ g ts sd step V Hg Htg); [rewrite Ri; apply step_range|exact Hup|exact Hen].
  - rewrite app_length, Le, Ei. cbn. lia.
  - unfold maxed in M. destruct mx as [z|]; [|trivial]. apply Z.leb_gt in M. lia.
  - rewrite Ei. exists es, (o_energy X s), (o_targets X s), (o_x X s). split; [reflexivity|]. exact Ed.
  - intros Sv. left. apply Hsave, Sv.
  - intros Sv. left. destruct (Hsave Sv) as [Hs0 W]. rewrite Ei.
    assert (Q : o_out X s ++ o_hist X s = es ++ [(o_energy X s, o_targets X s, o_x X s)] /\ length (o_out X s) = written (o_iter X s) hs).
    { destruct (Ho Sv) as [Q|(Z & Q1 & Q2 & Q3)]; [exact Q|]. rewrite Q1, Q2, Q3, Z. split; [reflexivity|]. unfold written. destruct hs; [congruence|reflexivity]. }
    destruct Q as [Q1 Q2]. destruct (Nat.eqb _ 0) eqn:E0.
    + apply Nat.eqb_eq in E0. destruct W as [W1 W2]. rewrite W1, W2, app_nil_r, Et. split.
      * rewrite app_assoc, Q1. reflexivity.
      * rewrite app_assoc, Q1, written_flush by assumption. rewrite !app_length, Le. cbn. lia.
    + apply Nat.eqb_neq in E0. destruct W as [W1 W2]. rewrite W1, W2, Et. split.
      * rewrite app_assoc, Q1. reflexivity.
      * rewrite Q2, written_keep by assumption. reflexivity.
Qed.

Lemma continues_false d ts : continues d ts = false -> d <= tol /\ within ts tols.
Proof.
  unfold Optimizer.continues. intros H. apply orb_false_iff in H. destruct H as [A B]. split.
  - destruct (Rlt_dec tol d); [discriminate|lra].
  - unfold within. apply Forall_forall. intros p I. destruct (Rlt_dec (snd p) (fst p)) as [L|L]; [|lra].
    exfalso. assert (C : existsb (fun p : R * R => if Rlt_dec (snd p) (fst p) then true else false) (combine ts tols) = true).
    { apply existsb_exists. exists p. split; [exact I|]. destruct (Rlt_dec (snd p) (fst p)); [reflexivity|contradiction]. }
    congruence.
Qed.
Lemma within_double ts : within (map (fun a => 2 * a) ts) ts -> Forall (fun a => a <= 0) ts.
Proof.
  induction ts as [|a ts IH]; intros H; [constructor|]. inversion_clear H as [|? ? H1 H2]. constructor; [cbn in H1; lra|]. apply IH, H2.
Qed.

Notation optimize_from := (optimize_from X P m c1 c2 iter_max save hs tol tols mx).

Theorem run_result fuel x0 x h : optimize_from fuel x0 = Some (Ret (x, h)) ->
  exists es e t, visits P x0 (es ++ [(e, t, x)]) /\
    (forall z, mx = Some z -> (length es <= Z.to_nat z)%nat) /\
    ((converged tol tols (es ++ [(e, t, x)]) \/ (es = [] /\ tol <= 0 /\ Forall (fun a => a <= 0) tols)) /\ (save = true -> h = es ++ [(e, t, x)])
     \/ (exists z, mx = Some z /\ length es = Z.to_nat z) /\
        (save = true -> hs = O /\ h = [] \/ h = firstn (written (length es) hs) (es ++ [(e, t, x)]))).
Proof.
  unfold Optimizer.optimize_from. destruct (opt_start x0) as [s0|] eqn:S0; [|discriminate]. intros H.
  destruct (opt_loop_inv (inv x0) fuel s0 x h H (inv_start _ _ S0) (inv_step x0)) as (s & (es & V & Le & Lm & Df & Hh & Ho) & -> & Hend).
  exists es, (o_energy X s), (o_targets X s). split; [exact V|]. split; [intros z ->; rewrite Le; exact Lm|].
  destruct Hend as [[C ->]|[M ->]]; [left|right].
  - apply continues_false in C. destruct C as [C1 C2]. split.
    + destruct (o_iter X s) eqn:Ei.
      * right. destruct es; [|discriminate]. destruct Df as [D1 D2]. rewrite D1 in C1. rewrite D2 in C2. splits; [reflexivity|lra|]. apply within_double, C2.
      * left. destruct Df as (es' & e & t & x' & -> & D). exists es', e, t, x', (o_energy X s), (o_targets X s), (o_x X s).
        rewrite <- app_assoc. cbn [app]. splits; [reflexivity|rewrite <- D; exact C1|exact C2].
    + intros Sv. destruct (Ho Sv) as [[Q _]|(_ & -> & -> & ->)]; [exact Q|reflexivity].
  - split.
    + unfold maxed in M. destruct mx as [z|]; [|discriminate]. exists z. split; [reflexivity|]. apply Z.leb_le in M. lia.
    + intros Sv. destruct (Ho Sv) as [[Q1 Q2]|(Z & -> & _ & ->)].
      * right. rewrite <- Q1, Le, <- Q2. rewrite firstn_app, firstn_all, Nat.sub_diag. cbn. rewrite app_nil_r. reflexivity.
      * destruct (Nat.eq_dec hs 0) as [E|E]; [left; auto|right]. cbn [length]. unfold written. destruct hs; [congruence|]. reflexivity.
Qed.

(** With an iteration limit the loop ends. *)
Lemma opt_loop_ends z fuel s : mx = Some z -> (Z.to_nat z - o_iter X s <= fuel)%nat -> exists r, opt_loop fuel s = Some r.
Proof.
  intros E. revert s. induction fuel as [|fuel IH]; intros s L; cbn [Optimizer.opt_loop]; destruct (continues _ _); try (eexists; reflexivity);
    fold (maxed s); destruct (maxed s) eqn:M; try (eexists; reflexivity).
  - exfalso. unfold maxed in M. rewrite E in M. apply Z.leb_gt in M. lia.
  - destruct (opt_step s) as [s'|] eqn:S; [|eexists; reflexivity]. apply IH.
    destruct (opt_step_inv _ _ S) as (g & ts & L1 & k & sd & step & t' & Hg & Hsd & Hst & Hup & Hen & Htg & Et & Ed & Ei & Ek & Hsave). rewrite Ei.
    unfold maxed in M. rewrite E in M. apply Z.leb_gt in M. lia.
Qed.
Lemma run_ends z fuel x0 : mx = Some z -> (Z.to_nat z <= fuel)%nat -> exists r, optimize_from fuel x0 = Some r.
Proof.
  intros E L. unfold Optimizer.optimize_from. destruct (opt_start x0) as [s0|] eqn:S0; [|eexists; reflexivity].
  apply (opt_loop_ends z); [exact E|]. lia.
Qed.
End Loop.
