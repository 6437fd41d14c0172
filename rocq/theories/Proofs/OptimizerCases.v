(** The minimizer in its three cases: whole runs, gradient layout, search directions (C27, C30, C31, C54). *)
From Coq Require Import List Bool ZArith Reals Lra Lia Ring Field.
From Coquelicot Require Import Coquelicot.
From Coq Require Import List.
From Verif.Base Require Import Scalar ScalarR Linear3.
From Verif.Model Require Import MatrixParam Hamiltonian EnergyInit Energy Optimizer.
From Verif.Spec Require Import HamSpec EnergySpec OptimizerSpec.
From Verif.Proofs Require Import DictProofs HamBasics EnergyProofs ConeProofs OptimizerProofs DescentProofs.
Import ListNotations.
Local Open Scope R_scope.

(** ** Runs keep what updates keep *)
Lemma visits_keep {X} (P : problem X) (I : X -> Prop) x0 es : I x0 -> (forall x sd step y, I x -> p_update P x sd step = Ret y -> I y) ->
  visits P x0 es -> Forall (fun en : entry X => I (snd en)) es.
Proof.
  intros I0 Hu. induction 1 as [e t He|es e t x e' t' x' g ts sd step V IH Hg Ht Hs Hx He].
  - constructor; [exact I0|constructor].
  - apply Forall_app in IH. destruct IH as [A B]. inversion_clear B as [|? ? B1 _]. cbn in B1.
    apply Forall_app. split; [exact A|]. constructor; [exact B1|]. constructor; [|constructor]. cbn. eapply Hu; eauto.
Qed.

Lemma optimize_inv {X} (P : problem X) ntol a start fuel x h : optimize P ntol a start fuel = Some (Ret (x, h)) ->
  exists x0 te ts, start = Ret x0 /\ tolerances ntol (a_tolerance a) = Ret (te, ts) /\
    optimize_from X P (a_m a) (a_c1 a) (a_c2 a) (a_iter_max a) (a_save a) (a_history_step a) te ts (a_max a) fuel x0 = Some (Ret (x, h)).
Proof.
  unfold optimize. destruct start as [x0|]; [|discriminate]. cbn [obind]. destruct (tolerances ntol (a_tolerance a)) as [[te ts]|]; [|discriminate].
  cbn [obind]. intros H. exists x0, te, ts. auto.
Qed.
Lemma run_keeps {X} (P : problem X) (I : X -> Prop) m c1 c2 im save hs te ts mx fuel x0 x h : I x0 -> (forall x sd step y, I x -> p_update P x sd step = Ret y -> I y) ->
  optimize_from X P m c1 c2 im save hs te ts mx fuel x0 = Some (Ret (x, h)) -> I x /\ (save = true -> Forall (fun en : entry X => I (snd en)) h).
Proof.
  intros I0 Hu H. destruct (run_result _ _ _ _ _ _ _ _ _ _ _ _ _ _ H) as (es & e & t & V & _ & C).
  assert (K := visits_keep P I x0 _ I0 Hu V). split.
  - apply Forall_app in K. destruct K as [_ K]. inversion_clear K. assumption.
  - intros Sv. destruct C as [[_ C]|[_ C]].
    + rewrite (C Sv). exact K.
    + destruct (C Sv) as [[_ ->]| ->]; [constructor|]. apply Forall_forall. intros en Ie. rewrite Forall_forall in K. apply K.
      rewrite <- (firstn_skipn (written (length es) hs) (es ++ [(e, t, x)])). apply in_or_app. left. exact Ie.
Qed.

Lemma directions_units rows us : Forall2 direction rows us -> unit_rows us.
Proof. induction 1 as [|v u l l' D _ IH]; constructor; [apply D|exact IH]. Qed.
Lemma starting_ferro_unit rnd n g x : starting_ferro rnd n g = Ret x -> unit_rows x.
Proof.
  destruct g as [| |[[|r rows]|v|]]; cbn [starting_ferro]; try discriminate.
  - intros H. apply normalize_all_inv in H. eapply directions_units; eauto.
  - destruct (Nat.eqb _ _); [|discriminate]. intros H. apply normalize_all_inv in H. eapply directions_units; eauto.
  - destruct (Nat.eqb _ _); [|discriminate]. intros H. apply normalize_all_inv in H. eapply directions_units; eauto.
Qed.
Lemma normalize_unit v n : normalize v = Ret n -> dot n n = 1.
Proof. unfold normalize. destruct (Req_EM_T _ _); [discriminate|]. intros [= <-]. apply unit_is_direction. assumption. Qed.
Lemma starting_axis_unit rnd g n : starting_axis rnd g = Ret n -> dot n n = 1.
Proof. destruct g; cbn; [apply normalize_unit|apply normalize_unit|discriminate]. Qed.
Lemma unit_app a n : unit_rows a -> dot n n = 1 -> unit_rows (a ++ [n]).
Proof. intros. apply Forall_app. split; [assumption|]. constructor; [assumption|constructor]. Qed.
Lemma starting_antiferro_unit rnd ra n q g ga x : starting_antiferro rnd ra n q g ga = Ret x -> unit_rows (fst x) /\ q = VVec (snd x).
Proof.
  unfold starting_antiferro. intros H. inv_bind H s Hs. inv_bind H ax Ha. destruct q; try discriminate. injection H as <-. cbn. split; [|reflexivity].
  apply unit_app; [eapply starting_ferro_unit; eauto|eapply starting_axis_unit; eauto].
Qed.
Lemma starting_spiral_unit rnd ra rq n g ga gq x : starting_spiral rnd ra rq n g ga gq = Ret x -> unit_rows (fst x).
Proof.
  unfold starting_spiral. intros H. inv_bind H s Hs. inv_bind H ax Ha. assert (U := unit_app s ax (starting_ferro_unit _ _ _ _ Hs) (starting_axis_unit _ _ _ Ha)).
  destruct gq; try discriminate; injection H as <-; exact U.
Qed.

Lemma ferro_run_unit mu st E a rnd g fuel x h : optimize_ferro mu st E a rnd g fuel = Some (Ret (x, h)) ->
  unit_rows x /\ (a_save a = true -> Forall (fun en : entry _ => unit_rows (snd en)) h).
Proof.
  intros H. destruct (optimize_inv _ _ _ _ _ _ _ H) as (x0 & te & ts & S & _ & R).
  eapply run_keeps; [eapply starting_ferro_unit; eauto| |exact R]. intros y sd step z U Hz. apply (update_ferro_keeps y sd step z Hz U).
Qed.
Lemma antiferro_run_unit mu st E a rnd ra q g ga fuel x h : optimize_antiferro mu st E a rnd ra q g ga fuel = Some (Ret (x, h)) ->
  (unit_rows (fst x) /\ q = VVec (snd x)) /\ (a_save a = true -> Forall (fun en : entry _ => unit_rows (fst (snd en)) /\ q = VVec (snd (snd en))) h).
Proof.
  intros H. destruct (optimize_inv _ _ _ _ _ _ _ H) as (x0 & te & ts & S & _ & R).
  eapply (run_keeps _ (fun x => unit_rows (fst x) /\ q = VVec (snd x))); [eapply starting_antiferro_unit; eauto| |exact R].
  intros y sd step z [U Q] Hz. destruct (update_antiferro_keeps y sd step z Hz U) as (V & _ & W). rewrite W. auto.
Qed.
Lemma spiral_run_unit mu st E a rnd ra rq g ga gq fuel x h : optimize_spiral mu st E a rnd ra rq g ga gq fuel = Some (Ret (x, h)) ->
  unit_rows (fst x) /\ (a_save a = true -> Forall (fun en : entry _ => unit_rows (fst (snd en))) h).
Proof.
  intros H. destruct (optimize_inv _ _ _ _ _ _ _ H) as (x0 & te & ts & S & _ & R).
  eapply (run_keeps _ (fun x => unit_rows (fst x))); [eapply starting_spiral_unit; eauto| |exact R].
  intros y sd step z U Hz. apply (update_spiral_keeps y sd step z Hz U).
Qed.

(** ** Layout of the antiferro gradient *)
Lemma torques_of_length E : forall after before ts, torques_of E before after = Ret ts -> length ts = length after.
Proof.
  induction after as [|v t IH]; intros before ts H; cbn [torques_of] in H; [injection H as <-; reflexivity|].
  inv_bind H tq Htq. inv_bind H r Hr. injection H as <-. cbn. f_equal. eapply IH; eauto.
Qed.
Lemma order_length ts : length (gradient_order ts) = (3 * length ts)%nat.
Proof. induction ts; cbn [gradient_order length]; [reflexivity|]. rewrite IHts. lia. Qed.
Lemma order_app a b : gradient_order (a ++ b) = gradient_order a ++ gradient_order b.
Proof. induction a; cbn; [reflexivity|]. rewrite IHa. reflexivity. Qed.
Lemma set_nth_app {A} (a b : list A) n x : set_nth (a ++ b) (length a + n) x = a ++ set_nth b n x.
Proof. induction a; cbn; [reflexivity|]. rewrite IHa. reflexivity. Qed.
Lemma set_nth_length {A} (l : list A) n x : length (set_nth l n x) = length l.
Proof. revert n. induction l; destruct n; cbn; auto. Qed.
Lemma set_last_app {A} (a b : list A) n x : (n <= length b)%nat -> set_last (a ++ b) n x = a ++ set_nth b (length b - n) x.
Proof. intros L. unfold set_last. rewrite app_length. replace (length a + length b - n)%nat with (length a + (length b - n))%nat by lia. apply set_nth_app. Qed.

Lemma antiferro_layout (E : list (V3 R) -> V3 R -> V3 R -> out R) x v tq : grad_antiferro E x = Ret (v, tq) -> (2 <= length (fst x))%nat ->
  exists ts tl t, tq = ts ++ [tl; t] /\ length tq = length (fst x) /\ v = gradient_order (ts ++ [t]) ++ [0; 0; 0].
Proof.
  unfold grad_antiferro, unpack. intros H L. inv_bind H ts Hts. inv_bind H t Ht. injection H as <- <-.
  assert (Lt := torques_of_length _ _ _ _ Hts).
  assert (Lr : length (removelast (fst x)) = (length (fst x) - 1)%nat) by (rewrite removelast_firstn_len, firstn_length; lia).
  rewrite Lr in *. destruct ts as [|t0 ts0] using rev_ind; [cbn in Lt; lia|]. clear IHts0. rename ts0 into ts, t0 into tl.
  exists ts, tl, t. rewrite app_length in Lt. cbn [length] in Lt. rewrite <- app_assoc. cbn [app]. split; [reflexivity|].
  split; [rewrite app_length; cbn [length]; lia|].
  replace (length (fst x) - 1)%nat with (length ts + 1)%nat by lia.
  unfold cone_layout. rewrite layout_order, app_length. cbn [length].
  replace (length ts + 1 + (length ts + 1 + (length ts + 1 + 0)) + 3 - 3 * (length ts + 1))%nat with 3%nat by lia.
  rewrite !order_app, <- !app_assoc. cbn [gradient_order app lzeros repeat].
  rewrite set_last_app by (cbn [length]; lia). cbn [length Nat.sub set_nth].
  rewrite set_last_app by (cbn [length]; lia). cbn [length Nat.sub set_nth].
  rewrite set_last_app by (cbn [length]; lia). cbn [length Nat.sub set_nth]. reflexivity.
Qed.

(** The cone axis is the last row: it is not touched by a search direction of 3I+3 entries. *)
Lemma antiferro_axis x sd step y : length sd = (3 * length (fst x))%nat -> (1 <= length (fst x))%nat ->
  update_antiferro x sd step = Ret y -> last (fst y) vzero = last (fst x) vzero.
Proof.
  intros L L1 H. unfold update_antiferro in H. inv_bind H r Hr. injection H as <-. cbn [fst].
  assert (K := turn_rows_skip _ _ _ _ _ Hr). rewrite map_length in K.
  destruct (every3_length (drop_last 3 sd) (length (fst x) - 1)) as (A & _ & _); [rewrite drop_last_length; lia|]. rewrite A in K.
  assert (Q : forall (l : list (V3 R)) n, (n < length l)%nat -> last (skipn n l) vzero = last l vzero).
  { intros l. induction l as [|a l IH]; intros [|n] Hn; cbn in Hn; try lia; [reflexivity|]. cbn [skipn]. rewrite IH by lia. destruct l; [cbn in Hn; lia|reflexivity]. }
  assert (Ly : length r = length (fst x)).
  { clear -Hr. unfold turn_by in Hr. revert Hr. generalize (map (fun a => a * step) (every3 (drop_last 3 sd))) (map (fun a => a * step) (every3 (tl (drop_last 3 sd)))) (map (fun a => a * step) (every3 (tl (tl (drop_last 3 sd))))) (fst x).
    intros a. revert r. induction a as [|a0 a IH]; intros r [|b0 b] [|c0 c] rows H; try discriminate; [injection H as <-; reflexivity|].
    destruct rows; [discriminate|]. cbn in H. inv_bind H r' Hr'. injection H as <-. cbn. f_equal. eauto. }
  rewrite <- (Q r (length (fst x) - 1)%nat), <- (Q (fst x) (length (fst x) - 1)%nat) by lia. rewrite K. reflexivity.
Qed.

(** ** Sizes along a run *)
Definition lb_ok (m size : nat) (L : lbfgs) : Prop :=
  length (l_d L) = m /\ length (l_y L) = m /\ Forall (fun v => length v = size) (l_d L) /\ Forall (fun v => length v = size) (l_y L).
Lemma lmap2_length f u v : length v = length u -> length (lmap2 f u v) = length u.
Proof. revert v. induction u; intros [|b v] H; try discriminate; cbn; auto. Qed.
Lemma lb_zero m size : lb_ok m size (lbfgs_zero m size).
Proof.
  unfold lb_ok, lbfgs_zero; cbn. splits; try apply repeat_length; apply Forall_forall; intros v I; apply repeat_spec in I; subst; apply repeat_length.
Qed.
Lemma set_nth_Forall {A} (Q : A -> Prop) l n x : Forall Q l -> Q x -> Forall Q (set_nth l n x).
Proof. intros H Hx. revert n. induction H; intros [|n]; cbn; constructor; auto. Qed.
Lemma in_range i m : In i (py_range 0 (Z.of_nat m)) -> (i < m)%nat.
Proof.
  unfold py_range. destruct (Z.ltb_spec 0 (Z.of_nat m)); [|intros []]. intros I. apply in_map_iff in I. destruct I as (z & <- & I). apply in_map_iff in I. destruct I as (j & <- & I).
  apply in_seq in I. lia.
Qed.
Lemma range_empty m : py_range (Z.of_nat m - 1) (-1) = [].
Proof. unfold py_range. destruct (Z.ltb_spec (Z.of_nat m - 1) (-1)); [lia|reflexivity]. Qed.
Lemma nth_size m size L j : lb_ok m size L -> (j < m)%nat -> length (nth j (l_d L) []) = size /\ length (nth j (l_y L) []) = size.
Proof.
  intros (A & B & C & D) H. rewrite Forall_forall in C, D. split; [apply C|apply D]; apply nth_In; lia.
Qed.
Lemma second_loop_size k m n L size l : lb_ok m size L -> (forall i, In i l -> (i < m)%nat) -> m <> O -> forall sd, length sd = size ->
  length (fold_left (second_loop_body k m n L) l sd) = size.
Proof.
  intros LB Hl Hm. induction l as [|i l IH]; intros sd Hs; [exact Hs|]. cbn [fold_left]. apply IH; [intros; apply Hl; right; assumption|].
  unfold second_loop_body, ladd. set (j := if Nat.ltb k m then i else _).
  assert (J : (j < m)%nat). { unfold j. destruct (Nat.ltb k m); [apply Hl; left; reflexivity|apply Nat.mod_upper_bound, Hm]. }
  rewrite lmap2_length; [exact Hs|]. unfold lscale. rewrite map_length. rewrite Hs. apply (nth_size m size L j LB J).
Qed.
Lemma search_direction_size m size L k g prev L' k' sd : lb_ok m size L -> length g = size ->
  (forall lam pg psd, prev = Some (lam, pg, psd) -> length pg = size /\ length psd = size) ->
  search_direction m size L k g prev = Ret (L', k', sd) -> lb_ok m size L' /\ length sd = size.
Proof.
  intros LB Lg Hp H. unfold search_direction in H. destruct k as [|k]; destruct m as [|m]; try discriminate.
  - injection H as <- <- <-. split; [apply lb_zero|exact Lg].
  - destruct prev as [[[lam pg] psd]|]; [|discriminate]. destruct (Hp _ _ _ eq_refl) as [Lpg Lpsd].
    cbv zeta in H. destruct (Req_EM_T _ 0); [discriminate|]. destruct (Rlt_dec _ 0); [injection H as <- <- <-; split; [apply lb_zero|exact Lg]|].
    rewrite range_empty in H. cbn [fold_left] in H. injection H as <- <- <-. destruct LB as (A & B & C & D).
    assert (LB' : lb_ok (S m) size (mkL (set_nth (l_d L) (S k mod S m) (lscale lam psd)) (set_nth (l_y L) (S k mod S m) (lsub g pg))
        (set_nth (l_rho L) (S k mod S m) (1 / ldot (nth (S k mod S m) (set_nth (l_d L) (S k mod S m) (lscale lam psd)) []) (nth (S k mod S m) (set_nth (l_y L) (S k mod S m) (lsub g pg)) []))) (l_gamma L))).
    { unfold lb_ok. cbn [l_d l_y]. rewrite !set_nth_length. splits; auto; apply set_nth_Forall; auto.
      - unfold lscale. rewrite map_length. exact Lpsd.
      - unfold lsub. rewrite lmap2_length; congruence. }
    split; [exact LB'|]. apply second_loop_size; [exact LB'|exact (fun i => in_range i (S m))|discriminate|]. rewrite map_length. exact Lg.
Qed.

Lemma grad_antiferro_length E x v tq : grad_antiferro E x = Ret (v, tq) -> length v = (3 * length (removelast (fst x)) + 3)%nat.
Proof.
  unfold grad_antiferro, unpack. intros H. inv_bind H ts Hts. inv_bind H t Ht. injection H as <- <-.
  assert (Lt := torques_of_length _ _ _ _ Hts). unfold cone_layout, set_last. rewrite !set_nth_length, app_length, layout_order, order_length, Lt. unfold lzeros. rewrite repeat_length. lia.
Qed.
Lemma removelast_length {A} (l : list A) : length (removelast l) = (length l - 1)%nat.
Proof. rewrite removelast_firstn_len, firstn_length. lia. Qed.

Lemma antiferro_axis_stays mu st E a rnd ra q g ga fuel x h : optimize_antiferro mu st E a rnd ra q g ga fuel = Some (Ret (x, h)) ->
  exists s n v, starting_antiferro rnd ra (length (e_spins E)) q g ga = Ret (s ++ [n], v) /\ length s = length (e_spins E) /\
    exists s', x = (s' ++ [n], v) /\ length s' = length s.
Proof.
  intros H. assert (Hv := proj1 (antiferro_run_unit _ _ _ _ _ _ _ _ _ _ _ _ H)). destruct (optimize_inv _ _ _ _ _ _ _ H) as (x0 & te & ts & Hst0 & _ & Hrun).
  assert (Hst1 := Hst0). unfold starting_antiferro in Hst1. inv_bind Hst1 s Hs. inv_bind Hst1 n Hn. destruct q as [|v|]; try discriminate. injection Hst1 as <-.
  exists s, n, v. split; [exact Hst0|].
  unfold optimize_from in Hrun. destruct (opt_start _ _ _ _ _ _ _) as [s0|] eqn:S0; [|discriminate].
  assert (Ls : length s = length (e_spins E)).
  { unfold opt_start in S0. inv_bind S0 e He. clear - He. cbn [antiferro_problem p_energy] in He. unfold on_unpacked, unpack, cone_arg, e_antiferro, cone_energy in He. cbn [fst snd check_vector obind] in He.
    rewrite removelast_last in He. destruct (check_spins E (SRows s)) as [r|] eqn:C; [|discriminate]. destruct s; [discriminate|]. cbn [check_spins] in C.
    destruct (Nat.eqb_spec (length (e_spins E)) (length (v0 :: s))); [congruence|discriminate]. }
  split; [exact Ls|].
  set (P := antiferro_problem mu st E) in *.
  set (Inv := fun s1 : ost (list (V3 R) * V3 R) => (exists s', fst (o_x _ s1) = s' ++ [n] /\ length s' = length s /\ snd (o_x _ s1) = v) /\
     lb_ok (a_m a) (p_size P) (o_L _ s1) /\ (forall lam pg psd, o_prev _ s1 = Some (lam, pg, psd) -> length pg = p_size P /\ length psd = p_size P)).
  destruct (opt_loop_inv _ _ _ _ _ _ _ _ _ _ Inv _ _ _ _ Hrun) as (s1 & ((s' & A1 & A2 & A3) & _) & -> & _).
  - unfold opt_start in S0. inv_bind S0 e He. injection S0 as <-. unfold Inv. cbn [o_x o_L o_prev fst snd]. splits.
    + exists s. auto.
    + apply lb_zero.
    + discriminate.
  - intros s1 s2 ((s' & A1 & A2 & A3) & LB & Pr) _ St.
    destruct (opt_step_inv _ _ _ _ _ _ _ _ _ St) as (gv & tq & L & k & sd & step & t' & Hg & Hsd & Hst & Hup & Hen & Htg & Et & Ed & Ei & (EL & Ep & Ek) & Hsave).
    assert (Lg : length gv = p_size P).
    { cbn [P antiferro_problem p_grad] in Hg. apply grad_antiferro_length in Hg. rewrite Hg, A1, removelast_last, A2, Ls. reflexivity. }
    destruct (search_direction_size _ _ _ _ _ _ _ _ _ LB Lg Pr Hsd) as [LB' Lsd].
    unfold Inv. splits.
    + cbn [P antiferro_problem p_update] in Hup.
      assert (Ax := antiferro_axis _ _ _ _ ltac:(rewrite Lsd, A1, app_length, A2, Ls; cbn; lia) ltac:(rewrite A1, app_length; cbn; lia) Hup).
      unfold update_antiferro in Hup. inv_bind Hup r Hr. injection Hup as Hup. rewrite <- Hup in Ax |- *. cbn [fst snd] in *.
      assert (Lr : length r = (length s + 1)%nat).
      { assert (K := turn_rows_skip _ _ _ _ _ Hr). clear - Hr A1 A2. rewrite A1 in Hr. rewrite <- A2. replace (length s' + 1)%nat with (length (s' ++ [n])) by (rewrite app_length; reflexivity).
        unfold turn_by in Hr. revert Hr. generalize (map (fun a => a * step) (every3 (drop_last 3 sd))) (map (fun a => a * step) (every3 (tl (drop_last 3 sd)))) (map (fun a => a * step) (every3 (tl (tl (drop_last 3 sd))))) (s' ++ [n]).
        intros a. revert r. clear. induction a as [|a0 a IH]; intros r [|b0 b] [|c0 c] rows H; try discriminate; [injection H as <-; reflexivity|].
        destruct rows; [discriminate|]. cbn in H. inv_bind H r' Hr'. injection H as <-. cbn. f_equal. eauto. }
      rewrite A1, last_last in Ax. exists (removelast r). splits; auto.
      * rewrite <- Ax. apply app_removelast_last. destruct r; [cbn in Lr; lia|discriminate].
      * rewrite removelast_length. lia.
    + rewrite EL. exact LB'.
    + intros lam pg psd Hp. rewrite Ep in Hp. injection Hp as <- <- <-. auto.
  - exists s'. destruct (o_x _ s1) as [u w]. cbn in *. subst. auto.
Qed.

(** ** The second search direction *)
Lemma ldot_comm u v : ldot u v = ldot v u.
Proof. unfold ldot. f_equal. revert v. induction u; intros [|b v]; cbn; auto. rewrite IHu, Rmult_comm. reflexivity. Qed.
Lemma ldot_lscale_l c u v : ldot (lscale c u) v = c * ldot u v.
Proof. unfold ldot, lscale. revert v. induction u as [|a u IH]; intros [|b v]; cbn; try ring. rewrite IH. ring. Qed.
Lemma ldot_ladd_l u w v : length w = length u -> ldot (ladd u w) v = ldot u v + ldot w v.
Proof. unfold ldot, ladd. revert w v. induction u as [|a u IH]; intros [|b w] [|c v] L; try discriminate; cbn; try ring. rewrite IH by (cbn in L; lia). ring. Qed.
Lemma ldot_lsub_l u w v : length w = length u -> ldot (lsub u w) v = ldot u v - ldot w v.
Proof. unfold ldot, lsub. revert w v. induction u as [|a u IH]; intros [|b w] [|c v] L; try discriminate; cbn; try ring. rewrite IH by (cbn in L; lia). ring. Qed.
Lemma ldot_pos u : 0 <= ldot u u.
Proof. unfold ldot. induction u as [|a u IH]; cbn; [lra|]. nra. Qed.
Lemma ldot_lscale_r c u v : ldot u (lscale c v) = c * ldot u v.
Proof. rewrite ldot_comm, ldot_lscale_l, ldot_comm. reflexivity. Qed.
Lemma cauchy u v : length u = length v -> ldot u v * ldot u v <= ldot u u * ldot v v.
Proof.
  intros L. assert (Q := ldot_pos (lsub (lscale (ldot v v) u) (lscale (ldot u v) v))).
  assert (Lx : length (lscale (ldot u v) v) = length (lscale (ldot v v) u)) by (unfold lscale; rewrite !map_length; congruence).
  rewrite ldot_lsub_l in Q by exact Lx. rewrite !(ldot_comm _ (lsub _ _)), !ldot_lsub_l in Q by exact Lx. rewrite !ldot_lscale_l, !ldot_lscale_r, (ldot_comm v u) in Q.
  assert (V := ldot_pos v). assert (U := ldot_pos u). destruct (Req_dec (ldot v v) 0) as [Z|Z].
  - assert (W : ldot u v = 0).
    { clear - Z. unfold ldot in *. revert v Z. induction u as [|a u IH]; intros [|b v] Z; cbn in *; try reflexivity. assert (P := ldot_pos v). unfold ldot in P.
      assert (b = 0) by nra. assert (fold_right Rplus 0 (lmap2 Rmult v v) = 0) by nra. rewrite IH by assumption. subst. ring. }
    rewrite W, Z. lra.
  - assert (0 < ldot v v) by lra. assert (0 <= ldot v v * (ldot u u * ldot v v - ldot u v * ldot u v)) by lra.
    assert (0 <= ldot u u * ldot v v - ldot u v * ldot u v); [|lra]. apply Rnot_lt_le. intros N. nra.
Qed.
Lemma set_get {A} (l : list A) n x d : (n < length l)%nat -> nth n (set_nth l n x) d = x.
Proof. revert n. induction l; intros [|n] H; cbn in *; try lia; auto. apply IHl. lia. Qed.
Lemma set_other {A} (l : list A) n j x d : j <> n -> nth j (set_nth l n x) d = nth j l d.
Proof. revert n j. induction l; intros [|n] [|j] H; cbn; try congruence; auto. Qed.
Lemma nth_zeros m j : nth j (repeat 0 m) 0 = 0.
Proof. revert j. induction m; intros [|j]; cbn; auto. Qed.
Lemma ladd_zero sd k size : length sd = size -> ladd sd (lscale k (lzeros size)) = sd.
Proof. intros <-. unfold ladd, lscale, lzeros. induction sd; cbn; [reflexivity|]. rewrite IHsd. f_equal. ring. Qed.
Lemma ladd_lscale0 sd d : length d = length sd -> ladd sd (lscale 0 d) = sd.
Proof. unfold ladd, lscale. revert d. induction sd; intros [|b d] H; try discriminate; cbn; [reflexivity|]. rewrite IHsd by (cbn in H; lia). f_equal. ring. Qed.
Lemma range_split m : (2 <= m)%nat -> exists l, py_range 0 (Z.of_nat m) = 0%nat :: 1%nat :: l /\ forall i, In i l -> (i <> 1 /\ i < m)%nat.
Proof.
  intros H. unfold py_range. destruct (Z.ltb_spec 0 (Z.of_nat m)); [|lia]. rewrite Z.sub_0_r, Nat2Z.id. destruct m as [|[|m]]; try lia.
  exists (map Z.to_nat (map (fun i => (0 + Z.of_nat i)%Z) (seq 2 m))). split; [reflexivity|]. intros i I.
  apply in_map_iff in I. destruct I as (z & <- & I). apply in_map_iff in I. destruct I as (j & <- & I). apply in_seq in I. lia.
Qed.

(** The previous direction was the previous gradient [g0] (first step), the memory was empty. *)
Lemma second_direction m size lam g0 g1 L' k' sd : (2 <= m)%nat -> 0 < lam -> length g0 = size -> length g1 = size ->
  search_direction m size (lbfgs_zero m size) 1 g1 (Some (lam, g0, g0)) = Ret (L', k', sd) -> k' = 1%nat ->
  0 < ldot g0 (lsub g1 g0) /\ ldot g1 sd <= 0 /\ (ldot g1 sd = 0 -> ldot g0 g1 * ldot g0 g1 = ldot g0 g0 * ldot g1 g1).
Proof.
  intros Hm Hl L0 L1 H K. unfold search_direction in H. destruct m as [|m]; [lia|]. cbv zeta in H.
  rewrite Nat.mod_small in H by lia. cbn [lbfgs_zero l_d l_y l_rho l_gamma] in H.
  rewrite !set_get in H by (rewrite repeat_length; lia). rewrite ldot_lscale_l in H.
  set (y := lsub g1 g0) in *. assert (Ly : length y = size) by (unfold y, lsub; rewrite lmap2_length; congruence).
  destruct (Req_EM_T (lam * ldot g0 y) 0) as [|Nz]; [discriminate|].
  destruct (Rlt_dec (1 / (lam * ldot g0 y)) 0) as [|Np]; [injection H as _ <- _; discriminate|].
  assert (Pos : 0 < lam * ldot g0 y).
  { destruct (Rtotal_order (lam * ldot g0 y) 0) as [N|[N|N]]; [|contradiction|exact N]. exfalso. apply Np. unfold Rdiv. rewrite Rmult_1_l. apply Rinv_lt_0_compat, N. }
  assert (Pos' : 0 < ldot g0 y) by nra.
  rewrite range_empty in H. cbn [fold_left] in H.
  set (rho := 1 / (lam * ldot g0 y)) in *. set (sd0 := map (fun a => a / rho / lnorm y) g1) in *.
  assert (Ls0 : length sd0 = size) by (unfold sd0; rewrite map_length; exact L1).
  set (L := mkL (set_nth (repeat (lzeros size) (S m)) 1 (lscale lam g0)) (set_nth (repeat (lzeros size) (S m)) 1 y) (set_nth (repeat 0 (S m)) 1 rho) (repeat 0 (S m))) in *.
  assert (Z : forall l s, length s = size -> (forall i, In i l -> (i <> 1 /\ i < S m)%nat) -> fold_left (second_loop_body 1 (S m) 1 L) l s = s).
  { induction l as [|i l IH]; intros s Hs Hi; [reflexivity|]. cbn [fold_left]. destruct (Hi i (or_introl eq_refl)) as [N1 N2].
    assert (B : second_loop_body 1 (S m) 1 L s i = s).
    { unfold second_loop_body. replace (Nat.ltb 1 (S m)) with true by (symmetry; apply Nat.ltb_lt; lia). unfold L; cbn [l_d l_y l_rho l_gamma].
      rewrite !set_other by exact N1. rewrite !nth_zeros. rewrite (nth_indep (repeat (lzeros size) (S m)) [] (lzeros size)) by (rewrite repeat_length; lia).
      rewrite nth_repeat. apply ladd_zero, Hs. }
    rewrite B. apply IH; [exact Hs|]. intros j Ij. apply Hi. right. exact Ij. }
  destruct (range_split (S m) Hm) as (l & Er & Hr). rewrite Er in H. cbn [fold_left] in H.
  replace (second_loop_body 1 (S m) 1 L sd0 0) with sd0 in H by (symmetry; apply (Z [0%nat] sd0 Ls0); intros i [<-|[]]; lia).
  assert (B1 : second_loop_body 1 (S m) 1 L sd0 1 = ladd sd0 (lscale (0 - rho * ldot y sd0) (lscale lam g0))).
  { unfold second_loop_body. replace (Nat.ltb 1 (S m)) with true by (symmetry; apply Nat.ltb_lt; lia). unfold L; cbn [l_d l_y l_rho l_gamma].
    rewrite !set_get by (rewrite repeat_length; lia). rewrite nth_zeros. reflexivity. }
  rewrite B1 in H. rewrite Z in H; [|unfold ladd; rewrite lmap2_length; [exact Ls0|]; unfold lscale; rewrite !map_length; congruence|exact Hr].
  injection H as _ _ <-. split; [exact Pos'|].
  assert (Ny : 0 < lnorm y).
  { unfold lnorm. apply sqrt_lt_R0. destruct (Rle_lt_or_eq_dec 0 (ldot y y) (ldot_pos y)) as [P|E]; [exact P|]. exfalso.
    assert (C := cauchy g0 y ltac:(congruence)). rewrite <- E, Rmult_0_r in C. nra. }
  assert (Rp : 0 < rho) by (unfold rho, Rdiv; rewrite Rmult_1_l; apply Rinv_0_lt_compat, Pos).
  set (c := / (rho * lnorm y)). assert (Cp : 0 < c) by (unfold c; apply Rinv_0_lt_compat; nra).
  assert (S0 : sd0 = lscale c g1).
  { unfold sd0, lscale, c. apply map_ext. intros a. field. split; lra. }
  assert (Yg : ldot y g1 = ldot g1 g1 - ldot g0 g1) by (unfold y; apply ldot_lsub_l; congruence).
  assert (Yg0 : ldot g0 y = ldot g0 g1 - ldot g0 g0) by (rewrite ldot_comm; unfold y; rewrite ldot_lsub_l by congruence; rewrite (ldot_comm g1 g0); reflexivity).
  assert (V : ldot g1 (ladd sd0 (lscale (0 - rho * ldot y sd0) (lscale lam g0))) = c / ldot g0 y * (ldot g0 g1 * ldot g0 g1 - ldot g0 g0 * ldot g1 g1)).
  { rewrite (ldot_comm g1), ldot_ladd_l by (unfold lscale; rewrite !map_length; congruence). rewrite S0, !ldot_lscale_l, ldot_lscale_r, Yg. unfold rho.
    replace (ldot g1 g1) with (ldot g1 g1) by reflexivity.
    transitivity (c / ldot g0 y * (ldot g1 g1 * ldot g0 y - (ldot g1 g1 - ldot g0 g1) * ldot g0 g1)); [field; split; lra|]. rewrite Yg0. ring. }
  rewrite V. assert (CS := cauchy g0 g1 ltac:(congruence)). assert (Q : 0 < c / ldot g0 y) by (apply Rdiv_lt_0_compat; assumption). split; [nra|].
  intros E. apply Rmult_integral in E. destruct E; lra.
Qed.

(** ** Layout and update in the spiral case *)
Lemma spiral_layout E qg x v tq : grad_spiral E qg x = Ret (v, tq) ->
  exists ts t g, tq = ts ++ [t] /\ length ts = length (removelast (fst x)) /\ qg (removelast (fst x)) (last (fst x) vzero) (snd x) = Ret g /\
    v = gradient_order (ts ++ [t]) ++ [vx g; vy g; vz g].
Proof.
  unfold grad_spiral, unpack. intros H. inv_bind H ts Hts. inv_bind H t Ht. inv_bind H g Hg. injection H as <- <-.
  assert (Lt := torques_of_length _ _ _ _ Hts). exists ts, t, g. splits; auto.
  rewrite <- Lt. unfold cone_layout. match goal with |- context [lzeros ?n] => replace n with 6%nat by lia end. rewrite layout_order, order_app. cbn [gradient_order app lzeros repeat].
  rewrite set_last_app by (cbn [length]; lia). cbn [length Nat.sub set_nth].
  rewrite set_last_app by (cbn [length]; lia). cbn [length Nat.sub set_nth].
  rewrite set_last_app by (cbn [length]; lia). cbn [length Nat.sub set_nth].
  unfold drop_last. rewrite app_length, order_length. cbn [length]. replace (3 * length ts + 6 - 3)%nat with (length (gradient_order ts) + 3)%nat by (rewrite order_length; lia).
  rewrite firstn_app_2. cbn [firstn]. rewrite <- app_assoc. reflexivity.
Qed.
Lemma spiral_moves_q x a b c sd step y : update_spiral x (sd ++ [a; b; c]) step = Ret y -> snd y = vadd (snd x) (vscale step (mkV a b c)).
Proof.
  unfold update_spiral. intros H. inv_bind H r Hr. unfold take_last in H. rewrite app_length in H. cbn [length] in H.
  replace (length sd + 3 - 3)%nat with (length sd) in H by lia. rewrite skipn_app, skipn_all, Nat.sub_diag in H. cbn [skipn app] in H. injection H as <-. cbn [snd].
  f_equal. apply V3_ext; cbn; ring.
Qed.
(** Along its own gradient the spiral vector goes uphill. *)
Lemma q_ascent mu st E rows n q e : unit_rows rows -> dot n n = 1 -> e_spiral mu st E (SRows rows) (Some n) (Some q) = Ret e ->
  exists g f, q_gradient st E rows n q = Ret g /\ (forall s, e_spiral mu st E (SRows rows) (Some n) (Some (vadd q (vscale s g))) = Ret (f s)) /\ is_derive f 0 (dot g g).
Proof.
  intros U Hn H. destruct (q_gradient_derive mu st E rows n q vzero e U Hn H) as (g & _ & Hg & _).
  destruct (q_gradient_derive mu st E rows n q g e U Hn H) as (g' & f & Hg' & Hf & Hd). rewrite Hg in Hg'. injection Hg' as <-. exists g, f. auto.
Qed.

(** ** First step *)
Lemma first_step_descends mu st E rows m size L prev : 
  let ts := map (energy_torque mu st E rows) (seq 0 (length rows)) in let g := gradient_order ts in
  grad_ferro (fun s => Ret (total_energy mu st E s)) rows = Ret (g, ts) /\
  search_direction (S m) size L 0 g prev = Ret (lbfgs_zero (S m) size, O, g) /\
  (forall s, 0 < s -> (forall t, In t ts -> t = vzero \/ eps <= s * norm t) -> update_ferro rows g s = Ret (turn_all ts s rows)) /\
  is_derive (fun s => total_energy mu st E (turn_all ts s rows)) 0 (- sum_dot ts ts).
Proof.
  intros ts g. splits.
  - apply grad_exact.
  - reflexivity.
  - intros s Hs H. apply turn_by_all; auto. unfold ts. rewrite map_length, seq_length. reflexivity.
  - assert (Lt : length ts = length rows) by (unfold ts; rewrite map_length, seq_length; reflexivity). exact (energy_derive mu st E rows ts Lt).
Qed.

(** ** Parts of [run_result] and [line_search_ok] *)
Lemma run_stops {X} (P : problem X) m c1 c2 im save hs tol tols mx fuel x0 x h :
  optimize_from X P m c1 c2 im save hs tol tols mx fuel x0 = Some (Ret (x, h)) ->
  exists es e t, visits P x0 (es ++ [(e, t, x)]) /\ (forall z, mx = Some z -> (length es <= Z.to_nat z)%nat) /\
    (converged tol tols (es ++ [(e, t, x)]) \/ (es = [] /\ tol <= 0 /\ Forall (fun a => a <= 0) tols) \/ exists z, mx = Some z /\ length es = Z.to_nat z).
Proof.
  intros H. destruct (run_result _ _ _ _ _ _ _ _ _ _ _ _ _ _ H) as (es & e & t & V & B & C). exists es, e, t. splits; auto.
  destruct C as [[[C|C] _]|[C _]]; auto.
Qed.
Lemma run_history {X} (P : problem X) m c1 c2 im hs tol tols mx fuel x0 x h :
  optimize_from X P m c1 c2 im true hs tol tols mx fuel x0 = Some (Ret (x, h)) ->
  exists es e t, visits P x0 (es ++ [(e, t, x)]) /\
    (h = es ++ [(e, t, x)] \/
     (exists z, mx = Some z /\ length es = Z.to_nat z) /\ (hs = O /\ h = [] \/ h = firstn (written (length es) hs) (es ++ [(e, t, x)]))).
Proof.
  intros H. destruct (run_result _ _ _ _ _ _ _ _ _ _ _ _ _ _ H) as (es & e & t & V & B & C). exists es, e, t. split; [exact V|].
  destruct C as [[_ C]|[C D]]; auto.
Qed.
Lemma run_history_unlimited {X} (P : problem X) m c1 c2 im hs tol tols fuel x0 x h :
  optimize_from X P m c1 c2 im true hs tol tols None fuel x0 = Some (Ret (x, h)) ->
  exists es e t, visits P x0 (es ++ [(e, t, x)]) /\ h = es ++ [(e, t, x)].
Proof.
  intros H. destruct (run_history _ _ _ _ _ _ _ _ _ _ _ _ _ H) as (es & e & t & V & [C|[(z & C & _) _]]); [|discriminate]. exists es, e, t. auto.
Qed.
Lemma accepted_bound {X} (P : problem X) c1 c2 im x sd step x' : line_search X P c1 c2 im x sd = Ret step -> p_update P x sd step = Ret x' ->
  exists e e' g ts, p_energy P x = Ret e /\ p_energy P x' = Ret e' /\ p_grad P x = Ret (g, ts) /\ e' <= e + c1 * step * ldot g sd /\ 0 < step <= 1.
Proof.
  intros H Hu. destruct (line_search_ok _ _ _ _ _ _ _ H) as (e & g & ts & i & He & Hg & _ & Es & (x2 & e' & g' & ts' & Hx & He' & _ & B & _) & _).
  rewrite Hu in Hx. injection Hx as <-. exists e, e', g, ts. splits; auto; rewrite Es; apply step_range.
Qed.
