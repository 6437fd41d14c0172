(** The double_counting setter as a whole, and conservation of the classical energy. *)
From Coq Require Import List Bool ZArith Lia Permutation String.
From Coq Require Import Ring Field Field_theory Ring_theory.
From Verif.Base Require Import Scalar Linear3 PyDict.
From Verif.Model Require Import MatrixParam Hamiltonian.
From Verif.Spec Require Import HamSpec.
From Verif.Proofs Require Import DictProofs HamBasics HamSetters HamDouble.
Import ListNotations.

Section DcEnergy.
Context {F : Type} {SF : Scalar F}.
Add Field F_field : (@f_field F SF).
Notation world := (@world F).
Notation ham := (@ham F).
Notation M := (@M F).
Local Open Scope py_scope.
Local Open Scope fld_scope.

Definition dc_factor (old : option bool) (new : bool) : F :=
  match old, new with Some true, false => f2 | Some false, true => 1 / f2 | _, _ => 1 end.

(** The state after the first half of the setter (flag and scaling). *)
Definition dc_scaled (w : world) (new : bool) : world :=
  mkW (match h_dc (w_ham w), new with
       | Some true, false => apply_upds (w_store w) (upds (fun _ => mscale f2) (h_exch (w_ham w)))
       | Some false, true => apply_upds (w_store w) (upds (fun _ => mscale (1 / f2)) (h_exch (w_ham w)))
       | _, _ => w_store w end) (with_dc (w_ham w) new).

Lemma set_dc_split (w : world) new : wf w ->
  set_double_counting new w = (if new then ensure_dc else ensure_no_dc) (dc_scaled w new).
Proof.
  intros W. destruct w as [st h]. unfold set_double_counting. rewrite bind_gets. cbn [w_ham].
  rewrite (bind_val (put_dc new) _ (mkW st h) (mkW st (with_dc h new)) tt) by reflexivity.
  assert (W' : wf (mkW st (with_dc h new))) by exact W.
  unfold dc_scaled; cbn [w_store w_ham].
  destruct (h_dc h) as [[]|]; destruct new; try reflexivity.
  - rewrite (bind_val _ _ _ _ _ (scale_bonds_ok f2 _ W')). reflexivity.
  - rewrite (bind_val _ _ _ _ _ (scale_bonds_ok (1 / f2) _ W')). reflexivity.
Qed.

Lemma dc_scaled_wf (w : world) new : wf w -> wf (dc_scaled w new).
Proof.
  intros (A & B & C & D & E & G). unfold wf, dc_scaled, bonds, sites in *; cbn. splits; auto;
  destruct (h_dc (w_ham w)) as [[]|]; destruct new; try rewrite length_apply_upds; assumption.
Qed.
Lemma dc_scaled_bond (w : world) new k : (h_dc (w_ham w) = Some (negb new) -> unshared w) ->
  bond_value (dc_scaled w new) k = option_map (mscale (dc_factor (h_dc (w_ham w)) new)) (bond_value w k).
Proof.
  intros U. destruct w as [st h]. unfold dc_scaled, dc_factor; cbn [w_store w_ham] in *.
  assert (Hs : forall c, unshared (mkW st h) -> bond_value (mkW (apply_upds st (upds (fun _ => mscale c) (h_exch h))) (with_dc h new)) k
     = option_map (mscale c) (bond_value (mkW st h) k)).
  { intros c U'. rewrite <- (app_nil_r (upds _ _)).
    apply (bond_value_upds st h (with_dc h new) (fun _ => mscale c) (fun (_ : atom) m => m) []); [|reflexivity].
    cbn. rewrite app_nil_r. exact (NoDup_app_l _ _ U'). }
  destruct (h_dc h) as [[]|]; destruct new; try (symmetry; apply option_map_mscale_1); apply Hs, U; reflexivity.
Qed.
Lemma dc_scaled_onsite (w : world) new a : (h_dc (w_ham w) = Some (negb new) -> unshared w) ->
  onsite_value (dc_scaled w new) a = onsite_value w a.
Proof.
  intros U. destruct w as [st h]. unfold dc_scaled; cbn [w_store w_ham] in *.
  destruct (h_dc h) as [[]|]; destruct new; try reflexivity;
  apply (onsite_value_out st h (with_dc h _) (fun _ => mscale _)); try reflexivity; apply U; reflexivity.
Qed.
Lemma dc_scaled_mem (w : world) new k : dmem (h_exch (w_ham (dc_scaled w new))) k = dmem (h_exch (w_ham w)) k.
Proof. reflexivity. Qed.

Lemma same_rest_scaled (w w' : world) new : (h_dc (w_ham w) = Some (negb new) -> unshared w) ->
  same_rest (dc_scaled w new) w' -> same_rest w w'.
Proof.
  intros U (A & B & C & D & E & G & I). unfold same_rest. cbn in *. splits; auto.
  intros a. rewrite I. apply dc_scaled_onsite, U.
Qed.

Lemma mtrans_mscale c (m : M3 F) : mtrans (mscale c m) = mscale c (mtrans m).
Proof. destruct m; reflexivity. Qed.
Lemma mtrans_invol (m : M3 F) : mtrans (mtrans m) = m.
Proof. destruct m; reflexivity. Qed.

Lemma set_dc_true_ok (w : world) : wf w -> (h_dc (w_ham w) = Some false -> unshared w) ->
  exists w', set_double_counting true w = (w', Ret tt) /\ wf w' /\ (unshared w -> unshared w') /\ same_rest w w' /\
    h_dc (w_ham w') = Some true /\
    (forall k, bond_value w' k = option_map (mscale (dc_factor (h_dc (w_ham w)) true)) (mirrored_value w k)).
Proof.
  intros W U. rewrite (set_dc_split w true W).
  destruct (ensure_dc_ok (dc_scaled w true) (dc_scaled_wf w true W) eq_refl) as (w' & E & W' & U' & R & D & V).
  exists w'. splits; auto.
  - exact (same_rest_scaled w w' true U R).
  - intros k. rewrite V. unfold mirrored_value. rewrite !dc_scaled_mem, !dc_scaled_bond by exact U.
    destruct (dmem _ _); [|reflexivity]. destruct (bond_value w (mirror k)); cbn; [|reflexivity].
    reflexivity.
Qed.

Lemma set_dc_false_ok (w : world) : wf w -> (h_dc (w_ham w) = Some true -> unshared w) ->
  (forall k, In k (bonds w) -> canonical k = true \/ In (mirror k) (bonds w)) ->
  exists w', set_double_counting false w = (w', Ret tt) /\ wf w' /\ (unshared w -> unshared w') /\ same_rest w w' /\
    h_dc (w_ham w') = Some false /\
    (forall k, bond_value w' k =
       if survives w k then option_map (mscale (dc_factor (h_dc (w_ham w)) false)) (bond_value w k) else None).
Proof.
  intros W U Hc. rewrite (set_dc_split w false W).
  destruct (ensure_no_dc_ok (dc_scaled w false) (dc_scaled_wf w false W) eq_refl Hc) as (w' & E & W' & U' & R & D & V).
  exists w'. splits; auto.
  - exact (same_rest_scaled w w' false U R).
  - intros k. rewrite V. unfold survives. rewrite dc_scaled_mem, dc_scaled_bond by exact U. reflexivity.
Qed.

Lemma set_dc_false_fail (w : world) k : wf w -> In k (bonds w) -> canonical k = false -> ~ In (mirror k) (bonds w) ->
  set_double_counting false w = (dc_scaled w false, Raise TypeError).
Proof.
  intros W I C N. rewrite (set_dc_split w false W). apply (ensure_no_dc_fail _ k); auto.
Qed.

Lemma set_dc_false_inv (w w' : world) : wf w -> set_double_counting false w = (w', Ret tt) ->
  forall k, In k (bonds w) -> canonical k = true \/ In (mirror k) (bonds w).
Proof.
  intros W H k I. destruct (canonical k) eqn:C; [left; reflexivity|right].
  destruct (in_dec eq_dec (mirror k) (bonds w)) as [i|i]; [exact i|].
  rewrite (set_dc_false_fail w k W I C i) in H. discriminate.
Qed.

(** ** Reindexing the supercell *)
Lemma sum_upto_shift1 n (g : Z -> F) :
  sum_upto n (fun i => g (i + 1)%Z) + g 0%Z = sum_upto n g + g (Z.of_nat n).
Proof.
  induction n; cbn [sum_upto]; [reflexivity|].
  transitivity ((sum_upto n (fun i => g (i + 1)%Z) + g 0%Z) + g (Z.of_nat n + 1)%Z); [ring|].
  rewrite IHn. replace (Z.of_nat n + 1)%Z with (Z.of_nat (S n)) by lia. ring.
Qed.
Lemma sum_upto_shift n (g : Z -> F) (d : Z) : (forall i, g (i + Z.of_nat n)%Z = g i) ->
  sum_upto n (fun i => g (i + d)%Z) = sum_upto n g.
Proof.
  assert (H1 : forall g, (forall i, g (i + Z.of_nat n)%Z = g i) -> sum_upto n (fun i => g (i + 1)%Z) = sum_upto n g).
  { clear. intros g P. assert (E := sum_upto_shift1 n g). rewrite <- (P 0%Z) in E. cbn [Z.add] in E.
    transitivity (sum_upto n (fun i => g (i + 1)%Z) + g (Z.of_nat n) - g (Z.of_nat n)); [ring|]. rewrite E. ring. }
  assert (H2 : forall m g, (forall i, g (i + Z.of_nat n)%Z = g i) -> sum_upto n (fun i => g (i + Z.of_nat m)%Z) = sum_upto n g).
  { induction m; intros g0 P0.
    - apply sum_upto_ext; intros i. f_equal. lia.
    - transitivity (sum_upto n (fun i => (fun j => g0 (j + Z.of_nat m)%Z) (i + 1)%Z)).
      + apply sum_upto_ext; intros i. f_equal. lia.
      + rewrite (H1 (fun j => g0 (j + Z.of_nat m)%Z)); [apply IHm, P0|]. intros i. rewrite <- (P0 (i + Z.of_nat m)%Z). f_equal. lia. }
  intros P. destruct (Z_le_dec 0 d) as [L|L].
  - rewrite <- (H2 (Z.to_nat d) g P). apply sum_upto_ext; intros i. f_equal. lia.
  - rewrite <- (H2 (Z.to_nat (- d)) (fun i => g (i + d)%Z)).
    + apply sum_upto_ext; intros i. f_equal. lia.
    + intros i. rewrite <- (P (i + d)%Z). f_equal. lia.
Qed.
Lemma sum_box_shift L (g : cell3 -> F) (d : cell3) :
  (let '(n1, n2, n3) := L in forall r, g (cadd r (Z.of_nat n1, 0, 0)%Z) = g r /\
     g (cadd r (0, Z.of_nat n2, 0)%Z) = g r /\ g (cadd r (0, 0, Z.of_nat n3)%Z) = g r) ->
  sum_box L (fun r => g (cadd r d)) = sum_box L g.
Proof.
  destruct L as [[n1 n2] n3], d as [[d1 d2] d3]. intros P. cbn.
  assert (P1 : forall i j k, g (i + Z.of_nat n1, j, k)%Z = g (i, j, k)).
  { intros i j k. destruct (P (i, j, k)) as (A & _ & _). cbn in A. rewrite !Z.add_0_r in A. exact A. }
  assert (P2 : forall i j k, g (i, j + Z.of_nat n2, k)%Z = g (i, j, k)).
  { intros i j k. destruct (P (i, j, k)) as (_ & A & _). cbn in A. rewrite !Z.add_0_r in A. exact A. }
  assert (P3 : forall i j k, g (i, j, k + Z.of_nat n3)%Z = g (i, j, k)).
  { intros i j k. destruct (P (i, j, k)) as (_ & _ & A). cbn in A. rewrite !Z.add_0_r in A. exact A. }
  transitivity (sum_upto n1 (fun i => (fun i' => sum_upto n2 (fun j => sum_upto n3 (fun k => g (i', j, k)))) (i + d1)%Z)).
  - apply sum_upto_ext; intros i. cbn.
    transitivity (sum_upto n2 (fun j => (fun j' => sum_upto n3 (fun k => g ((i + d1)%Z, j', k))) (j + d2)%Z)).
    + apply sum_upto_ext; intros j. cbn. apply (sum_upto_shift n3 (fun k => g ((i + d1)%Z, (j + d2)%Z, k))). intros; apply P3.
    + apply (sum_upto_shift n2 (fun j' => sum_upto n3 (fun k => g ((i + d1)%Z, j', k)))). intros. apply sum_upto_ext; intros. apply P2.
  - apply (sum_upto_shift n1 (fun i' => sum_upto n2 (fun j => sum_upto n3 (fun k => g (i', j, k))))). intros. do 2 (apply sum_upto_ext; intros). apply P1.
Qed.

Lemma dot_mvec_trans (u v : V3 F) m : dot u (mvec (mtrans m) v) = dot v (mvec m u).
Proof. destruct u, v, m; lin3. ring. Qed.
Lemma cadd_comm x y z : cadd (cadd x y) z = cadd (cadd x z) y.
Proof. destruct x as [[? ?] ?], y as [[? ?] ?], z as [[? ?] ?]; cbn. f_equal; [f_equal|]; lia. Qed.
Lemma cadd_neg x y : cadd (cadd x y) (cneg y) = x.
Proof. destruct x as [[? ?] ?], y as [[? ?] ?]; cbn. f_equal; [f_equal|]; lia. Qed.

(** The mirrored bond with the transposed matrix is the same interaction. *)
Lemma pair_energy_mirror L (s : config) k J : periodic L s ->
  pair_energy L s (mirror k) (mtrans J) = pair_energy L s k J.
Proof.
  intros P. unfold pair_energy. destruct k as [a b c]; unfold mirror; cbn [b_from b_to b_cell].
  rewrite <- (sum_box_shift L (fun r => dot (s b r) (mvec (mtrans J) (s a (cadd r (cneg c))))) c).
  - apply sum_box_ext; intros r. rewrite dot_mvec_trans, cadd_neg. reflexivity.
  - destruct L as [[n1 n2] n3]. intros r. cbn in P.
    rewrite !(cadd_comm r _ (cneg c)).
    destruct (P b r) as (A1 & A2 & A3). destruct (P a (cadd r (cneg c))) as (B1 & B2 & B3).
    rewrite A1, A2, A3, B1, B2, B3. auto.
Qed.

(** ** Sums *)
Lemma osum_fsum {A} (t : A -> option F) (g : A -> F) l :
  (forall k, In k l -> t k = Some (g k)) -> osum (map t l) = Some (fsum (map g l)).
Proof.
  induction l as [|k l IH]; intros H; cbn; [reflexivity|].
  rewrite (H k (or_introl eq_refl)), IH; [reflexivity|]. intros; apply H; right; auto.
Qed.
Lemma osum_defined {A} (t : A -> option F) l X : osum (map t l) = Some X -> forall k, In k l -> exists v, t k = Some v.
Proof.
  revert X; induction l as [|k l IH]; intros X H q I; [destruct I|]. cbn in H.
  destruct (t k) eqn:E; [|discriminate]. destruct (osum (map t l)) eqn:E'; [|discriminate].
  destruct I as [<-|I]; eauto.
Qed.
Lemma fsum_nil : fsum (@nil F) = 0.
Proof. reflexivity. Qed.
Lemma fsum_cons (x : F) l : fsum (x :: l) = x + fsum l.
Proof. reflexivity. Qed.
Lemma fsum_perm (l l' : list F) : Permutation l l' -> fsum l = fsum l'.
Proof.
  induction 1; rewrite ?fsum_cons; auto; [f_equal; auto|ring|congruence].
Qed.
Lemma fsum_app (l l' : list F) : fsum (l ++ l') = fsum l + fsum l'.
Proof. induction l; cbn [app]; rewrite ?fsum_nil, ?fsum_cons; [ring|]. rewrite IHl. ring. Qed.
Lemma fsum_map_ext {A} (f g : A -> F) l : (forall x, In x l -> f x = g x) -> fsum (map f l) = fsum (map g l).
Proof. intros H. f_equal. apply map_ext_in. exact H. Qed.
Lemma fsum_map_scale {A} c (f : A -> F) l : fsum (map (fun x => c * f x) l) = c * fsum (map f l).
Proof. induction l; cbn [map]; rewrite ?fsum_nil, ?fsum_cons; [ring|]. rewrite IHl. ring. Qed.

Lemma NoDup_map_mirror l : NoDup l -> NoDup (map mirror l).
Proof.
  induction 1; cbn; constructor; auto. intros I. apply in_map_iff in I as (y & E & I). apply mirror_inj in E. congruence.
Qed.
Lemma NoDup_app_intro {A} (l l' : list A) : NoDup l -> NoDup l' -> (forall x, In x l -> ~ In x l') -> NoDup (l ++ l').
Proof.
  induction 1; cbn; intros N D; [exact N|]. constructor; [|apply IHNoDup; auto].
  intros I. apply in_app_or in I as [I|I]; [contradiction|]. apply (D x); [left; reflexivity|exact I].
Qed.

(** A list of bonds closed under mirroring, split into a half and its mirror image. *)
Lemma split_mirror (ks half : list bkey) : NoDup ks -> NoDup half ->
  (forall k, In k ks <-> In k half \/ In (mirror k) half) -> (forall k, In k half -> ~ In (mirror k) half) ->
  Permutation ks (half ++ map mirror half).
Proof.
  intros N Nh Hk Hd. apply NoDup_Permutation; [exact N| |].
  - apply NoDup_app_intro; [exact Nh|apply NoDup_map_mirror, Nh|].
    intros x I J. apply in_map_iff in J as (y & <- & J). apply (Hd _ J I).
  - intros x. rewrite Hk, in_app_iff, in_map_iff. split; intros [H|H]; auto.
    + right. exists (mirror x). rewrite mirror_invol. auto.
    + right. destruct H as (y & <- & H). rewrite mirror_invol. exact H.
Qed.

(** ** Energies as plain sums *)
Definition vdef (o : option (M3 F)) : M3 F := match o with Some m => m | None => mzero end.
Definition sdef (o : option F) : F := match o with Some m => m | None => 0 end.
Definition bond_weight (sn : bool) (w : world) k : F := sdef (slen sn (w_ham w) (b_from k)) * sdef (slen sn (w_ham w) (b_to k)).

Lemma spin_length_slen sn (w : world) a : spin_length sn w a = slen sn (w_ham w) a.
Proof. reflexivity. Qed.

Lemma bond_term_total sn (w : world) L s k v : bond_term sn w L s k = Some v ->
  v = bond_weight sn w k * pair_energy L s k (vdef (bond_value w k)).
Proof.
  unfold bond_term, bond_weight. rewrite !spin_length_slen.
  destruct (slen sn (w_ham w) (b_from k)); [|discriminate]. destruct (slen sn (w_ham w) (b_to k)); [|discriminate].
  destruct (bond_value w k); [|discriminate]. intros [= <-]. reflexivity.
Qed.
Lemma bond_term_defined sn (w : world) L s k : bond_term sn w L s k <> None <->
  slen sn (w_ham w) (b_from k) <> None /\ slen sn (w_ham w) (b_to k) <> None /\ bond_value w k <> None.
Proof.
  unfold bond_term. rewrite !spin_length_slen.
  destruct (slen sn (w_ham w) (b_from k)), (slen sn (w_ham w) (b_to k)), (bond_value w k); intuition congruence.
Qed.
Lemma bond_terms_sum sn (w : world) L s X : osum (map (bond_term sn w L s) (bonds w)) = Some X ->
  X = fsum (map (fun k => bond_weight sn w k * pair_energy L s k (vdef (bond_value w k))) (bonds w)).
Proof.
  intros H. assert (D := osum_defined _ _ _ H).
  rewrite (osum_fsum _ (fun k => bond_weight sn w k * pair_energy L s k (vdef (bond_value w k)))) in H.
  - injection H; auto.
  - intros k I. destruct (D k I) as [v E]. rewrite E. f_equal. apply bond_term_total in E. exact E.
Qed.

Lemma bond_weight_mirror sn (w : world) k : bond_weight sn w (mirror k) = bond_weight sn w k.
Proof. unfold bond_weight, mirror; cbn. ring. Qed.

(** Comparing the exchange sums of two states: [w2] lists [half] once with matrices twice those that
    [w1] lists for [half] and, transposed, for its mirror image. *)
Lemma exchange_sum_pairs sn (w1 w2 : world) L s half : periodic L s ->
  h_spins (w_ham w1) = h_spins (w_ham w2) ->
  NoDup (bonds w1) -> NoDup (bonds w2) -> NoDup half ->
  (forall k, In k (bonds w2) <-> In k half) ->
  (forall k, In k (bonds w1) <-> In k half \/ In (mirror k) half) -> (forall k, In k half -> ~ In (mirror k) half) ->
  (forall k, In k half -> vdef (bond_value w2 k) = mscale f2 (vdef (bond_value w1 k))) ->
  (forall k, In k half -> vdef (bond_value w1 (mirror k)) = mtrans (vdef (bond_value w1 k))) ->
  fsum (map (fun k => bond_weight sn w1 k * pair_energy L s k (vdef (bond_value w1 k))) (bonds w1)) =
  fsum (map (fun k => bond_weight sn w2 k * pair_energy L s k (vdef (bond_value w2 k))) (bonds w2)).
Proof.
  intros P Hs N1 N2 Nh H2 H1 Hd V2 V1.
  rewrite (fsum_perm _ _ (Permutation_map _ (split_mirror _ _ N1 Nh H1 Hd))).
  rewrite (fsum_perm _ _ (Permutation_map _ (NoDup_Permutation N2 Nh H2))).
  rewrite map_app, fsum_app, map_map.
  assert (W : forall k, bond_weight sn w2 k = bond_weight sn w1 k).
  { intros k. unfold bond_weight, slen. rewrite Hs. reflexivity. }
  rewrite (fsum_map_ext (fun x => bond_weight sn w1 (mirror x) * pair_energy L s (mirror x) (vdef (bond_value w1 (mirror x))))
             (fun x => bond_weight sn w1 x * pair_energy L s x (vdef (bond_value w1 x))) half).
  2:{ intros k I. rewrite (V1 k I), bond_weight_mirror, (pair_energy_mirror L s k _ P). reflexivity. }
  rewrite (fsum_map_ext (fun x => bond_weight sn w2 x * pair_energy L s x (vdef (bond_value w2 x)))
             (fun x => f2 * (bond_weight sn w1 x * pair_energy L s x (vdef (bond_value w1 x)))) half).
  2:{ intros k I. rewrite W, (V2 k I), pair_energy_scale. ring. }
  rewrite fsum_map_scale. unfold f2. ring.
Qed.

(** From equal exchange sums to equal energies, when only the exchange dictionary differs. *)
Lemma energy_from_exchange (w w' : world) L s E : same_rest w w' ->
  (forall sn X, h_sn (w_ham w) = Some sn -> osum (map (bond_term sn w L s) (bonds w)) = Some X ->
     osum (map (bond_term sn w' L s) (bonds w')) = Some X) ->
  energy w L s = Some E -> energy w' L s = Some E.
Proof.
  intros (R1 & R2 & R3 & R4 & R5 & R6 & R7) HX. unfold energy. rewrite R4, R5, R6.
  destruct (h_sn (w_ham w)) as [sn|] eqn:Esn; [|discriminate].
  destruct (h_ef (w_ham w)) as [ef|]; [|discriminate]. destruct (h_of (w_ham w)) as [of_|]; [|discriminate].
  destruct (osum (map (bond_term sn w L s) (bonds w))) as [X|] eqn:EX; [|discriminate].
  rewrite (HX sn X eq_refl EX).
  assert (osum (map (site_term sn w' L s) (sites w')) = osum (map (site_term sn w L s) (sites w))) as ->; [|auto].
  unfold sites. rewrite R1. f_equal. apply map_ext. intros a. unfold site_term, spin_length, spin_of. rewrite R3, R7. reflexivity.
Qed.

Lemma osum_bonds_intro sn (w : world) L s :
  (forall k, In k (bonds w) -> slen sn (w_ham w) (b_from k) <> None /\ slen sn (w_ham w) (b_to k) <> None) -> wf w ->
  osum (map (bond_term sn w L s) (bonds w)) =
  Some (fsum (map (fun k => bond_weight sn w k * pair_energy L s k (vdef (bond_value w k))) (bonds w))).
Proof.
  intros H W. apply osum_fsum. intros k I.
  destruct (bond_term sn w L s k) as [v|] eqn:E; [f_equal; eapply bond_term_total; eauto|].
  exfalso. apply (proj2 (bond_term_defined sn w L s k)); [|exact E].
  destruct (H k I). splits; auto. apply bond_value_stored in I as [J EJ]; [congruence|exact W].
Qed.

Lemma osum_bonds_spins sn (w : world) L s X : osum (map (bond_term sn w L s) (bonds w)) = Some X ->
  forall k, In k (bonds w) -> slen sn (w_ham w) (b_from k) <> None /\ slen sn (w_ham w) (b_to k) <> None.
Proof.
  intros H k I. destruct (osum_defined _ _ _ H k I) as [v E].
  destruct (proj1 (bond_term_defined sn w L s k)) as (A & B & _); [congruence|auto].
Qed.

(** ** Switching off *)
Lemma survives_bonds (w w' : world) c : wf w -> wf w' ->
  (forall k, bond_value w' k = if survives w k then option_map (mscale c) (bond_value w k) else None) ->
  forall k, In k (bonds w') <-> In k (bonds w) /\ survives w k = true.
Proof.
  intros W W' V k. rewrite (bond_value_stored w' k W'), (bond_value_stored w k W), V.
  destruct (survives w k); destruct (bond_value w k); cbn; split.
  all: try (intros [? ?]; discriminate). all: try (intros [[? ?] ?]; discriminate). all: eauto.
Qed.

Lemma survives_canonical (w : world) k : mirror_closed w -> (forall k, In k (bonds w) -> mirror k <> k) -> distinct_indices w ->
  In k (bonds w) -> (survives w k = true <-> canonical k = true).
Proof.
  intros Hm Hns Hd I. unfold survives. rewrite (proj2 (dmem_key _ _) (Hm k I)). cbn.
  split; intros H.
  - apply negb_true_iff in H. destruct (canonical_or k); congruence.
  - apply negb_true_iff. destruct (canonical (mirror k)) eqn:E; [|reflexivity]. exfalso.
    destruct (canonical_both k H E) as [A B]. apply (Hns k I), self_bond_iff. split; auto.
Qed.

Lemma set_dc_off_energy (w : world) L s : wf w -> unshared w -> h_dc (w_ham w) = Some true ->
  mirror_closed w -> reciprocal w -> (forall k, In k (bonds w) -> ~ self_bond k) -> distinct_indices w -> periodic L s ->
  exists w', set_double_counting false w = (w', Ret tt) /\ forall E, energy w L s = Some E -> energy w' L s = Some E.
Proof.
  intros W U D Hm Hr Hns Hd P.
  destruct (set_dc_false_ok w W (fun _ => U)) as (w' & Hset & W' & U' & R & D' & V).
  { intros k I. right. apply Hm, I. }
  exists w'. split; [exact Hset|]. intros E. apply energy_from_exchange; [exact R|]. intros sn X Esn HX.
  rewrite D in V. cbn [dc_factor] in V. assert (Hb := survives_bonds w w' f2 W W' V).
  assert (Hsp := osum_bonds_spins _ _ _ _ _ HX). rewrite (bond_terms_sum _ _ _ _ _ HX).
  assert (R' := R). destruct R' as (_ & _ & Rs & _).
  rewrite osum_bonds_intro; auto.
  2:{ intros k I. apply Hb in I as [I _]. unfold slen. rewrite Rs. apply (Hsp k I). }
  f_equal. symmetry. apply exchange_sum_pairs with (half := bonds w'); auto.
  - apply W.
  - apply W'.
  - apply W'.
  - reflexivity.
  - intros k. rewrite !Hb. split.
    + intros I. assert (I' := Hm k I). rewrite (survives_canonical w k), (survives_canonical w (mirror k)); auto.
      destruct (canonical_or k); auto.
    + intros [[I _]|[I _]]; [exact I|]. rewrite <- (mirror_invol k). apply Hm, I.
  - intros k. rewrite !Hb. intros [I1 S1] [I2 S2].
    apply (survives_canonical w k) in S1; auto. apply (survives_canonical w (mirror k)) in S2; auto.
    destruct (canonical_both k S1 S2) as [A B]. apply (Hns k I1), self_bond_iff. split; auto.
  - intros k I. apply Hb in I as [I S]. rewrite V, S. apply (bond_value_stored w k W) in I as [J ->]. reflexivity.
  - intros k I. apply Hb in I as [I S]. assert (I' := Hm k I).
    apply (bond_value_stored w k W) in I as [J EJ]. apply (bond_value_stored w _ W) in I' as [J' EJ'].
    rewrite EJ, EJ'. cbn. apply (Hr k); assumption.
Qed.

(** ** Switching on *)
Lemma mirrored_bonds (w w' : world) c : wf w -> wf w' ->
  (forall k, bond_value w' k = option_map (mscale c) (mirrored_value w k)) ->
  forall k, In k (bonds w') <-> In k (bonds w) \/ In (mirror k) (bonds w).
Proof.
  intros W W' V k. rewrite (bond_value_stored w' k W'), V. unfold mirrored_value.
  destruct (dmem _ (mirror k)) eqn:E.
  - apply dmem_key in E. assert (E' := E). apply (bond_value_stored w _ W) in E' as [J ->]. cbn. split; eauto.
  - apply dmem_key_false in E. rewrite (bond_value_stored w k W). fold (bonds w) in E. split.
    + intros [J H]. destruct (bond_value w k); [eauto|discriminate].
    + intros [[J ->]|H]; [eexists; reflexivity|contradiction].
Qed.

Lemma f2_half : f2 * (1 / f2) = (1 : F).
Proof. unfold f2. field. apply f_two. Qed.
Lemma mscale_mscale c d (m : M3 F) : mscale c (mscale d m) = mscale (c * d) m.
Proof. destruct m; lin3; f_equal; ring. Qed.

Lemma set_dc_on_energy (w : world) L s : wf w -> unshared w -> h_dc (w_ham w) = Some false ->
  (forall k, In k (bonds w) -> ~ In (mirror k) (bonds w)) -> periodic L s ->
  exists w', set_double_counting true w = (w', Ret tt) /\ forall E, energy w L s = Some E -> energy w' L s = Some E.
Proof.
  intros W U D Hone P.
  destruct (set_dc_true_ok w W (fun _ => U)) as (w' & Hset & W' & U' & R & D' & V).
  exists w'. split; [exact Hset|]. intros E. apply energy_from_exchange; [exact R|]. intros sn X Esn HX.
  rewrite D in V. cbn [dc_factor] in V. assert (Hb := mirrored_bonds w w' (1 / f2) W W' V).
  assert (Hsp := osum_bonds_spins _ _ _ _ _ HX). rewrite (bond_terms_sum _ _ _ _ _ HX).
  assert (R' := R). destruct R' as (_ & _ & Rs & _).
  rewrite osum_bonds_intro; auto.
  2:{ intros k I. apply Hb in I as [I|I]; unfold slen; rewrite Rs; destruct (Hsp _ I); auto. }
  assert (V1 : forall k, In k (bonds w) -> bond_value w' k = option_map (mscale (1 / f2)) (bond_value w k)).
  { intros k I. rewrite V. unfold mirrored_value. rewrite (proj2 (dmem_key_false _ _) (Hone k I)). reflexivity. }
  assert (V2 : forall k, In k (bonds w) -> bond_value w' (mirror k) = option_map (mscale (1 / f2)) (option_map mtrans (bond_value w k))).
  { intros k I. rewrite V. unfold mirrored_value. rewrite mirror_invol. rewrite (proj2 (dmem_key _ _) I). reflexivity. }
  f_equal. apply exchange_sum_pairs with (half := bonds w); auto; try apply W; try apply W'.
  - reflexivity.
  - intros k I. rewrite (V1 k I). apply (bond_value_stored w k W) in I as [J ->]. cbn.
    rewrite mscale_mscale, f2_half, mscale_1. reflexivity.
  - intros k I. rewrite (V1 k I), (V2 k I). apply (bond_value_stored w k W) in I as [J ->]. cbn.
    symmetry. apply mtrans_mscale.
Qed.

End DcEnergy.
