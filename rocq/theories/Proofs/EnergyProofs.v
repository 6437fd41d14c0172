(** Proofs about the energies of the class Energy (C21-C26). *)
From Coq Require Import List Bool ZArith Reals Lra Lia Permutation Ring Field.
From Coquelicot Require Import Coquelicot.
From Verif.Base Require Import Scalar ScalarR Linear3 PyDict.
From Verif.Model Require Import MatrixParam Hamiltonian History EnergyInit Energy.
From Verif.Spec Require Import HamSpec HistorySpec NotationSpec EnergySpec.
From Verif.Proofs Require Import DictProofs HamBasics HamSetters HamDouble HamDcEnergy NotationProofs HistoryProofs CallProofs FilterProofs FrameProofs HamGlue EnergyInitProofs.
Import ListNotations.

(** ** C21 *)
Section Init.
Context {F : Type} {SF : Scalar F}.
Notation world := (@world F).
Local Open Scope fld_scope.

Lemma init_atoms order (w : world) : (forall l, Permutation (order l) l) -> (forall a, carries w a -> spin_of w a <> None) ->
  exists atoms, magnetic_atoms order w = (w, Ret atoms) /\ (forall a, In a atoms -> spin_of w a <> None).
Proof.
  intros P S. destruct (magnetic_atoms_exact order w P) as (r & E & _ & _ & H). exists r. split; [exact E|]. intros a I. apply S, H, I.
Qed.

Lemma init_dc order g cell (w : world) sn ef of_ :
  (forall l, Permutation (order l) l) -> wf w /\ mirror_closed w -> notation_is w true sn ef of_ -> of_ <> 0 ->
  (forall a, carries w a -> spin_of w a <> None) ->
  exists w' E, energy_init order g cell w = (w', Ret E) /\ notation_is w' true sn ef of_ /\ same_parameters w w' /\
    h_atoms (w_ham w') = h_atoms (w_ham w) /\ h_spins (w_ham w') = h_spins (w_ham w).
Proof.
  intros P [W Hm] (N1 & N2 & N3 & N4) Hz S. destruct (init_atoms order w P S) as (atoms & Ea & Sa).
  destruct (energy_init_ok order g cell w atoms ef of_ true P W (fun _ => Hm) ltac:(discriminate) N1 N3 N4 Hz Ea Sa)
    as (w' & E & ro & re & EE & _ & B & W' & (R1 & R2 & R3 & R4 & R5 & R6 & R7) & D & V).
  exists w', E. splits; auto.
  - unfold notation_is. splits; congruence.
  - split; auto.
Qed.
Lemma init_no_dc order g cell (w : world) sn ef of_ :
  (forall l, Permutation (order l) l) -> wf w -> unshared w -> reciprocal_storage w false -> notation_is w false sn ef of_ -> of_ <> 0 ->
  (forall a, carries w a -> spin_of w a <> None) ->
  exists w' E, energy_init order g cell w = (w', Ret E) /\ notation_is w' false sn ef of_ /\ same_parameters w w' /\
    h_atoms (w_ham w') = h_atoms (w_ham w) /\ h_spins (w_ham w') = h_spins (w_ham w).
Proof.
  intros P W U (S1 & S2 & S3) (N1 & N2 & N3 & N4) Hz S. destruct (init_atoms order w P S) as (atoms & Ea & Sa).
  destruct (energy_init_ok order g cell w atoms ef of_ false P W ltac:(discriminate) (fun _ => U) N1 N3 N4 Hz Ea Sa)
    as (w' & E & ro & re & EE & _ & B & W' & (R1 & R2 & R3 & R4 & R5 & R6 & R7) & D & w1 & E1 & W1 & U1 & V1 & V).
  exists w', E. splits; auto.
  - unfold notation_is. splits; congruence.
  - split; auto. intros k. rewrite V.
    assert (B1 := mirrored_bonds w w1 _ W W1 V1).
    assert (Once : forall k, In k (bonds w) -> ~ In (mirror k) (bonds w)).
    { intros x I I'. assert (C := S3 x I). assert (C' := S3 _ I'). apply canonical_kept in C. apply canonical_kept in C'.
      exact (kept_mirror_absent w x S1 S2 I C C'). }
    unfold survives. destruct (dmem (h_exch (w_ham w)) (mirror k)) eqn:Em.
    + (* the mirror is stored *)
      assert (Im := Em). apply dmem_key in Im. fold (bonds w) in Im.
      assert (In (mirror k) (bonds w1)) as I1 by (apply B1; left; exact Im). apply dmem_key in I1. unfold bonds in I1. rewrite I1.
      assert (C := S3 _ Im). apply canonical_kept in C. rewrite C. cbn. symmetry. apply bond_value_absent; auto.
      intros I. exact (Once k I Im).
    + assert (Nm := Em). apply dmem_key_false in Nm. fold (bonds w) in Nm. unfold mirrored_value. rewrite Em.
      destruct (bond_value w k) as [J|] eqn:Ek; [|destruct (negb _); reflexivity].
      assert (I : In k (bonds w)) by (apply bond_value_stored; eauto).
      destruct (canonical (mirror k)) eqn:C'; [|rewrite Bool.andb_false_r; reflexivity].
      exfalso. assert (C := S3 k I). apply canonical_kept in C. exact (kept_mirror_absent w k S1 S2 I C C').
Qed.
End Init.

Local Open Scope R_scope.

(** ** Norms *)
Ltac rlin := lin3; cbn [fadd fmul fsub fopp fdiv finv f0 f1 R_Scalar].
Lemma dot_pos (v : V3 R) : 0 <= dot v v.
Proof. destruct v as [a b c]. rlin. assert (A := Rle_0_sqr a). assert (B := Rle_0_sqr b). assert (C := Rle_0_sqr c). unfold Rsqr in *. lra. Qed.
Lemma norm_sq (v : V3 R) : norm v * norm v = dot v v.
Proof. apply sqrt_sqrt, dot_pos. Qed.
Lemma norm_nonneg (v : V3 R) : 0 <= norm v. Proof. apply sqrt_pos. Qed.
Lemma dot_scale (c : R) v : dot (vscale c v) (vscale c v) = c * c * dot v v.
Proof. destruct v. rlin. ring. Qed.
Lemma norm_scale c (v : V3 R) : 0 <= c -> norm (vscale c v) = c * norm v.
Proof.
  intros H. unfold norm. rewrite dot_scale. rewrite sqrt_mult; [|apply Rle_0_sqr|apply dot_pos]. rewrite sqrt_square by exact H. reflexivity.
Qed.
Lemma unit_scale c (v : V3 R) : 0 < c -> norm v <> 0 -> unit (vscale c v) = unit v.
Proof.
  intros H N. unfold unit. rewrite norm_scale by lra. destruct v as [a b d]. cbn [vscale vmap vx vy vz fmul R_Scalar]. f_equal; field; split; auto; lra.
Qed.
Lemma norm_scale_zero c (v : V3 R) : 0 < c -> (norm (vscale c v) = 0 <-> norm v = 0).
Proof. intros H. rewrite norm_scale by lra. split; intros E; [apply Rmult_integral in E as [E|E]; [lra|exact E]|rewrite E; ring]. Qed.
Lemma direction_unit v u : direction v u -> norm v <> 0 /\ unit v = u.
Proof.
  intros (D & c & Hc & ->). assert (N1 : norm u = 1) by (unfold norm; rewrite D; apply sqrt_1).
  split; [rewrite norm_scale by lra; rewrite N1; lra|]. rewrite unit_scale by (auto; rewrite N1; lra).
  unfold unit. rewrite N1. destruct u; cbn. f_equal; field.
Qed.
Lemma unit_is_direction v : norm v <> 0 -> direction v (unit v).
Proof.
  intros N. assert (Q := norm_sq v). assert (P := norm_nonneg v). split.
  - assert (E : dot (unit v) (unit v) = dot v v / (norm v * norm v)) by (destruct v; unfold unit; rlin; field; exact N).
    rewrite E, <- Q. field. exact N.
  - exists (norm v). split; [lra|]. unfold unit. clear P Q. revert N. generalize (norm v). intros nv V. destruct v. apply V3_ext; rlin; field; exact V.
Qed.
Lemma normalize_all_ok rows us : Forall2 direction rows us -> normalize_all rows = Ret us.
Proof.
  induction 1 as [|v u rows us D _ IH]; [reflexivity|]. cbn [normalize_all]. destruct (direction_unit v u D) as [N E].
  destruct (Req_EM_T (norm v) 0); [contradiction|]. rewrite IH, E. reflexivity.
Qed.
Lemma normalize_all_inv rows us : normalize_all rows = Ret us -> Forall2 direction rows us.
Proof.
  revert us. induction rows as [|v rows IH]; cbn [normalize_all]; intros us E.
  - injection E as <-. constructor.
  - destruct (Req_EM_T (norm v) 0) as [|N]; [discriminate|]. destruct (normalize_all rows) as [r|e]; [|discriminate]. injection E as <-.
    constructor; [apply unit_is_direction, N|apply IH; reflexivity].
Qed.
Lemma normalize_all_stretched rows rows' : Forall2 stretched rows rows' -> normalize_all rows' = normalize_all rows.
Proof.
  induction 1 as [|v v' rows rows' (c & Hc & ->) _ IH]; [reflexivity|]. cbn [normalize_all]. rewrite IH.
  destruct (Req_EM_T (norm (vscale c v)) 0) as [E|E], (Req_EM_T (norm v) 0) as [E'|E']; try reflexivity.
  - apply norm_scale_zero in E; [contradiction|exact Hc].
  - exfalso. apply E, norm_scale_zero; assumption.
  - rewrite unit_scale by auto. reflexivity.
Qed.
Lemma normalize_stretched v v' : stretched v v' -> normalize v' = normalize v.
Proof.
  intros (c & Hc & ->). unfold normalize.
  destruct (Req_EM_T (norm (vscale c v)) 0) as [E|E], (Req_EM_T (norm v) 0) as [E'|E']; try reflexivity.
  - apply norm_scale_zero in E; [contradiction|exact Hc].
  - exfalso. apply E, norm_scale_zero; assumption.
  - rewrite unit_scale by auto. reflexivity.
Qed.
Lemma Forall2_len {A B} (P : A -> B -> Prop) l l' : Forall2 P l l' -> List.length l = List.length l'.
Proof. induction 1; cbn; congruence. Qed.
Lemma check_stretched (E : @energy_obj R) rows rows' : Forall2 stretched rows rows' ->
  check_spins E (SRows rows') = match check_spins E (SRows rows) with Ret _ => Ret rows' | Raise e => Raise e end.
Proof.
  intros H. destruct H as [|v v' t t' S H]; [reflexivity|]. cbn [check_spins]. cbn [List.length]. rewrite <- (Forall2_len _ _ _ H).
  destruct (Nat.eqb _ _); reflexivity.
Qed.

(** ** C24 *)
Lemma check_rows (E : @energy_obj R) rows r : check_spins E (SRows rows) = Ret r -> r = rows.
Proof. destruct rows; cbn [check_spins]; [discriminate|]. destruct (Nat.eqb _ _); [|discriminate]. congruence. Qed.
Lemma ferro_directions mu st E rows rows' : Forall2 stretched rows rows' -> e_ferro mu st E (SRows rows') = e_ferro mu st E (SRows rows).
Proof.
  intros H. unfold e_ferro. rewrite (check_stretched E _ _ H). destruct (check_spins E (SRows rows)) as [r|e] eqn:C; [|reflexivity]. cbn [obind].
  apply check_rows in C. subst r. rewrite (normalize_all_stretched _ _ H). reflexivity.
Qed.
Lemma cone_directions C mu st E rows rows' n n' q : Forall2 stretched rows rows' -> stretched n n' ->
  cone_energy C mu st E (SRows rows') (Some n') q = cone_energy C mu st E (SRows rows) (Some n) q.
Proof.
  intros H Hn. unfold cone_energy. cbn [check_vector obind]. destruct (check_vector q) as [q'|]; [|reflexivity]. cbn [obind].
  rewrite (check_stretched E _ _ H). destruct (check_spins E (SRows rows)) as [r|e] eqn:Ck; [|reflexivity]. cbn [obind].
  apply check_rows in Ck. subst r. rewrite (normalize_all_stretched _ _ H), (normalize_stretched _ _ Hn). reflexivity.
Qed.
Lemma vector_directions mu st E v v' : stretched v v' -> e_ferro mu st E (SVec v') = e_ferro mu st E (SVec v).
Proof.
  intros H. unfold e_ferro. cbn [check_spins]. destruct (Nat.eqb _ 1); [|reflexivity]. cbn [obind].
  rewrite (normalize_all_stretched [v] [v']) by (constructor; auto). reflexivity.
Qed.
Lemma cone_vector_directions C mu st E v v' n n' q : stretched v v' -> stretched n n' ->
  cone_energy C mu st E (SVec v') (Some n') q = cone_energy C mu st E (SVec v) (Some n) q.
Proof.
  intros H Hn. unfold cone_energy. cbn [check_vector obind]. destruct (check_vector q) as [q'|]; [|reflexivity]. cbn [obind check_spins].
  destruct (Nat.eqb _ 1); [|reflexivity]. cbn [obind].
  rewrite (normalize_all_stretched [v] [v']) by (constructor; auto). rewrite (normalize_stretched _ _ Hn). reflexivity.
Qed.

(** ** C22 *)
Lemma bonds_energy_store {F} {SF : Scalar F} (st st' : list (M3 F)) E C dirs :
  (forall l, In l (energy_objects E) -> nth_error st' l = nth_error st l) -> bonds_energy st' E C dirs = bonds_energy st E C dirs.
Proof.
  intros H. rewrite !bonds_energy_osum. f_equal. apply map_ext_in. intros [[[i j] d] l] I. unfold bond_energy.
  rewrite (H l) by (unfold energy_objects; apply (in_map (fun b : nat * nat * V3 F * loc => snd b) _ _ I)). reflexivity.
Qed.
Lemma ferro_store mu st st' E a : (forall l, In l (energy_objects E) -> nth_error st' l = nth_error st l) -> e_ferro mu st' E a = e_ferro mu st E a.
Proof. intros H. unfold e_ferro. destruct (check_spins E a); [|reflexivity]. cbn. destruct (normalize_all _); [|reflexivity]. cbn. rewrite (bonds_energy_store st st' E _ _ H). reflexivity. Qed.
Lemma cone_store C mu st st' E a n q : (forall l, In l (energy_objects E) -> nth_error st' l = nth_error st l) ->
  cone_energy C mu st' E a n q = cone_energy C mu st E a n q.
Proof.
  intros H. unfold cone_energy. destruct (check_vector n); [|reflexivity]. cbn [obind]. destruct (check_vector q); [|reflexivity]. cbn [obind].
  destruct (check_spins E a); [|reflexivity]. cbn [obind]. destruct (normalize_all _); [|reflexivity]. cbn [obind]. destruct (normalize _); [|reflexivity]. cbn [obind].
  rewrite (bonds_energy_store st st' E _ _ H). reflexivity.
Qed.

Lemma built_objects {F} {SF : Scalar F} atoms cell (w w' : @world F) E ef of_ ro re : built atoms cell w w' E ef of_ ro re ->
  energy_objects E = map snd (ro ++ re).
Proof.
  intros B. assert (H := bu_entries _ _ _ _ _ _ _ _ _ B). unfold energy_objects. clear B. induction H as [|kl b t r X _ IH]; [reflexivity|].
  cbn [map]. rewrite IH. f_equal. destruct b as [[[i j] d] l]. apply X.
Qed.

Lemma init_independent order g cell (w : @world R) sn ef of_ :
  (forall l, Permutation (order l) l) -> wf w /\ mirror_closed w -> notation_is w true sn ef of_ -> of_ <> 0 ->
  (forall a, carries w a -> spin_of w a <> None) ->
  exists w' E, energy_init order g cell w = (w', Ret E) /\ (forall l, In l (energy_objects E) -> ~ In l (in_use w')) /\
    forall ops, (forall o l, In o ops -> In l (mentions o) -> ~ In l (energy_objects E)) ->
    (forall mu H a, e_ferro mu (w_store (run ops w')) (set_field E H) a = e_ferro mu (w_store w') (set_field E H) a) /\
    (forall mu H a n q, e_antiferro mu (w_store (run ops w')) (set_field E H) a n q = e_antiferro mu (w_store w') (set_field E H) a n q) /\
    (forall mu H a n q, e_spiral mu (w_store (run ops w')) (set_field E H) a n q = e_spiral mu (w_store w') (set_field E H) a n q).
Proof.
  intros P [W Hm] (N1 & N2 & N3 & N4) Hz S. destruct (init_atoms order w P S) as (atoms & Ea & Sa).
  destruct (energy_init_ok order g cell w atoms ef of_ true P W (fun _ => Hm) ltac:(discriminate) N1 N3 N4 Hz Ea Sa)
    as (w' & E & ro & re & EE & _ & B & W' & (R1 & R2 & R3 & R4 & R5 & R6 & R7) & D & V).
  assert (Ob := built_objects _ _ _ _ _ _ _ _ _ B).
  assert (Free : forall l, In l (energy_objects E) -> ~ In l (in_use w')).
  { intros l I. rewrite Ob, map_app in I. apply in_app_or in I as [I|I]; apply in_map_iff in I as (kl & <- & I).
    - exact (bu_fresh_ro _ _ _ _ _ _ _ _ _ B kl I).
    - exact (bu_fresh_re _ _ _ _ _ _ _ _ _ B N1 kl I). }
  exists w', E. splits; auto. intros ops Hops.
  assert (Ap : apart (energy_objects E) w').
  { intros l I. split; [|exact (Free l I)]. rewrite Ob, map_app in I. apply in_app_or in I as [I|I].
    - assert (X := bu_ro_values _ _ _ _ _ _ _ _ _ B). apply in_map_iff in I as (kl & <- & I).
      assert (Y : In (nth_error (w_store w') (snd kl)) (map (fun kl => nth_error (w_store w') (snd kl)) ro)) by (apply (in_map (fun kl => nth_error (w_store w') (snd kl))); exact I).
      rewrite X in Y. apply in_map_iff in Y as (a & Y & Ia). apply nth_error_Some. intros Z. rewrite Z in Y.
      apply option_map_None in Y. apply (onsite_value_stored w a W) in Ia as [J Ia]. congruence.
    - apply in_map_iff in I as ([k l'] & <- & I). cbn. apply nth_error_Some. rewrite (bu_re_values _ _ _ _ _ _ _ _ _ B k l' I).
      assert (Ik : In k (map fst re)) by (apply in_map_iff; exists (k, l'); auto). apply (bu_re_keys _ _ _ _ _ _ _ _ _ B) in Ik.
      intros Z. unfold mirrored_value in Z. destruct (dmem (h_exch (w_ham w)) (mirror k)) eqn:Em.
      + apply option_map_None in Z. apply dmem_key in Em. apply (bond_value_stored w _ W) in Em as [J Em]. congruence.
      + apply dmem_key_false in Em. destruct Ik as [Ik|Ik]; [|exact (Em Ik)]. apply (bond_value_stored w _ W) in Ik as [J Ik]. congruence. }
  destruct (fr_run (energy_objects E) ops Hops w' Ap) as [_ Same].
  splits; intros.
  - apply ferro_store. exact Same.
  - apply cone_store. exact Same.
  - apply cone_store. exact Same.
Qed.

(** ** C23 *)
Lemma rows_directions (atoms : list atom) (u : atom -> V3 R) rows : Forall2 (fun a v => direction v (u a)) atoms rows -> Forall2 direction rows (map u atoms).
Proof. induction 1; constructor; auto. Qed.
Lemma ferro_of_bonds mu st E atoms (u : atom -> V3 R) rows x : e_field E = None -> atoms <> [] -> List.length (e_spins E) = List.length atoms ->
  Forall2 (fun a v => direction v (u a)) atoms rows -> bonds_energy st E (fun _ J => J) (map u atoms) = Some x ->
  e_ferro mu st E (SRows rows) = Ret x.
Proof.
  intros Hf Ha Hl H X. unfold e_ferro. assert (C : check_spins E (SRows rows) = Ret rows).
  { destruct H as [|a v t r D H]; [congruence|]. cbn [check_spins]. rewrite Hl. cbn [List.length]. rewrite (Forall2_len _ _ _ H), Nat.eqb_refl. reflexivity. }
  rewrite C. cbn [obind]. rewrite (normalize_all_ok _ _ (rows_directions _ _ _ H)). cbn [obind]. rewrite X. cbn [of_option obind].
  unfold zeeman. rewrite Hf. cbn. f_equal. ring.
Qed.
Lemma built_spins_length {F} {SF : Scalar F} atoms cell (w w' : @world F) E ef of_ ro re : built atoms cell w w' E ef of_ ro re ->
  List.length (e_spins E) = List.length atoms.
Proof. intros B. assert (H := f_equal (@List.length _) (bu_spins _ _ _ _ _ _ _ _ _ B)). rewrite !map_length in H. symmetry. exact H. Qed.

(** Value of [ferro] for every notation: [X] and [Y] are the exchange and the on-site sums with real spins. *)
Lemma ferro_value order g cell mu (w : @world R) dc sn ef of_ atoms u rows X Y :
  (forall l, Permutation (order l) l) -> wf w -> notation_is w dc sn ef of_ -> of_ <> 0 ->
  (if dc then mirror_closed w else unshared w /\ forall k, In k (bonds w) -> ~ In (mirror k) (bonds w)) ->
  magnetic_atoms order w = (w, Ret atoms) -> atoms <> [] -> (forall a, In a atoms -> spin_of w a <> None) ->
  Forall2 (fun a v => direction v (u a)) atoms rows ->
  osum (map (bond_term false w (1, 1, 1)%nat (ferro_config u)) (bonds w)) = Some X ->
  osum (map (site_term false w (1, 1, 1)%nat (ferro_config u)) (sites w)) = Some Y ->
  exists w' E, energy_init order g cell w = (w', Ret E) /\
    e_ferro mu (w_store w') E (SRows rows) = Ret ((if dc then 1 else 2) * ef * X + ef * ef / of_ * Y).
Proof.
  intros P W (N1 & N2 & N3 & N4) Hz Hs Ea Ne Sa Hr HX HY.
  destruct (energy_init_ok order g cell w atoms ef of_ dc P W ltac:(intros ->; exact Hs) ltac:(intros ->; apply Hs) N1 N3 N4 Hz Ea Sa)
    as (w' & E & ro & re & EE & _ & B & W' & _).
  exists w', E. split; [exact EE|].
  apply (ferro_of_bonds mu _ E atoms u rows _ (bu_field _ _ _ _ _ _ _ _ _ B) Ne (built_spins_length _ _ _ _ _ _ _ _ _ B) Hr).
  destruct dc.
  - rewrite (built_ferro_dc _ _ _ _ _ _ _ _ _ u X Y W B Hz Hs HX HY). f_equal. cbn. field. exact Hz.
  - rewrite (built_ferro_no_dc _ _ _ _ _ _ _ _ _ u X Y W B Hz (proj2 Hs) HX HY). f_equal. unfold f2; cbn. field. exact Hz.
Qed.
Lemma ferro_classical order g cell mu (w : @world R) ef of_ atoms u rows e :
  (forall l, Permutation (order l) l) -> wf w /\ mirror_closed w -> notation_is w true false ef of_ -> of_ <> 0 -> ef * ef = of_ * of_ ->
  magnetic_atoms order w = (w, Ret atoms) -> atoms <> [] -> (forall a, In a atoms -> spin_of w a <> None) ->
  Forall2 (fun a v => direction v (u a)) atoms rows -> energy w (1, 1, 1)%nat (ferro_config u) = Some e ->
  exists w' E, energy_init order g cell w = (w', Ret E) /\ e_ferro mu (w_store w') E (SRows rows) = Ret e.
Proof.
  intros P [W Hm] N Hz Hf Ea Ne Sa Hr He. unfold energy in He. assert (N' := N). destruct N' as (_ & N2 & N3 & N4). rewrite N2, N3, N4 in He.
  destruct (osum (map (bond_term false w _ _) (bonds w))) as [X|] eqn:EX; [|discriminate].
  destruct (osum (map (site_term false w _ _) (sites w))) as [Y|] eqn:EY; [|discriminate]. injection He as <-.
  destruct (ferro_value order g cell mu w true false ef of_ atoms u rows X Y P W N Hz Hm Ea Ne Sa Hr EX EY) as (w' & E & E1 & E2).
  exists w', E. split; [exact E1|]. rewrite E2, Hf. f_equal. cbn. field. exact Hz.
Qed.
