(** Proofs for C17 (filter), C19 (magnetic_atoms) and C20 (exchange_like). *)
From Coq Require Import List Bool ZArith String Lia Permutation Sorted.
From Coq Require Import Ring Field Field_theory Ring_theory.
From Verif.Base Require Import Scalar Linear3 PyDict.
From Verif.Model Require Import MatrixParam Hamiltonian History.
From Verif.Spec Require Import HamSpec HistorySpec NotationSpec.
From Verif.Proofs Require Import DictProofs HamBasics HamSetters HamDouble HamDcEnergy NotationProofs HistoryProofs CallProofs.
Import ListNotations.
Local Open Scope fld_scope.
Local Open Scope py_scope.

Section FilterProofs.
Context {F : Type} {SF : Scalar F}.
Add Field F_field : (@f_field F SF).
Notation ham := (@ham F).
Notation world := (@world F).
Notation M := (@M F).

Definition quiet (i : item) : M unit := try_catch (delitem i) is_key_error (ret tt).

Lemma quiet_out i (w : world) : Inv w -> quiet i w = (fst (delitem i w), Ret tt).
Proof.
  intros I. unfold quiet, try_catch. destruct (delitem i w) as [w1 [[]|e]] eqn:E; [reflexivity|].
  rewrite (delitem_raises_key i w w1 e I E). reflexivity.
Qed.

(** [w'] is [w] without the bonds of [D] and the on-site parameters of [E]. *)
Definition trimmed (w w' : world) (D : bkey -> Prop) (E : atom -> Prop) : Prop :=
  Inv w' /\ h_dc (w_ham w') = h_dc (w_ham w) /\
  (forall k, In k (bonds w') <-> In k (bonds w) /\ ~ D k) /\ (forall a, In a (sites w') <-> In a (sites w) /\ ~ E a) /\
  (forall k, In k (bonds w') -> bond_value w' k = bond_value w k) /\ (forall a, In a (sites w') -> onsite_value w' a = onsite_value w a).

Definition hits (dc : option bool) (i : item) (k : bkey) : Prop := i = IBond k \/ (dc = Some true /\ i = IBond (mirror k)).

Lemma quiet_trim i (w : world) : Inv w ->
  exists w', quiet i w = (w', Ret tt) /\ trimmed w w' (fun k => hits (h_dc (w_ham w)) i k) (fun a => i = IAtom a).
Proof.
  intros I. exists (fst (delitem i w)). split; [apply quiet_out, I|]. assert (I' := Inv_delitem i w I).
  destruct w as [st h]. destruct i as [k0|a0].
  - cbn [delitem] in *. destruct (remove_bond_out st h k0 true) as [(_ & X & E)|[_ E]]; [apply I| |]; rewrite E in *; cbn [fst] in *; unfold trimmed.
    + splits; auto; [|split; [intros; split; [assumption|discriminate]|tauto]]. intros k. split; [|tauto]. intros J. split; [exact J|].
      intros [[= <-]|[Dc [= Y]]]; [contradiction|]. apply X. rewrite Y. apply I; auto.
    + assert (Nd : NoDup (dkeys (h_exch h))) by apply I.
      assert (K := delete_bond_keys h k0 Nd). destruct (delete_removed st h k0 Nd) as (R1 & R2 & R3 & R4).
      splits; auto; [| |].
      * intros k. unfold bonds; cbn [w_ham]. rewrite K. unfold hits. split.
        -- intros (A & B & C). split; [exact A|]. intros [[= <-]|[Dc [= Y]]]; [congruence|]. apply (C Dc). rewrite Y. symmetry; apply mirror_invol.
        -- intros (A & B). splits; [exact A|intros ->; apply B; auto|]. intros Dc ->. apply B. right. rewrite mirror_invol. auto.
      * intros a. split; [intros J; split; [exact J|discriminate]|intros [J _]; exact J].
      * intros k J. apply K in J as (A & B & C). destruct (eq_dec k (mirror k0)) as [->|N3]; [|apply R2; auto].
        rewrite R3 by congruence. cbn [w_ham]. destruct (h_dc h) as [[]|]; auto. exfalso. apply C; reflexivity.
  - cbn [delitem remove_on_site] in *. rewrite bind_gets in *. cbn [w_ham] in *. destruct (dmem (h_ons h) a0) eqn:E; cbn [fst] in *; unfold trimmed.
    + change (set_ons (ddel (h_ons h) a0) (mkW st h)) with (mkW st (with_ons h (ddel (h_ons h) a0)), Ret tt) in *. cbn [fst] in *.
      assert (Nd : NoDup (dkeys (h_ons h))) by apply I. splits; auto.
      * intros k. split; [intros J; split; [exact J|]|tauto]. intros [?|[_ ?]]; discriminate.
      * intros a. unfold sites; cbn [w_ham with_ons h_ons]. rewrite (dkeys_ddel _ _ Nd). intuition congruence.
      * intros a J. unfold onsite_value; cbn [w_ham w_store with_ons h_ons]. rewrite (dget_ddel _ _ _ Nd).
        apply (dkeys_ddel _ _ Nd) in J as [J _]. destruct (eq_dec a a0); [contradiction|reflexivity].
    + cbn [raise fst] in *. apply dmem_key_false in E. splits; auto.
      * intros k. split; [intros J; split; [exact J|]|tauto]. intros [?|[_ ?]]; discriminate.
      * intros a. split; [|tauto]. intros J; split; [exact J|]. intros [= <-]. contradiction.
Qed.

Lemma quiet_all items : forall w : world, Inv w ->
  exists w', for_each items quiet w = (w', Ret tt) /\
    trimmed w w' (fun k => exists i, In i items /\ hits (h_dc (w_ham w)) i k) (fun a => In (IAtom a) items).
Proof.
  induction items as [|i items IH]; intros w I.
  - exists w. split; [reflexivity|]. unfold trimmed. splits; auto; intros; split; try tauto; intros J; split; auto. intros (i & [] & _).
  - destruct (quiet_trim i w I) as (w1 & E1 & I1 & D1 & B1 & S1 & V1 & O1).
    destruct (IH w1 I1) as (w2 & E2 & I2 & D2 & B2 & S2 & V2 & O2). exists w2. split.
    { cbn [for_each]. rewrite (bind_val _ _ _ _ _ E1). exact E2. }
    rewrite D1 in *. unfold trimmed. splits; auto.
    + intros k. rewrite B2, B1. split.
      * intros [[A B] C]. split; [exact A|]. intros (j & [<-|J] & H); [contradiction|]. apply C. eauto.
      * intros [A B]. splits; [exact A| |]; [intros H; apply B; exists i; split; [left; reflexivity|exact H]|].
        intros (j & J & H). apply B. exists j. split; [right; exact J|exact H].
    + intros a. rewrite S2, S1. cbn [In]. intuition congruence.
    + intros k J. rewrite V2 by exact J. apply V1, B2, J.
    + intros a J. rewrite O2 by exact J. apply O1, S2, J.
Qed.

(** The collected removal set. *)
Lemma collect_bonds_ok dist maxd mind custom (w : world) items : (forall k l, In (k, l) items -> (l < List.length (w_store w))%nat) ->
  exists r, collect_filter_bonds dist maxd mind custom items w = (w, Ret r) /\
    forall i, In i r <-> exists k l m, In (k, l) items /\ nth_error (w_store w) l = Some m /\ drop_bond dist maxd mind custom k m = true /\ i = IBond k.
Proof.
  induction items as [|[k l] t IH]; intros L; cbn [collect_filter_bonds].
  - exists []. split; [reflexivity|]. intros i. split; [intros []|intros (? & ? & ? & [] & _)].
  - destruct IH as (r & Er & Hr); [intros; eapply L; right; eauto|].
    destruct (nth_error_lt (w_store w) l (L k l (or_introl eq_refl))) as [m Em].
    assert (Erd : read l w = (w, Ret m)) by (unfold read; rewrite Em; reflexivity).
    rewrite (bind_val _ _ _ _ _ Erd), (bind_val _ _ _ _ _ Er). eexists. split; [reflexivity|]. intros i.
    destruct (drop_bond dist maxd mind custom k m) eqn:Ed; cbn [In]; rewrite Hr; split.
    + intros [<-|(k' & l' & m' & J & H)]; [exists k, l, m; auto|exists k', l', m'; auto].
    + intros (k' & l' & m' & [[= <- <-]|J] & H1 & H2 & H3); [left; congruence|right; exists k', l', m'; auto].
    + intros (k' & l' & m' & J & H). exists k', l', m'. auto.
    + intros (k' & l' & m' & [[= <- <-]|J] & H1 & H2 & H3); [congruence|exists k', l', m'; auto].
Qed.
Lemma collect_onsite_ok mind custom (w : world) items : (forall k l, In (k, l) items -> (l < List.length (w_store w))%nat) ->
  exists r, @collect_filter_onsite F SF mind custom items w = (w, Ret r) /\
    forall i, In i r <-> exists k l m, In (k, l) items /\ nth_error (w_store w) l = Some m /\ drop_onsite mind custom m = true /\ i = IAtom k.
Proof.
  induction items as [|[k l] t IH]; intros L; cbn [collect_filter_onsite].
  - exists []. split; [reflexivity|]. intros i. split; [intros []|intros (? & ? & ? & [] & _)].
  - destruct IH as (r & Er & Hr); [intros; eapply L; right; eauto|].
    destruct (nth_error_lt (w_store w) l (L k l (or_introl eq_refl))) as [m Em].
    assert (Erd : read l w = (w, Ret m)) by (unfold read; rewrite Em; reflexivity).
    rewrite (bind_val _ _ _ _ _ Erd), (bind_val _ _ _ _ _ Er). eexists. split; [reflexivity|]. intros i.
    destruct (drop_onsite mind custom m) eqn:Ed; cbn [In]; rewrite Hr; split.
    + intros [<-|(k' & l' & m' & J & H)]; [exists k, l, m; auto|exists k', l', m'; auto].
    + intros (k' & l' & m' & [[= <- <-]|J] & H1 & H2 & H3); [left; congruence|right; exists k', l', m'; auto].
    + intros (k' & l' & m' & J & H). exists k', l', m'. auto.
    + intros (k' & l' & m' & [[= <- <-]|J] & H1 & H2 & H3); [congruence|exists k', l', m'; auto].
Qed.
Lemma drop_bond_meets dist maxd mind custom (w : world) k m : bond_value w k = Some m ->
  (drop_bond dist maxd mind custom k m = false <-> meets dist maxd mind custom w k).
Proof.
  intros E. unfold drop_bond, meets. rewrite !orb_false_iff. split.
  - intros [[A B] C]. splits; [intros x ->; exact A|intros x ->; exact B|]. intros f J -> H. apply negb_false_iff. congruence.
  - intros (A & B & C). splits; [destruct maxd; auto|destruct mind; auto|]. destruct custom as [f|]; [|reflexivity]. apply negb_false_iff. apply (C f); auto.
Qed.
Lemma drop_onsite_meets mind custom (w : world) a m : onsite_value w a = Some m ->
  (drop_onsite mind custom m = false <-> meets_onsite mind custom w a).
Proof.
  intros E. unfold drop_onsite, meets_onsite. rewrite !orb_false_iff. split.
  - intros [B C]. splits; [intros x ->; exact B|]. intros f J -> H. apply negb_false_iff. congruence.
  - intros (B & C). splits; [destruct mind; auto|]. destruct custom as [f|]; [|reflexivity]. apply negb_false_iff. apply (C f); auto.
Qed.

Lemma removal_set dist maxd mind custom (w : world) : Inv w ->
  exists r1 r2, collect_filter_bonds dist maxd mind custom (h_exch (w_ham w)) w = (w, Ret r1) /\
    collect_filter_onsite mind custom (h_ons (w_ham w)) w = (w, Ret r2) /\
    (forall k, In (IBond k) (r1 ++ r2) <-> In k (bonds w) /\ ~ meets dist maxd mind custom w k) /\
    (forall a, In (IAtom a) (r1 ++ r2) <-> In a (sites w) /\ ~ meets_onsite mind custom w a).
Proof.
  intros [(N1 & N2 & W3 & W4 & _) _].
  destruct (collect_bonds_ok dist maxd mind custom w (h_exch (w_ham w)) W3) as (r1 & E1 & H1).
  destruct (collect_onsite_ok mind custom w (h_ons (w_ham w)) W4) as (r2 & E2 & H2). exists r1, r2. splits; auto.
  - intros k. rewrite in_app_iff, H1, H2. split.
    + intros [(k' & l & m & J & Em & D & [= <-])|(k' & l & m & _ & _ & _ & ?)]; [|discriminate].
      assert (V : bond_value w k = Some m) by (unfold bond_value; rewrite (In_dget _ _ _ N1 J); exact Em).
      split; [apply in_map_iff; exists (k, l); auto|]. intros X. apply (drop_bond_meets dist maxd mind custom w k m V) in X. congruence.
    + intros [J X]. left. destruct (key_entry (h_exch (w_ham w)) k J) as [l Jl]. destruct (nth_error_lt _ _ (W3 _ _ Jl)) as [m Em].
      assert (V : bond_value w k = Some m) by (unfold bond_value; rewrite (In_dget _ _ _ N1 Jl); exact Em).
      exists k, l, m. splits; auto. destruct (drop_bond dist maxd mind custom k m) eqn:D; [reflexivity|].
      exfalso. apply X. apply (drop_bond_meets dist maxd mind custom w k m V), D.
  - intros k. rewrite in_app_iff, H1, H2. split.
    + intros [(k' & l & m & _ & _ & _ & ?)|(k' & l & m & J & Em & D & [= <-])]; [discriminate|].
      assert (V : onsite_value w k = Some m) by (unfold onsite_value; rewrite (In_dget _ _ _ N2 J); exact Em).
      split; [apply in_map_iff; exists (k, l); auto|]. intros X. apply (drop_onsite_meets mind custom w k m V) in X. congruence.
    + intros [J X]. right. destruct (key_entry (h_ons (w_ham w)) k J) as [l Jl]. destruct (nth_error_lt _ _ (W4 _ _ Jl)) as [m Em].
      assert (V : onsite_value w k = Some m) by (unfold onsite_value; rewrite (In_dget _ _ _ N2 Jl); exact Em).
      exists k, l, m. splits; auto. destruct (drop_onsite mind custom m) eqn:D; [reflexivity|].
      exfalso. apply X. apply (drop_onsite_meets mind custom w k m V), D.
Qed.

Section Order.
Variables (dist : bkey -> F) (order : list item -> list item) (maxd mind : option F) (custom : option (M3 F -> bool)).
Hypothesis Hord : forall l, Permutation (order l) l.

Lemma meets_dec (w : world) k : In k (bonds w) -> wf w -> meets dist maxd mind custom w k \/ ~ meets dist maxd mind custom w k.
Proof.
  intros I W. apply (bond_value_stored w k W) in I as [J E]. destruct (drop_bond dist maxd mind custom k J) eqn:D.
  - right. intros X. apply (drop_bond_meets dist maxd mind custom w k J E) in X. congruence.
  - left. apply (drop_bond_meets dist maxd mind custom w k J E), D.
Qed.
Lemma meets_onsite_dec (w : world) a : In a (sites w) -> wf w -> meets_onsite mind custom w a \/ ~ meets_onsite mind custom w a.
Proof.
  intros I W. apply (onsite_value_stored w a W) in I as [J E]. destruct (drop_onsite mind custom J) eqn:D.
  - right. intros X. apply (drop_onsite_meets mind custom w a J E) in X. congruence.
  - left. apply (drop_onsite_meets mind custom w a J E), D.
Qed.

Lemma filter_exact (w : world) : Inv w ->
  exists w', h_filter dist order maxd mind custom w = (w', Ret tt) /\ Inv w' /\ h_dc (w_ham w') = h_dc (w_ham w) /\
    (forall k, In k (bonds w') <-> In k (bonds w) /\ meets dist maxd mind custom w k /\
                 (h_dc (w_ham w) = Some true -> meets dist maxd mind custom w (mirror k))) /\
    (forall a, In a (sites w') <-> In a (sites w) /\ meets_onsite mind custom w a) /\
    (forall k, In k (bonds w') -> bond_value w' k = bond_value w k) /\ (forall a, In a (sites w') -> onsite_value w' a = onsite_value w a).
Proof.
  intros I. destruct (removal_set dist maxd mind custom w I) as (r1 & r2 & E1 & E2 & Hb & Hs).
  destruct (quiet_all (order (nodup eq_dec (r1 ++ r2))) w I) as (w' & E & I' & D & B & S & V & O).
  exists w'. unfold h_filter. rewrite bind_gets, (bind_val _ _ _ _ _ E1), bind_gets, (bind_val _ _ _ _ _ E2). splits; auto.
  - assert (Hi : forall i, In i (order (nodup eq_dec (r1 ++ r2))) <-> In i (r1 ++ r2)).
    { intros i. rewrite <- (nodup_In eq_dec (r1 ++ r2)). split; apply Permutation_in; [|apply Permutation_sym]; apply Hord. }
    intros k. rewrite B. split.
    + intros [Ik N]. assert (M1 : meets dist maxd mind custom w k).
      { destruct (meets_dec w k Ik (proj1 I)) as [X|X]; [exact X|]. exfalso. apply N. exists (IBond k). split; [apply Hi, Hb; auto|left; reflexivity]. }
      splits; auto. intros Dc. assert (Im : In (mirror k) (bonds w)) by (apply I; auto).
      destruct (meets_dec w (mirror k) Im (proj1 I)) as [X|X]; [exact X|]. exfalso. apply N. exists (IBond (mirror k)). split; [apply Hi, Hb; auto|right; auto].
    + intros (Ik & M1 & M2). split; [exact Ik|]. intros (i & J & [->|[Dc ->]]); apply Hi, Hb in J; destruct J as [_ J]; auto.
  - intros a. rewrite S. assert (Hi : In (IAtom a) (order (nodup eq_dec (r1 ++ r2))) <-> In (IAtom a) (r1 ++ r2)).
    { rewrite <- (nodup_In eq_dec (r1 ++ r2)). split; apply Permutation_in; [|apply Permutation_sym]; apply Hord. }
    rewrite Hi, Hs. split; [|tauto]. intros [Ia N]. split; [exact Ia|].
    destruct (meets_onsite_dec w a Ia (proj1 I)); tauto.
Qed.

(** Filtering twice. *)
Lemma filter_idempotent (w w' : world) : Inv w -> h_filter dist order maxd mind custom w = (w', Ret tt) ->
  h_filter dist order maxd mind custom w' = (w', Ret tt).
Proof.
  intros I H. destruct (filter_exact w I) as (w1 & E & I' & D & B & S & V & O). rewrite H in E. injection E as <-.
  destruct (removal_set dist maxd mind custom w' I') as (r1 & r2 & E1 & E2 & Hb & Hs).
  unfold h_filter. rewrite bind_gets, (bind_val _ _ _ _ _ E1), bind_gets, (bind_val _ _ _ _ _ E2).
  assert (Hm : forall k, In k (bonds w') -> meets dist maxd mind custom w' k).
  { intros k Ik. assert (Ik' := Ik). apply B in Ik' as (_ & (M1 & M2 & M3) & _). unfold meets. splits; auto. intros f J Ef. rewrite (V k Ik). apply M3; exact Ef. }
  assert (Ho : forall a, In a (sites w') -> meets_onsite mind custom w' a).
  { intros a Ia. assert (Ia' := Ia). apply S in Ia' as (_ & M1 & M2). unfold meets_onsite. splits; auto. intros f J Ef. rewrite (O a Ia). apply M2; exact Ef. }
  assert (En : r1 ++ r2 = []).
  { destruct (r1 ++ r2) as [|[k|a] t]; [reflexivity| |]; exfalso.
    - destruct (proj1 (Hb k) (or_introl eq_refl)) as [A C]. exact (C (Hm k A)).
    - destruct (proj1 (Hs a) (or_introl eq_refl)) as [A C]. exact (C (Ho a A)). }
  rewrite En. cbn [nodup]. assert (X := Hord []). apply Permutation_sym, Permutation_nil in X. rewrite X. reflexivity.
Qed.
End Order.

Lemma filter_order dist o1 o2 maxd mind custom (w : world) : (forall l, Permutation (o1 l) l) -> (forall l, Permutation (o2 l) l) -> Inv w ->
  same_parameters (fst (h_filter dist o1 maxd mind custom w)) (fst (h_filter dist o2 maxd mind custom w)).
Proof.
  intros P1 P2 I.
  destruct (filter_exact dist o1 maxd mind custom P1 w I) as (w1 & E1 & I1 & D1 & B1 & S1 & V1 & O1).
  destruct (filter_exact dist o2 maxd mind custom P2 w I) as (w2 & E2 & I2 & D2 & B2 & S2 & V2 & O2).
  rewrite E1, E2; cbn [fst]. split.
  - intros k. destruct (in_dec eq_dec k (bonds w1)) as [J|J].
    + rewrite (V1 k J). apply V2, B2, B1, J.
    + assert (J2 : ~ In k (bonds w2)) by (rewrite B2, <- B1; exact J).
      apply (bond_value_absent w1 k (proj1 I1)) in J. apply (bond_value_absent w2 k (proj1 I2)) in J2. congruence.
  - intros a. destruct (in_dec eq_dec a (sites w1)) as [J|J].
    + rewrite (O1 a J). apply O2, S2, S1, J.
    + assert (J2 : ~ In a (sites w2)) by (rewrite S2, <- S1; exact J).
      assert (X : forall w : world, Inv w -> ~ In a (sites w) -> onsite_value w a = None).
      { intros w0 I0 N0. destruct (onsite_value w0 a) eqn:E0; [|reflexivity]. exfalso. apply N0. apply onsite_value_stored; [apply I0|eauto]. }
      rewrite !X; auto.
Qed.

(** ** C19 *)
Lemma insert_perm a l : Permutation (insert_by_index a l) (a :: l).
Proof.
  induction l as [|x t IH]; cbn; [auto|]. destruct (a_index a <=? a_index x)%Z; [auto|].
  apply perm_trans with (x :: a :: t); [auto|apply perm_swap].
Qed.
Lemma sort_perm l : Permutation (sort_by_index l) l.
Proof. induction l; cbn; [auto|]. apply perm_trans with (a :: sort_by_index l); [apply insert_perm|auto]. Qed.
Lemma insert_sorted a l : Sorted by_index l -> Sorted by_index (insert_by_index a l).
Proof.
  induction l as [|x t IH]; cbn; intros H; [repeat constructor|]. destruct (a_index a <=? a_index x)%Z eqn:E.
  - constructor; [exact H|]. constructor. unfold by_index. lia.
  - inversion H; subst. constructor; [auto|]. destruct t as [|y t]; cbn; [constructor; unfold by_index; lia|].
    inversion H3; subst. destruct (a_index a <=? a_index y)%Z; constructor; unfold by_index in *; lia.
Qed.
Lemma sort_sorted l : Sorted by_index (sort_by_index l).
Proof. induction l; cbn; [constructor|]. apply insert_sorted, IHl. Qed.
Lemma mentioned_In (h : ham) a : In a (mentioned h) <-> (exists k, In k (dkeys (h_exch h)) /\ (b_from k = a \/ b_to k = a)) \/ In a (dkeys (h_ons h)).
Proof.
  unfold mentioned. rewrite in_app_iff, in_flat_map. split; (intros [(k & A & B)|A]; [left; exists k|right; exact A]); split; auto; cbn in *; tauto.
Qed.
Lemma magnetic_atoms_exact order (w : world) : (forall l, Permutation (order l) l) ->
  exists r, magnetic_atoms order w = (w, Ret r) /\ NoDup r /\ Sorted by_index r /\
    forall a, In a r <-> (exists k, In k (bonds w) /\ (b_from k = a \/ b_to k = a)) \/ In a (sites w).
Proof.
  intros P. unfold magnetic_atoms. rewrite bind_gets. eexists. split; [reflexivity|].
  set (l := nodup eq_dec (mentioned (w_ham w))).
  assert (Pm : Permutation (sort_by_index (order l)) l) by (apply perm_trans with (order l); [apply sort_perm|apply P]). splits.
  - apply (Permutation_NoDup (Permutation_sym Pm)). apply NoDup_nodup.
  - apply sort_sorted.
  - intros a. unfold bonds, sites. rewrite <- (mentioned_In (w_ham w) a), <- (nodup_In eq_dec (mentioned (w_ham w))). split; apply Permutation_in; [exact Pm|apply Permutation_sym; exact Pm].
Qed.

(** ** C20 *)
Lemma scaled_onsite_ok c (h : ham) items : forall st,
  (forall a l, In (a, l) items -> (l < List.length st)%nat) ->
  exists r ms, scaled_onsite c items (mkW st h) = (mkW (st ++ ms) h, Ret r) /\
    map fst r = map (fun kl => mkB (fst kl) (fst kl) (0, 0, 0)%Z) items /\
    Forall2 (fun kl bl => nth_error (st ++ ms) (snd bl) = option_map (mscale c) (nth_error st (snd kl)) /\ fst bl = mkB (fst kl) (fst kl) (0, 0, 0)%Z) items r.
Proof.
  induction items as [|[a l] t IH]; intros st L; cbn [scaled_onsite].
  - exists [], []. rewrite app_nil_r. splits; auto.
  - destruct (nth_error_lt st l (L a l (or_introl eq_refl))) as [m Em].
    assert (Erd : read l (mkW st h) = (mkW st h, Ret m)) by (unfold read; cbn; rewrite Em; reflexivity).
    rewrite (bind_val _ _ _ _ _ Erd).
    rewrite (bind_val (alloc (p_mul m c)) _ _ (mkW (st ++ [p_mul m c]) h) (List.length st)) by reflexivity.
    destruct (IH (st ++ [p_mul m c])) as (r & ms & Er & Hf & H2).
    { intros a' l' J. rewrite app_length. specialize (L a' l' (or_intror J)). lia. }
    rewrite (bind_val _ _ _ _ _ Er). exists ((mkB a a (0, 0, 0)%Z, List.length st) :: r), (p_mul m c :: ms).
    assert (Ea : (st ++ [p_mul m c]) ++ ms = st ++ p_mul m c :: ms) by (rewrite <- app_assoc; reflexivity). rewrite Ea in *. splits.
    + reflexivity.
    + cbn. f_equal. exact Hf.
    + constructor.
      * cbn [snd fst]. rewrite nth_error_app2, Nat.sub_diag by lia. cbn [nth_error]. rewrite Em. cbn. auto.
      * assert (Hlt : forall kl, In kl t -> nth_error (st ++ [p_mul m c]) (snd kl) = nth_error st (snd kl)).
        { intros [a' l'] J. apply nth_error_app1. apply (L a' l'). right; exact J. }
        clear - H2 Hlt. induction H2 as [|x y t r [A B] H2 IH]; constructor.
        -- rewrite Hlt in A by (left; reflexivity). auto.
        -- apply IH. intros; apply Hlt; right; assumption.
Qed.

(** Everything listed once: first the on-site parameters (scaled), then the bonds. *)
Lemma exchange_like_listing (w : world) ef of_ : wf w -> h_ef (w_ham w) = Some ef -> h_of (w_ham w) = Some of_ -> of_ <> 0 ->
  exists w' r, exchange_like w = (w', Ret r) /\ w_ham w' = w_ham w /\ same_parameters w w' /\
    map fst r = map (fun a => mkB a a (0, 0, 0)%Z) (sites w) ++ bonds w /\
    map (fun kl => nth_error (w_store w') (snd kl)) r =
    map (fun a => option_map (mscale (ef / of_)) (onsite_value w a)) (sites w) ++ map (bond_value w) (bonds w).
Proof.
  intros W Ee Eo Hz. destruct w as [st h]. cbn [w_ham] in *. unfold exchange_like, get_ef, get_of.
  rewrite (bind_val (bind (gets (@h_ef F)) _) _ (mkW st h) (mkW st h) ef) by (rewrite bind_gets; cbn; rewrite Ee; reflexivity).
  rewrite (bind_val (bind (gets (@h_of F)) _) _ (mkW st h) (mkW st h) of_) by (rewrite bind_gets; cbn; rewrite Eo; reflexivity).
  rewrite (bind_val _ _ _ _ _ (py_div_ok ef of_ (mkW st h) Hz)), bind_gets. cbn [w_ham].
  assert (W' := W). destruct W' as (N1 & N2 & W3 & W4 & _); cbn [w_ham w_store] in *.
  destruct (scaled_onsite_ok (ef / of_) h (h_ons h) st W4) as (r & ms & Er & Hf & H2).
  rewrite (bind_val _ _ _ _ _ Er), bind_gets. cbn [w_ham].
  assert (Vb : forall k, bond_value (mkW (st ++ ms) h) k = bond_value (mkW st h) k).
  { intros k. unfold bond_value; cbn. destruct (dget (h_exch h) k) as [l|] eqn:E; [|reflexivity]. apply nth_error_app1. apply (W3 k), dget_In, E. }
  eexists _, _. split; [reflexivity|]. splits; auto.
  - split; [exact Vb|]. intros a. unfold onsite_value; cbn. destruct (dget (h_ons h) a) as [l|] eqn:E; [|reflexivity]. apply nth_error_app1. apply (W4 a), dget_In, E.
  - rewrite map_app, Hf. unfold sites, bonds, dkeys; cbn. rewrite map_map. reflexivity.
  - rewrite map_app. cbn [w_store]. f_equal.
    + unfold sites, dkeys; cbn [w_ham]. rewrite map_map.
      assert (X : forall kl, In kl (h_ons h) -> onsite_value (mkW st h) (fst kl) = nth_error st (snd kl)).
      { intros [a l] J. unfold onsite_value; cbn [w_ham w_store fst snd]. rewrite (In_dget _ _ _ N2 J). reflexivity. }
      clear - H2 X. induction H2 as [|x y t r [A B] H2 IH]; [reflexivity|]. cbn [map]. f_equal.
      * rewrite A, X by (left; reflexivity). reflexivity.
      * apply IH. intros; apply X; right; assumption.
    + unfold bonds, dkeys; cbn [w_ham]. rewrite map_map. apply map_ext_in. intros [k l] J. cbn [fst snd].
      rewrite <- Vb. unfold bond_value; cbn [w_ham w_store]. rewrite (In_dget _ _ _ N1 J). reflexivity.
Qed.

Lemma onsite_pair_energy L (s : config) a (A : M3 F) : pair_energy L s (mkB a a (0, 0, 0)%Z) A = site_energy L s a A.
Proof.
  unfold pair_energy, site_energy. apply sum_box_ext. intros [[i j] k]. cbn. rewrite !Z.add_0_r. reflexivity.
Qed.
Lemma osum_app (l l' : list (option F)) : osum (l ++ l') = match osum l, osum l' with Some a, Some b => Some (a + b) | _, _ => None end.
Proof.
  induction l as [|x l IH]; cbn [app osum].
  - destruct (osum l'); [f_equal; ring|reflexivity].
  - destruct x as [x|]; [|reflexivity]. rewrite IH. destruct (osum l); [|reflexivity]. destruct (osum l'); [f_equal; ring|reflexivity].
Qed.
Lemma osum_none_l {A} (f : A -> option F) l x : In x l -> f x = None -> osum (map f l) = None.
Proof.
  induction l as [|y l IH]; [intros []|]. intros [->|J] E; cbn; [rewrite E; reflexivity|]. rewrite (IH J E). destruct (f y); reflexivity.
Qed.
Lemma osum_map_scale {A} (f g : A -> option F) c l : (forall x, In x l -> g x = option_map (fun v => c * v) (f x)) ->
  osum (map g l) = option_map (fun v => c * v) (osum (map f l)).
Proof.
  induction l as [|x l IH]; intros H; cbn; [f_equal; ring|]. rewrite (H x (or_introl eq_refl)), IH by (intros; apply H; right; assumption).
  destruct (f x); cbn; [|reflexivity]. destruct (osum (map f l)); cbn; [f_equal; ring|reflexivity].
Qed.

Lemma exchange_like_energy (w : world) ef of_ L (s : config) : wf w -> h_ef (w_ham w) = Some ef -> h_of (w_ham w) = Some of_ -> of_ <> 0 -> ef * ef = of_ * of_ ->
  exists w' r, exchange_like w = (w', Ret r) /\ listed_energy w' L s (entry_values w' r) = energy w L s.
Proof.
  intros W Ee Eo Hz Hq. destruct (exchange_like_listing w ef of_ W Ee Eo Hz) as (w' & r & E & Eh & SP & Hk & Hv).
  exists w', r. split; [exact E|]. unfold listed_energy, energy. rewrite Eh, Ee, Eo. destruct (h_sn (w_ham w)) as [sn|]; [|reflexivity].
  assert (Ev : map (listed_term sn w' L s) (entry_values w' r) =
     map (fun a => match spin_length sn w a, onsite_value w a with Some x, Some A => Some (x * x * (ef / of_ * site_energy L s a A)) | _, _ => None end) (sites w)
     ++ map (bond_term sn w L s) (bonds w)).
  { assert (Hsp : forall a, spin_length sn w' a = spin_length sn w a) by (intros a; unfold spin_length, spin_of; rewrite Eh; reflexivity).
    transitivity (map (fun kv => match snd kv with Some J => listed_term sn w' L s (fst kv, J) | None => None end)
                    (combine (map fst r) (map (fun kl => nth_error (w_store w') (snd kl)) r))).
    - assert (Hd : forall kl, In kl r -> nth_error (w_store w') (snd kl) <> None).
      { intros kl J X. assert (I : In None (map (fun kl => nth_error (w_store w') (snd kl)) r)) by (apply in_map_iff; exists kl; auto).
        rewrite Hv in I. apply in_app_or in I as [I|I]; apply in_map_iff in I as (x & Ex & Ix).
        - apply (onsite_value_stored w x W) in Ix as [A EA]. rewrite EA in Ex. discriminate.
        - apply (bond_value_stored w x W) in Ix as [A EA]. congruence. }
      clear - Hd. induction r as [|[k l] r IH]; [reflexivity|]. cbn [entry_values flat_map map combine fst snd].
      destruct (nth_error (w_store w') l) as [m|] eqn:Em; [|exfalso; apply (Hd (k, l)); [left; reflexivity|exact Em]].
      cbn [app map]. f_equal. apply IH. intros; apply Hd; right; assumption.
    - rewrite Hk, Hv. clear - Hsp SF. induction (sites w) as [|a t IH].
      + cbn [map app]. induction (bonds w) as [|k t IH]; [reflexivity|]. cbn [map combine fst snd]. f_equal; [|exact IH].
        unfold listed_term, bond_term; cbn [fst snd]. rewrite !Hsp. destruct (bond_value w k); destruct (spin_length sn w (b_from k)); destruct (spin_length sn w (b_to k)); reflexivity.
      + cbn [map app combine fst snd]. f_equal; [|exact IH]. destruct (onsite_value w a) as [A|]; cbn [option_map]; [|destruct (spin_length sn w a); reflexivity].
        unfold listed_term; cbn [fst snd b_from b_to]. rewrite !Hsp. destruct (spin_length sn w a); [|reflexivity].
        rewrite onsite_pair_energy, site_energy_scale. reflexivity. }
  rewrite Ev, osum_app.
  rewrite (osum_map_scale (site_term sn w L s) _ (ef / of_)).
  2:{ intros a _. unfold site_term. destruct (spin_length sn w a); [|reflexivity]. destruct (onsite_value w a); [|reflexivity]. cbn. f_equal. field. exact Hz. }
  destruct (osum (map (bond_term sn w L s) (bonds w))) as [X|]; destruct (osum (map (site_term sn w L s) (sites w))) as [Y|]; cbn; try reflexivity.
  f_equal. transitivity (ef * X + (ef * ef) / of_ * Y); [field; exact Hz|]. rewrite Hq. field. exact Hz.
Qed.
End FilterProofs.
