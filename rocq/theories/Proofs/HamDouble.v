(** Outcomes of the double_counting setter. *)
From Coq Require Import List Bool ZArith Lia Permutation String.
From Coq Require Import Ring Field Field_theory Ring_theory.
From Verif.Base Require Import Scalar Linear3 PyDict.
From Verif.Model Require Import MatrixParam Hamiltonian.
From Verif.Spec Require Import HamSpec.
From Verif.Proofs Require Import DictProofs HamBasics HamSetters.
Import ListNotations.

Section Double.
Context {F : Type} {SF : Scalar F}.
Add Field F_field : (@f_field F SF).
Notation world := (@world F).
Notation ham := (@ham F).
Notation M := (@M F).
Local Open Scope py_scope.
Local Open Scope fld_scope.

Lemma dget_loc (w : world) k l : wf w -> dget (h_exch (w_ham w)) k = Some l -> (l < List.length (w_store w))%nat.
Proof. intros (_ & _ & H & _) E. apply (H k). apply dget_In. exact E. Qed.
Lemma bond_value_stored (w : world) k : wf w -> (In k (bonds w) <-> exists J, bond_value w k = Some J).
Proof.
  intros W. unfold bonds. rewrite <- dget_key. unfold bond_value. split.
  - intros [l E]. rewrite E. apply nth_error_lt. eapply dget_loc; eauto.
  - intros [J E]. destruct (dget _ _); eauto; discriminate.
Qed.
Lemma bond_value_absent (w : world) k : wf w -> (~ In k (bonds w) <-> bond_value w k = None).
Proof.
  intros W. rewrite (bond_value_stored w k W). destruct (bond_value w k) as [J|]; split; try congruence.
  - intros H; exfalso; eauto.
  - intros _ [? ?]; discriminate.
Qed.
Lemma onsite_value_stored (w : world) a : wf w -> (In a (sites w) <-> exists J, onsite_value w a = Some J).
Proof.
  intros (_ & _ & _ & W & _). unfold sites. rewrite <- dget_key. unfold onsite_value. split.
  - intros [l E]. rewrite E. apply nth_error_lt. apply (W a), dget_In, E.
  - intros [J E]. destruct (dget _ _); eauto; discriminate.
Qed.

(** ** scale_bonds *)
Lemma scale_bonds_ok c (w : world) : wf w ->
  scale_bonds c w = (mkW (apply_upds (w_store w) (upds (fun _ => mscale c) (h_exch (w_ham w)))) (w_ham w), Ret tt).
Proof.
  destruct w as [st h]. intros (Nk & _ & Hl & _). cbn [w_store w_ham] in *.
  unfold scale_bonds. rewrite bind_gets. cbn [w_ham]. unfold dkeys. rewrite for_each_map.
  apply for_each_upds with (n := List.length st); [|reflexivity].
  intros [k l] st' I E. cbn [fst snd]. rewrite (bind_val _ _ _ _ _ (get_bond_In (mkW st' h) k l Nk I)).
  unfold scale_loc, read, write, bind, apply_upd; cbn.
  destruct (nth_error_lt st' l) as [m Em]; [rewrite E; eapply Hl; eauto|]. rewrite Em. reflexivity.
Qed.

(** ** ensure_dc *)
Definition mirror_entry (st st' : list (M3 F)) (kl a : bkey * loc) : Prop :=
  fst a = mirror (fst kl) /\ nth_error st' (snd a) = option_map mtrans (nth_error st (snd kl)) /\
  (List.length st <= snd a < List.length st')%nat.

Lemma mirror_all_ok (h : ham) items : forall st,
  (forall k l, In (k, l) items -> (l < List.length st)%nat) ->
  exists adds ms, mirror_all items (mkW st h) = (mkW (st ++ ms) h, Ret adds) /\
    Forall2 (mirror_entry st (st ++ ms)) items adds /\ NoDup (map snd adds).
Proof.
  induction items as [|[k l] items IH]; intros st Hl.
  - exists [], []. rewrite app_nil_r. splits; constructor.
  - destruct (nth_error_lt st l) as [m Em]; [eapply Hl; left; reflexivity|].
    destruct (IH (st ++ [mtrans m])) as (adds & ms & E & H2 & N).
    { intros k' l' I. rewrite app_length; cbn. specialize (Hl k' l' (or_intror I)). lia. }
    exists ((mirror k, List.length st) :: adds), (mtrans m :: ms).
    rewrite <- app_assoc in E, H2. cbn [app] in E, H2.
    assert (Hf : Forall2 (mirror_entry st (st ++ mtrans m :: ms)) items adds /\ (forall a, In a adds -> (List.length st < snd a)%nat)).
    { assert (Hl' : forall k l, In (k, l) items -> (l < List.length st)%nat) by (intros; eapply Hl; right; eauto).
      clear -H2 Hl'. revert H2. generalize (st ++ mtrans m :: ms). intros st' H2.
      induction H2 as [|[k' l'] a items adds (A & B & C) H2 IH2]; [split; [constructor|intros ? []]|].
      destruct IH2 as [G1 G2]; [intros; eapply Hl'; right; eauto|]. rewrite app_length in C; cbn [List.length] in C. split.
      - constructor; [|exact G1]. unfold mirror_entry. splits; auto; try lia.
        rewrite B. cbn [snd]. f_equal. apply nth_error_app1. eapply Hl'. left; reflexivity.
      - intros x [<-|I]; [lia|auto]. }
    destruct Hf as [Hf Hgt]. splits.
    + cbn [mirror_all]. rewrite (bind_val (read l) _ (mkW st h) (mkW st h) m) by (unfold read; cbn; rewrite Em; reflexivity).
      rewrite (bind_val (alloc (p_T m)) _ (mkW st h) (mkW (st ++ [p_T m]) h) (List.length st)) by reflexivity.
      rewrite (bind_val _ _ _ _ _ E). reflexivity.
    + constructor; [|exact Hf]. unfold mirror_entry; cbn. splits; auto.
      * rewrite Em. cbn. rewrite nth_error_app2 by lia. rewrite Nat.sub_diag. reflexivity.
      * rewrite app_length; cbn. lia.
    + cbn. constructor; [|exact N]. intros I. apply in_map_iff in I as (x & E' & I). specialize (Hgt x I). lia.
Qed.

Definition set_all (d : dict bkey loc) (adds : list (bkey * loc)) : dict bkey loc :=
  fold_left (fun d kl => dset d (fst kl) (snd kl)) adds d.

Definition with_exch (h : ham) d := mkHam d (h_ons h) (h_atoms h) (h_spins h) (h_dc h) (h_sn h) (h_ef h) (h_of h).
Definition with_ons (h : ham) d := mkHam (h_exch h) d (h_atoms h) (h_spins h) (h_dc h) (h_sn h) (h_ef h) (h_of h).

Lemma mem_atom_In a l : In a l -> mem_atom a l = true.
Proof. intros H. unfold mem_atom. destruct (in_dec eq_dec a l); tauto. Qed.
Lemma resolve_add_In a (w : world) : In a (h_atoms (w_ham w)) -> resolve_add (AObj a) w = (w, Ret a).
Proof.
  intros H. unfold resolve_add. rewrite bind_gets. rewrite (mem_atom_In _ _ H). reflexivity.
Qed.

(** Storing a bond whose mirror is already there. *)
Lemma add_exchange_plain st (h : ham) k l :
  In (b_from k) (h_atoms h) -> In (b_to k) (h_atoms h) -> (h_dc h <> Some true \/ In (mirror k) (dkeys (h_exch h))) ->
  add_exchange (AObj (b_from k)) (AObj (b_to k)) (b_cell k) l (mkW st h) = (mkW st (with_exch h (dset (h_exch h) k l)), Ret tt).
Proof.
  intros H1 H2 H3. unfold add_exchange. rewrite (bind_val _ _ _ _ _ (resolve_add_In _ (mkW st h) H1)).
  rewrite (bind_val _ _ _ _ _ (resolve_add_In _ (mkW st h) H2)).
  assert (mkB (b_from k) (b_to k) (b_cell k) = k) as -> by (destruct k; reflexivity).
  unfold store_exchange. rewrite bind_gets. cbn [w_ham]. unfold set_exch at 1, modify at 1, bind at 1. cbn.
  unfold try_catch, get_dc, bind, gets. cbn.
  unfold with_exch. destruct (h_dc h) as [[]|] eqn:E; cbn; [|reflexivity|reflexivity].
  destruct H3 as [H3|H3]; [congruence|].
  assert (dmem (dset (h_exch h) k l) (mirror k) = true) as ->.
  { apply dmem_key, In_dkeys_dset. auto. }
  reflexivity.
Qed.

Lemma add_all_ok st adds : forall h : ham,
  (forall k l, In (k, l) adds -> In (b_from k) (h_atoms h) /\ In (b_to k) (h_atoms h) /\ In (mirror k) (dkeys (h_exch h))) ->
  for_each adds (fun kl => add_exchange (AObj (b_from (fst kl))) (AObj (b_to (fst kl))) (b_cell (fst kl)) (snd kl)) (mkW st h)
  = (mkW st (with_exch h (set_all (h_exch h) adds)), Ret tt).
Proof.
  induction adds as [|[k l] adds IH]; intros h H; [destruct h; reflexivity|].
  cbn [for_each fst snd]. destruct (H k l (or_introl eq_refl)) as (H1 & H2 & H3).
  rewrite (bind_val _ _ _ _ _ (add_exchange_plain st h k l H1 H2 (or_intror H3))).
  rewrite IH; [reflexivity|]. intros k' l' I. cbn. destruct (H k' l' (or_intror I)) as (G1 & G2 & G3). splits; auto.
  apply In_dkeys_dset. auto.
Qed.

Lemma set_all_get adds : forall d k, NoDup (map fst adds) ->
  dget (set_all d adds) k = match dget adds k with Some l => Some l | None => dget d k end.
Proof.
  induction adds as [|[k' l] adds IH]; intros d k N; [reflexivity|]. inversion N; subst. cbn.
  unfold set_all in IH. rewrite IH by assumption. destruct (eq_dec k k') as [->|Nk].
  - assert (dget adds k' = None) as -> by (apply dget_None; assumption). rewrite dget_dset. destruct (eq_dec k' k'); congruence.
  - rewrite dget_dset. destruct (eq_dec k k'); [congruence|reflexivity].
Qed.
Lemma set_all_nodup adds : forall d, NoDup (dkeys d) -> NoDup (dkeys (set_all d adds)).
Proof. induction adds as [|a adds IH]; intros d N; [exact N|]. cbn. apply IH, NoDup_dset, N. Qed.

Lemma snd_dset_incl (d : dict bkey loc) k l x : In x (map snd (dset d k l)) -> x = l \/ In x (map snd d).
Proof.
  induction d as [|[a b] d IH]; cbn; [intuition|]. destruct (eq_dec k a); cbn; intuition.
Qed.
Lemma snd_dset_nodup (d : dict bkey loc) k l X : NoDup (map snd d ++ X) -> ~ In l (map snd d ++ X) -> NoDup (map snd (dset d k l) ++ X).
Proof.
  induction d as [|[a b] d IH]; cbn; intros N I; [constructor; assumption|].
  inversion N; subst. destruct (eq_dec k a); cbn.
  - constructor; [intros J; apply I; right; exact J|assumption].
  - constructor; [|apply IH; auto]. intros J. apply in_app_or in J as [J|J].
    + apply snd_dset_incl in J as [J|J]; [subst; apply I; left; reflexivity|]. apply H1, in_or_app; auto.
    + apply H1, in_or_app; auto.
Qed.
Lemma set_all_unshared adds X : forall d, NoDup (map snd d ++ X) -> NoDup (map snd adds) ->
  (forall x, In x (map snd adds) -> ~ In x (map snd d ++ X)) -> NoDup (map snd (set_all d adds) ++ X).
Proof.
  induction adds as [|[k l] adds IH]; intros d N Na Hd; [exact N|]. inversion Na; subst. cbn. apply IH; auto.
  - apply snd_dset_nodup; auto. apply Hd. left; reflexivity.
  - intros x I J. apply in_app_or in J as [J|J].
    + apply snd_dset_incl in J as [->|J]; [contradiction|]. apply (Hd x); [right; exact I|apply in_or_app; auto].
    + apply (Hd x); [right; exact I|apply in_or_app; auto].
Qed.

Lemma Forall2_map_fst st st' items adds : Forall2 (mirror_entry st st') items adds -> map fst adds = map mirror (map fst items).
Proof. induction 1 as [|? ? ? ? (A & _)]; cbn; [reflexivity|]. rewrite A, IHForall2. reflexivity. Qed.

Lemma Forall2_dget st st' items adds : Forall2 (mirror_entry st st') items adds ->
  forall k, match dget items k, dget adds (mirror k) with
            | Some l, Some l' => nth_error st' l' = option_map mtrans (nth_error st l)
            | None, None => True | _, _ => False end.
Proof.
  induction 1 as [|[k l] [k' l'] items adds (A & B & C) H IH]; intros q; [exact I|]. cbn in A, B, C |- *. subst k'.
  destruct (eq_dec q k) as [->|N].
  - destruct (eq_dec (mirror k) (mirror k)); [exact B|congruence].
  - destruct (eq_dec (mirror q) (mirror k)) as [E|N']; [apply mirror_inj in E; congruence|apply IH].
Qed.

(** Effect of [_ensure_double_counting]: a bond whose mirror was stored now carries the transposed matrix of
    that mirror, the other bonds are as before. *)
Definition mirrored_value (w : world) (k : bkey) : option (M3 F) :=
  if dmem (h_exch (w_ham w)) (mirror k) then option_map mtrans (bond_value w (mirror k)) else bond_value w k.

(** [w'] differs from [w] only in its exchange dictionary (and in unreachable or new objects). *)
Definition same_rest (w w' : world) : Prop :=
  h_ons (w_ham w') = h_ons (w_ham w) /\ h_atoms (w_ham w') = h_atoms (w_ham w) /\ h_spins (w_ham w') = h_spins (w_ham w) /\
  h_sn (w_ham w') = h_sn (w_ham w) /\ h_ef (w_ham w') = h_ef (w_ham w) /\ h_of (w_ham w') = h_of (w_ham w) /\
  (forall a, onsite_value w' a = onsite_value w a).

Lemma ensure_dc_ok (w : world) : wf w -> h_dc (w_ham w) = Some true ->
  exists w', ensure_dc w = (w', Ret tt) /\ wf w' /\ (unshared w -> unshared w') /\ same_rest w w' /\
    h_dc (w_ham w') = Some true /\ (forall k, bond_value w' k = mirrored_value w k).
Proof.
  intros W Hdc. destruct w as [st h]. assert (W' := W). destruct W' as (Nk & Ns & Hl & Hlo & Ha & Hsa). cbn [w_store w_ham] in *.
  destruct (mirror_all_ok h (h_exch h) st Hl) as (adds & ms & E & H2 & Nadds).
  assert (Hk := Forall2_map_fst _ _ _ _ H2). assert (Hg := Forall2_dget _ _ _ _ H2).
  assert (Nf : NoDup (map fst adds)).
  { rewrite Hk. clear -Nk. unfold bonds, dkeys in Nk; cbn in Nk. induction (map fst (h_exch h)); cbn; [constructor|].
    inversion Nk; subst. constructor; auto. intros I. apply in_map_iff in I as (x & Ex & I). apply mirror_inj in Ex. congruence. }
  assert (Hin : forall k l, In (k, l) adds -> In (mirror k) (dkeys (h_exch h))).
  { intros k l I. apply (in_map fst) in I. rewrite Hk in I. apply in_map_iff in I as (x & Ex & I). cbn in Ex. subst k.
    rewrite mirror_invol. exact I. }
  assert (Hloc : forall k l, In (k, l) adds -> (List.length st <= l < List.length (st ++ ms))%nat).
  { intros k l I. clear -H2 I. induction H2 as [|? ? ? ? (_ & _ & C)]; [destruct I|]. destruct I as [->|I]; [exact C|auto]. }
  exists (mkW (st ++ ms) (with_exch h (set_all (h_exch h) adds))). splits.
  - unfold ensure_dc. rewrite bind_gets. cbn [w_ham]. rewrite (bind_val _ _ _ _ _ E).
    apply (add_all_ok (st ++ ms) adds h). intros k l I. assert (I' := Hin k l I).
    destruct (Ha _ I') as [A B]. cbn in A, B. auto.
  - unfold wf, bonds, sites; cbn. splits.
    + apply set_all_nodup. exact Nk.
    + exact Ns.
    + intros k l I. apply (In_dget _ _ _ (set_all_nodup adds _ Nk)) in I. rewrite set_all_get in I by exact Nf.
      destruct (dget adds k) eqn:Ea.
      * injection I as ->. apply dget_In in Ea. apply Hloc in Ea. lia.
      * apply dget_In in I. apply Hl in I. rewrite app_length. lia.
    + intros a l I. apply Hlo in I. rewrite app_length. lia.
    + intros k I. apply dget_key in I as [l I]. rewrite set_all_get in I by exact Nf.
      destruct (dget adds k) eqn:Ea.
      * apply dget_In in Ea. apply Hin in Ea. destruct (Ha _ Ea). auto.
      * apply Ha. apply dget_key. eauto.
    + exact Hsa.
  - unfold unshared; cbn. intros U. apply set_all_unshared; auto. intros x I J.
    apply in_map_iff in I as ([k l] & <- & I). apply Hloc in I.
    apply in_app_or in J as [J|J]; apply in_map_iff in J as ([k' l'] & E' & J); cbn in E'; subst l'.
    + apply Hl in J. cbn in J. lia.
    + apply Hlo in J. cbn in J. lia.
  - unfold same_rest; cbn. splits; auto. intros a. unfold onsite_value; cbn.
    destruct (dget (h_ons h) a) as [l|] eqn:El; [|reflexivity]. apply nth_error_app1. apply dget_In in El. eauto.
  - exact Hdc.
  - intros k. unfold mirrored_value, bond_value; cbn. rewrite set_all_get by exact Nf.
    specialize (Hg (mirror k)). rewrite mirror_invol in Hg. unfold dmem.
    destruct (dget (h_exch h) (mirror k)) as [l|] eqn:El; destruct (dget adds k) as [l'|] eqn:Ea; try contradiction.
    + exact Hg.
    + destruct (dget (h_exch h) k) as [l|] eqn:Ek; [|reflexivity]. apply nth_error_app1. apply dget_In in Ek. eauto.
Qed.

(** ** ensure_no_dc *)
Lemma collect_removal_ok (w : world) items :
  (forall k, In k (map fst items) -> canonical k = true \/ In (mirror k) (bonds w)) ->
  exists r, collect_removal items w = (w, Ret r) /\
    forall x, In x r <-> exists k, In k (map fst items) /\ In (mirror k) (bonds w) /\
                     ((canonical k = true /\ x = mirror k) \/ (canonical k = false /\ x = k)).
Proof.
  induction items as [|[k l] items IH]; intros H.
  - exists []. split; [reflexivity|]. intros x. cbn. split; [tauto|intros (? & [] & _)].
  - destruct IH as (r & E & Hr). { intros; apply H; right; auto. }
    assert (Hb : forall q, In q (dkeys (h_exch (w_ham w))) <-> In q (bonds w)) by (intros; reflexivity).
    cbn [collect_removal]. rewrite bind_gets.
    destruct (canonical k) eqn:Ec.
    + rewrite (bind_val _ _ _ _ _ E). eexists; split; [reflexivity|]. intros x.
      destruct (dmem _ (mirror k)) eqn:Em.
      * apply dmem_key in Em. cbn. rewrite Hr. split.
        -- intros [<-|(k' & A & B & C)]; [exists k; splits; auto|exists k'; splits; auto].
        -- intros (k' & [<-|A] & B & C); [left; destruct C as [[_ ->]|[? _]]; congruence|right; exists k'; auto].
      * apply dmem_key_false in Em. rewrite Hr. cbn. split.
        -- intros (k' & A & B & C). exists k'; splits; auto.
        -- intros (k' & [<-|A] & B & C); [contradiction|exists k'; auto].
    + destruct (H k (or_introl eq_refl)) as [Hc|Hm]; [congruence|].
      assert (dmem (h_exch (w_ham w)) (mirror k) = true) as -> by (apply dmem_key; exact Hm).
      rewrite (bind_val _ _ _ _ _ E). eexists; split; [reflexivity|]. intros x. cbn. rewrite Hr. split.
      * intros [<-|(k' & A & B & C)]; [exists k; splits; auto|exists k'; splits; auto].
      * intros (k' & [<-|A] & B & C); [left; destruct C as [[? _]|[_ ->]]; congruence|right; exists k'; auto].
Qed.
Lemma collect_removal_fail (w : world) items k :
  In k (map fst items) -> canonical k = false -> ~ In (mirror k) (bonds w) ->
  collect_removal items w = (w, Raise TypeError).
Proof.
  induction items as [|[k' l] items IH]; intros I Hc Hm; [destruct I|].
  assert (Hcase : collect_removal items w = (w, Raise TypeError) \/ exists r, collect_removal items w = (w, Ret r)).
  { clear. induction items as [|[k l] items IH]; [right; eexists; reflexivity|]. cbn [collect_removal]. rewrite bind_gets.
    destruct (canonical k); [|destruct (dmem _ _)].
    - destruct IH as [E|[r E]]; [left; apply (bind_exn _ _ _ _ _ E)|right; rewrite (bind_val _ _ _ _ _ E); eexists; reflexivity].
    - destruct IH as [E|[r E]]; [left; apply (bind_exn _ _ _ _ _ E)|right; rewrite (bind_val _ _ _ _ _ E); eexists; reflexivity].
    - left; reflexivity. }
  cbn [collect_removal]. rewrite bind_gets. destruct I as [E|I]; [cbn in E; subst k'|].
  - rewrite Hc. assert (dmem (h_exch (w_ham w)) (mirror k) = false) as -> by (apply dmem_key_false; exact Hm). reflexivity.
  - specialize (IH I Hc Hm). destruct (canonical k'); [|destruct (dmem _ _)]; [apply (bind_exn _ _ _ _ _ IH)..|reflexivity].
Qed.

Definition del_all (d : dict bkey loc) (r : list bkey) : dict bkey loc := fold_left (fun d k => ddel d k) r d.

Lemma remove_bond_nodc st (h : ham) k : h_dc h <> Some true ->
  remove_bond k false (mkW st h) = (mkW st (with_exch h (ddel (h_exch h) k)), Ret tt).
Proof.
  intros Hdc. unfold remove_bond. rewrite bind_gets. cbn [w_ham]. destruct (dmem (h_exch h) k) eqn:E.
  - unfold set_exch at 1, modify at 1, bind at 1. cbn. unfold try_catch, get_dc, bind, gets. cbn.
    unfold with_exch. destruct (h_dc h) as [[]|]; [congruence|reflexivity|reflexivity].
  - rewrite ddel_absent by (apply dmem_key_false; exact E). unfold bind at 1, ret at 1.
    unfold try_catch, get_dc, bind, gets. cbn. unfold with_exch.
    destruct h as [? ? ? ? [[]|] ? ? ?]; cbn in *; [congruence|reflexivity|reflexivity].
Qed.
Lemma remove_all_nodc st r : forall h : ham, h_dc h <> Some true ->
  for_each r (fun k => remove_bond k false) (mkW st h) = (mkW st (with_exch h (del_all (h_exch h) r)), Ret tt).
Proof.
  induction r as [|k r IH]; intros h Hdc; [destruct h; reflexivity|]. cbn [for_each].
  rewrite (bind_val _ _ _ _ _ (remove_bond_nodc st h k Hdc)). rewrite IH; [reflexivity|exact Hdc].
Qed.
Lemma del_all_get r : forall d k, NoDup (dkeys d) ->
  dget (del_all d r) k = if in_dec eq_dec k r then None else dget d k.
Proof.
  induction r as [|k' r IH]; intros d k N; [reflexivity|]. cbn [del_all fold_left].
  fold (del_all (ddel d k') r). rewrite IH by (apply NoDup_ddel; exact N). rewrite dget_ddel by exact N.
  destruct (in_dec eq_dec k r) as [j|j], (in_dec eq_dec k (k' :: r)) as [i|i]; try reflexivity.
  - exfalso; apply i; right; assumption.
  - destruct i as [->|]; [|contradiction]. destruct (eq_dec k k); congruence.
  - destruct (eq_dec k k') as [->|]; [exfalso; apply i; left; reflexivity|reflexivity].
Qed.
Lemma del_all_nodup {B} (f : bkey * loc -> B) r : forall d, NoDup (map f d) -> NoDup (map f (del_all d r)).
Proof. induction r as [|k r IH]; intros d N; [exact N|]. cbn. apply IH, NoDup_map_ddel, N. Qed.
Lemma del_all_incl r : forall d kv, In kv (del_all d r) -> In kv d.
Proof. induction r as [|k r IH]; intros d kv I; [exact I|]. apply IH, ddel_incl in I. exact I. Qed.

(** The bonds that survive double_counting = False. *)
Definition survives (w : world) (k : bkey) : bool := negb (dmem (h_exch (w_ham w)) (mirror k) && canonical (mirror k)).

Lemma del_all_unshared r X : forall d : dict bkey loc, NoDup (map snd d ++ X) -> NoDup (map snd (del_all d r) ++ X).
Proof.
  induction r as [|k r IH]; intros d N; [exact N|]. apply IH. clear IH.
  induction d as [|[a b] d IHd]; [exact N|]. cbn in *. inversion N; subst. destruct (eq_dec k a); [assumption|]. cbn.
  constructor; [|auto]. intros J. apply H1. apply in_app_or in J as [J|J]; apply in_or_app; [left|right; exact J].
  apply in_map_iff in J as (x & <- & J). apply in_map, (ddel_incl _ k), J.
Qed.

Lemma ensure_no_dc_ok (w : world) : wf w -> h_dc (w_ham w) = Some false ->
  (forall k, In k (bonds w) -> canonical k = true \/ In (mirror k) (bonds w)) ->
  exists w', ensure_no_dc w = (w', Ret tt) /\ wf w' /\ (unshared w -> unshared w') /\ same_rest w w' /\
    h_dc (w_ham w') = Some false /\ (forall k, bond_value w' k = if survives w k then bond_value w k else None).
Proof.
  intros W Hdc H. destruct w as [st h]. assert (W' := W). destruct W' as (Nk & Ns & Hl & Hlo & Ha & Hsa). cbn [w_store w_ham] in *.
  destruct (collect_removal_ok (mkW st h) (h_exch h) H) as (r & E & Hr).
  exists (mkW st (with_exch h (del_all (h_exch h) r))). splits.
  - unfold ensure_no_dc. rewrite bind_gets. cbn [w_ham]. rewrite (bind_val _ _ _ _ _ E). apply remove_all_nodc. congruence.
  - unfold wf, bonds, sites; cbn. splits; auto.
    + apply del_all_nodup. exact Nk.
    + intros k l I. apply del_all_incl in I. eauto.
    + intros k I. apply Ha. apply in_map_iff in I as ([k' l] & <- & I). apply del_all_incl in I. apply (in_map fst) in I. exact I.
  - unfold unshared; cbn. apply del_all_unshared.
  - unfold same_rest; cbn. splits; auto.
  - exact Hdc.
  - intros k. unfold bond_value, survives; cbn. rewrite del_all_get by exact Nk.
    destruct (dget (h_exch h) k) as [l|] eqn:Ek.
    2:{ destruct (in_dec _ _ _), (negb _); reflexivity. }
    assert (Ik : In k (map fst (h_exch h))) by (apply dget_key; eauto).
    destruct (in_dec eq_dec k r) as [i|i].
    + apply Hr in i as (k' & A & B & [[C ->]|[C ->]]).
      * rewrite mirror_invol. assert (dmem (h_exch h) k' = true) as -> by (apply dmem_key; exact A). rewrite C. reflexivity.
      * assert (dmem (h_exch h) (mirror k') = true) as -> by (apply dmem_key; exact B).
        destruct (canonical_or k') as [? | ->]; [congruence|reflexivity].
    + destruct (dmem (h_exch h) (mirror k)) eqn:Em; cbn; [|reflexivity].
      destruct (canonical (mirror k)) eqn:Ec; cbn; [|reflexivity]. exfalso. apply i, Hr.
      apply dmem_key in Em. exists (mirror k). rewrite mirror_invol. splits; auto.
Qed.

Lemma ensure_no_dc_fail (w : world) k : In k (bonds w) -> canonical k = false -> ~ In (mirror k) (bonds w) ->
  ensure_no_dc w = (w, Raise TypeError).
Proof.
  intros I Hc Hm. unfold ensure_no_dc. rewrite bind_gets. apply bind_exn.
  apply (collect_removal_fail w _ k); auto.
Qed.

End Double.
