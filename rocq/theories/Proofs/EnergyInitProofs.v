(** Proofs about the construction of [Energy] from a Hamiltonian (C21, C22, C23), over any field. *)
From Coq Require Import List Bool ZArith Lia Permutation.
From Coq Require Import Ring Field Field_theory Ring_theory.
From Verif.Base Require Import Scalar Linear3 PyDict.
From Verif.Model Require Import MatrixParam Hamiltonian History EnergyInit.
From Verif.Spec Require Import HamSpec HistorySpec NotationSpec.
From Verif.Proofs Require Import DictProofs HamBasics HamSetters HamDouble HamDcEnergy NotationProofs HistoryProofs CallProofs FilterProofs FrameProofs HamGlue.
Import ListNotations.
Local Open Scope fld_scope.
Local Open Scope py_scope.

Section EnergyInitProofs.
Context {F : Type} {SF : Scalar F}.
Add Field F_field : (@f_field F SF).
Notation ham := (@ham F).
Notation world := (@world F).
Notation M := (@M F).

(** ** Objects created by [double_counting = True] *)
Lemma ensure_dc_objects (w w' : world) : wf w -> h_dc (w_ham w) = Some true -> ensure_dc w = (w', Ret tt) ->
  exists ms, w_store w' = w_store w ++ ms /\
    forall k l, In (k, l) (h_exch (w_ham w')) -> In (mirror k) (bonds w) -> (List.length (w_store w) <= l)%nat.
Proof.
  intros W Hdc E0. destruct w as [st h]. assert (W' := W). destruct W' as (Nk & Ns & Hl & Hlo & Ha & Hsa). cbn [w_store w_ham] in *.
  destruct (mirror_all_ok h (h_exch h) st Hl) as (adds & ms & E & H2 & Nadds).
  assert (Hk := Forall2_map_fst _ _ _ _ H2). assert (Hg := Forall2_dget _ _ _ _ H2).
  assert (Nf : NoDup (map fst adds)) by (rewrite Hk; apply NoDup_map_mirror, Nk).
  assert (Hin : forall k l, In (k, l) adds -> In (mirror k) (dkeys (h_exch h))).
  { intros k l I. apply (in_map fst) in I. rewrite Hk in I. apply in_map_iff in I as (x & Ex & I). cbn in Ex. subst k.
    rewrite mirror_invol. exact I. }
  assert (Hloc : forall k l, In (k, l) adds -> (List.length st <= l)%nat).
  { intros k l I. clear -H2 I. induction H2 as [|? ? ? ? (_ & _ & C)]; [destruct I|]. destruct I as [->|I]; [apply C|auto]. }
  unfold ensure_dc in E0. rewrite bind_gets in E0. cbn [w_ham] in E0. rewrite (bind_val _ _ _ _ _ E) in E0.
  rewrite (add_all_ok (st ++ ms) adds h) in E0 by (intros k l I; assert (I' := Hin k l I); destruct (Ha _ I') as [A B]; cbn in A, B; auto).
  apply (f_equal fst) in E0. cbn in E0. subst w'. exists ms. split; [reflexivity|]. cbn. intros k l I J.
  apply (In_dget _ _ _ (set_all_nodup adds _ Nk)) in I. rewrite set_all_get in I by exact Nf.
  specialize (Hg (mirror k)). rewrite mirror_invol in Hg. apply dget_key in J as [l0 J]. cbn in J. rewrite J in Hg.
  destruct (dget adds k) as [l1|] eqn:Ea; [|contradiction]. injection I as <-. apply dget_In in Ea. exact (Hloc _ _ Ea).
Qed.

Lemma set_dc_true_objects (w w' : world) : wf w -> h_dc (w_ham w) = Some true -> set_double_counting true w = (w', Ret tt) ->
  exists ms, w_store w' = w_store w ++ ms /\
    forall k l, In (k, l) (h_exch (w_ham w')) -> In (mirror k) (bonds w) -> (List.length (w_store w) <= l)%nat.
Proof.
  intros W D E. rewrite (set_dc_split w true W) in E.
  assert (H := ensure_dc_objects (dc_scaled w true) w' (dc_scaled_wf w true W) eq_refl E).
  unfold dc_scaled in H. rewrite D in H. exact H.
Qed.

(** ** Objects after [double_counting = False] *)
Lemma ensure_no_dc_store (w w' : world) o : ensure_no_dc w = (w', o) -> h_dc (w_ham w) = Some false -> w_store w' = w_store w.
Proof.
  intros E D. unfold ensure_no_dc in E. rewrite bind_gets in E.
  assert (C : exists o', collect_removal (h_exch (w_ham w)) w = (w, o')).
  { clear. induction (h_exch (w_ham w)) as [|[k l] t IH]; [eexists; reflexivity|]. cbn [collect_removal]. rewrite bind_gets.
    destruct IH as [[r|e] IH]; destruct (canonical k); try destruct (dmem _ _);
    first [rewrite (bind_val _ _ _ _ _ IH) | rewrite (bind_exn _ _ _ _ _ IH) | idtac]; eexists; reflexivity. }
  destruct C as [[r|e] C].
  - rewrite (bind_val _ _ _ _ _ C) in E. destruct w as [st h]. cbn [w_ham w_store] in *.
    rewrite remove_all_nodc in E by congruence. apply (f_equal fst) in E. cbn in E. subst w'. reflexivity.
  - rewrite (bind_exn _ _ _ _ _ C) in E. apply (f_equal fst) in E. cbn in E. congruence.
Qed.
Lemma set_dc_false_store (w w' : world) o : wf w -> set_double_counting false w = (w', o) -> w_store w' = w_store (dc_scaled w false).
Proof.
  intros W E. rewrite (set_dc_split w false W) in E. exact (ensure_no_dc_store _ _ _ E eq_refl).
Qed.

(** ** exchange_like with its objects *)
Lemma scaled_onsite_fresh c (h : ham) items : forall st w' r,
  scaled_onsite c items (mkW st h) = (w', Ret r) -> forall kl, In kl r -> (List.length st <= snd kl)%nat.
Proof.
  induction items as [|[a l] t IH]; intros st w' r E kl I; cbn [scaled_onsite] in E.
  - injection E as _ <-. destruct I.
  - apply bind_inv in E as (w1 & m & E1 & E). unfold read in E1. destruct (nth_error _ _); [|discriminate]. injection E1 as <- <-.
    rewrite (bind_val (alloc (p_mul m0 c)) _ _ (mkW (st ++ [p_mul m0 c]) h) (List.length st)) in E by reflexivity.
    apply bind_inv in E as (w2 & r' & E2 & E). injection E as <- <-. destruct I as [<-|I]; [cbn; lia|].
    specialize (IH _ _ _ E2 kl I). rewrite app_length in IH. lia.
Qed.

(** The entries of [exchange_like]: scaled copies of the on-site objects, then the bonds themselves. *)
Lemma exchange_like_objects (w : world) ef of_ : wf w -> h_ef (w_ham w) = Some ef -> h_of (w_ham w) = Some of_ -> of_ <> 0 ->
  exists ms ro, exchange_like w = (mkW (w_store w ++ ms) (w_ham w), Ret (ro ++ h_exch (w_ham w))) /\
    map fst ro = map (fun a => mkB a a (0, 0, 0)%Z) (sites w) /\
    (forall kl, In kl ro -> (List.length (w_store w) <= snd kl < List.length (w_store w ++ ms))%nat) /\
    map (fun kl => nth_error (w_store w ++ ms) (snd kl)) ro = map (fun a => option_map (mscale (ef / of_)) (onsite_value w a)) (sites w).
Proof.
  intros W Ee Eo Hz. destruct w as [st h]. cbn [w_ham w_store] in *.
  assert (W' := W). destruct W' as (N1 & N2 & W3 & W4 & _); cbn [w_ham w_store] in *.
  destruct (scaled_onsite_ok (ef / of_) h (h_ons h) st W4) as (r & ms & Er & Hf & H2). exists ms, r. splits.
  - unfold exchange_like, get_ef, get_of.
    rewrite (bind_val (bind (gets (@h_ef F)) _) _ (mkW st h) (mkW st h) ef) by (rewrite bind_gets; cbn; rewrite Ee; reflexivity).
    rewrite (bind_val (bind (gets (@h_of F)) _) _ (mkW st h) (mkW st h) of_) by (rewrite bind_gets; cbn; rewrite Eo; reflexivity).
    rewrite (bind_val _ _ _ _ _ (py_div_ok ef of_ (mkW st h) Hz)), bind_gets. cbn [w_ham].
    rewrite (bind_val _ _ _ _ _ Er), bind_gets. reflexivity.
  - rewrite Hf. unfold sites, dkeys; cbn. rewrite map_map. reflexivity.
  - intros kl I. split; [exact (scaled_onsite_fresh _ _ _ _ _ _ Er kl I)|].
    assert (X : nth_error (st ++ ms) (snd kl) <> None); [|apply nth_error_Some in X; exact X].
    assert (Y : forall x, In x (h_ons h) -> nth_error st (snd x) <> None) by (intros [a l] J; apply nth_error_Some, (W4 a l J)).
    clear - H2 I Y. induction H2 as [|x y t r [A B] H2 IH]; [destruct I|]. destruct I as [Ey|I].
    + intros C. assert (A' := eq_trans (eq_sym A) (eq_trans (f_equal (fun z => nth_error (st ++ ms) (snd z)) Ey) C)).
      assert (Y' : nth_error st (snd x) <> None) by exact (Y x (or_introl eq_refl)). destruct (nth_error st (snd x)); [discriminate|apply Y'; reflexivity].
    + apply IH; [exact I|]. intros; apply Y; right; assumption.
  - unfold sites, dkeys; cbn [w_ham]. rewrite map_map.
    assert (X : forall kl, In kl (h_ons h) -> onsite_value (mkW st h) (fst kl) = nth_error st (snd kl)).
    { intros [a l] J. unfold onsite_value; cbn [w_ham w_store fst snd]. rewrite (In_dget _ _ _ N2 J). reflexivity. }
    clear - H2 X. induction H2 as [|x y t r [A B] H2 IH]; [reflexivity|]. cbn [map]. f_equal.
    + rewrite A, X by (left; reflexivity). reflexivity.
    + apply IH. intros; apply X; right; assumption.
Qed.
Lemma exchange_like_fails (w : world) : wf w -> (forall ef of_, h_ef (w_ham w) = Some ef -> h_of (w_ham w) = Some of_ -> of_ = 0) ->
  exists e, exchange_like w = (w, Raise e).
Proof.
  intros W H. destruct w as [st h]. unfold exchange_like, get_ef, get_of. cbn [w_ham] in H.
  destruct (h_ef h) as [ef|] eqn:Ee.
  2:{ exists NotationError. unfold bind at 1. rewrite bind_gets. cbn. rewrite Ee. reflexivity. }
  rewrite (bind_val (bind (gets (@h_ef F)) _) _ (mkW st h) (mkW st h) ef) by (rewrite bind_gets; cbn; rewrite Ee; reflexivity).
  destruct (h_of h) as [of_|] eqn:Eo.
  2:{ exists NotationError. unfold bind at 1. rewrite bind_gets. cbn. rewrite Eo. reflexivity. }
  rewrite (bind_val (bind (gets (@h_of F)) _) _ (mkW st h) (mkW st h) of_) by (rewrite bind_gets; cbn; rewrite Eo; reflexivity).
  exists ZeroDivisionError. apply bind_exn. unfold py_div. rewrite (H ef of_ eq_refl eq_refl). destruct (feq_dec 0 0); [reflexivity|congruence].
Qed.

(** ** Indices *)
Lemma position_In a l : In a l -> exists i, position a l = Some i /\ nth_error l i = Some a.
Proof.
  induction l as [|x t IH]; intros I; [destruct I|]. cbn. destruct (eq_dec a x) as [->|N]; [exists O; split; reflexivity|].
  destruct I as [->|I]; [congruence|]. destruct (IH I) as (i & E & E'). exists (S i). rewrite E. split; [reflexivity|exact E'].
Qed.
Definition indexed (atoms : list atom) (cell : M3 F) (kl : bkey * loc) (b : nat * nat * V3 F * loc) : Prop :=
  let '(i, j, d, l) := b in
  nth_error atoms i = Some (b_from (fst kl)) /\ nth_error atoms j = Some (b_to (fst kl)) /\ d = lattice_vector cell (b_cell (fst kl)) /\ l = snd kl.
Lemma index_bonds_ok atoms cell items (w : world) :
  (forall kl, In kl items -> In (b_from (fst kl)) atoms /\ In (b_to (fst kl)) atoms) ->
  exists r, index_bonds atoms cell items w = (w, Ret r) /\ Forall2 (indexed atoms cell) items r.
Proof.
  induction items as [|[k l] t IH]; intros H; cbn [index_bonds]; [exists []; split; [reflexivity|constructor]|].
  destruct (H (k, l) (or_introl eq_refl)) as [H1 H2]. cbn [fst] in H1, H2.
  destruct (position_In _ _ H1) as (i & E1 & E1'). destruct (position_In _ _ H2) as (j & E2 & E2').
  destruct IH as (r & E & Hr); [intros; apply H; right; assumption|].
  rewrite (bind_val _ _ _ w i) by (unfold atom_index; rewrite E1; reflexivity).
  rewrite (bind_val _ _ _ w j) by (unfold atom_index; rewrite E2; reflexivity).
  rewrite (bind_val _ _ _ _ _ E). eexists. split; [reflexivity|]. constructor; [|exact Hr]. cbn. auto.
Qed.
Lemma all_spins_state atoms (w : world) : exists o, all_spins atoms w = (w, o).
Proof.
  induction atoms as [|a t [o IH]]; cbn [all_spins]; [eexists; reflexivity|].
  destruct (dget (h_spins (w_ham w)) a) as [s|] eqn:Es.
  - rewrite (bind_val _ _ _ _ _ (spin_some w a s Es)). destruct o as [r|e].
    + rewrite (bind_val _ _ _ _ _ IH). eexists; reflexivity.
    + rewrite (bind_exn _ _ _ _ _ IH). eexists; reflexivity.
  - rewrite (bind_exn _ _ _ _ _ (spin_none w a Es)). eexists; reflexivity.
Qed.
Lemma all_spins_ok atoms (w : world) ss w' : all_spins atoms w = (w', Ret ss) ->
  map (spin_of w) atoms = map Some ss.
Proof.
  revert ss w'. induction atoms as [|a t IH]; intros ss w' E; cbn [all_spins] in E.
  - injection E as _ <-. reflexivity.
  - destruct (dget (h_spins (w_ham w)) a) as [s|] eqn:Es.
    + rewrite (bind_val _ _ _ _ _ (spin_some w a s Es)) in E. apply bind_inv in E as (w1 & r & E1 & E). injection E as _ <-.
      cbn. rewrite (IH _ _ E1). unfold spin_of. rewrite Es. reflexivity.
    + rewrite (bind_exn _ _ _ _ _ (spin_none w a Es)) in E. discriminate.
Qed.
Lemma all_spins_total atoms (w : world) : (forall a, In a atoms -> spin_of w a <> None) -> exists ss, all_spins atoms w = (w, Ret ss).
Proof.
  induction atoms as [|a t IH]; intros H; cbn [all_spins]; [eexists; reflexivity|].
  destruct (dget (h_spins (w_ham w)) a) as [s|] eqn:Es; [|exfalso; apply (H a (or_introl eq_refl)); exact Es].
  rewrite (bind_val _ _ _ _ _ (spin_some w a s Es)). destruct IH as [r IH]; [intros; apply H; right; assumption|].
  rewrite (bind_val _ _ _ _ _ IH). eexists; reflexivity.
Qed.

(** Every atom of a bond or an on-site term is magnetic. *)
Definition covers (atoms : list atom) (w : world) : Prop :=
  (forall k, In k (bonds w) -> In (b_from k) atoms /\ In (b_to k) atoms) /\ (forall a, In a (sites w) -> In a atoms).

(** [mirrored_value] after switching on, by mirror pairs. *)
Lemma mirrored_bonds (w w1 : world) c : wf w -> wf w1 ->
  (forall k, bond_value w1 k = option_map (mscale c) (mirrored_value w k)) ->
  forall k, In k (bonds w1) <-> In k (bonds w) \/ In (mirror k) (bonds w).
Proof.
  intros W W1 V k. rewrite (bond_value_stored w1 k W1), V. unfold mirrored_value.
  destruct (dmem (h_exch (w_ham w)) (mirror k)) eqn:E.
  - apply dmem_key in E. split; [auto|]. intros _. apply (bond_value_stored w _ W) in E as [J EJ]. rewrite EJ. cbn. eauto.
  - assert (N : ~ In (mirror k) (bonds w)) by (apply dmem_key_false; exact E). split.
    + intros [J EJ]. left. apply (bond_value_stored w _ W). destruct (bond_value w k); [eauto|discriminate].
    + intros [I|I]; [|contradiction]. apply (bond_value_stored w _ W) in I as [J EJ]. rewrite EJ. cbn. eauto.
Qed.

(** ** The constructor *)
Lemma scale_half_twice (m : M3 F) : mscale f2 (mscale (1 / f2) m) = m.
Proof. destruct m; lin3. f_equal; field; fside. Qed.
Lemma option_map_map {A B C} (f : A -> B) (g : B -> C) o : option_map g (option_map f o) = option_map (fun x => g (f x)) o.
Proof. destruct o; reflexivity. Qed.
Lemma option_map_id' {A} (f : A -> A) o : (forall x, f x = x) -> option_map f o = o.
Proof. intros H. destruct o; cbn; [rewrite H|]; reflexivity. Qed.
Lemma mscale_one (m : M3 F) : mscale 1 m = m.
Proof. destruct m; lin3. f_equal; ring. Qed.

(** Everything about a successful construction: the listed entries and the values they hold afterwards. *)
Record built (atoms : list atom) (cell : M3 F) (w w' : world) (E : energy_obj) (ef of_ : F) (ro re : list (bkey * loc)) : Prop := mkBuilt {
  bu_factor : e_factor E = ef;
  bu_spins : map (spin_of w) atoms = map Some (e_spins E);
  bu_field : e_field E = None;
  bu_entries : Forall2 (indexed atoms cell) (ro ++ re) (e_bonds E);
  bu_ro_keys : map fst ro = map (fun a => mkB a a (0, 0, 0)%Z) (sites w);
  bu_ro_values : map (fun kl => nth_error (w_store w') (snd kl)) ro = map (fun a => option_map (mscale (ef / of_)) (onsite_value w a)) (sites w);
  bu_re_nodup : NoDup (map fst re);
  bu_re_keys : forall k, In k (map fst re) <-> In k (bonds w) \/ In (mirror k) (bonds w);
  bu_re_values : forall k l, In (k, l) re -> nth_error (w_store w') l = mirrored_value w k;
  bu_fresh_ro : forall kl, In kl ro -> ~ In (snd kl) (in_use w');
  bu_fresh_re : h_dc (w_ham w) = Some true -> forall kl, In kl re -> ~ In (snd kl) (in_use w') }.

Lemma in_use_lt (w : world) l : wf w -> In l (in_use w) -> (l < List.length (w_store w))%nat.
Proof.
  intros (_ & _ & A & B & _) I. unfold in_use in I. apply in_app_or in I as [I|I]; apply in_map_iff in I as ([k l'] & <- & I); eauto.
Qed.

Lemma wf_grow (st ms : list (M3 F)) h : wf (mkW st h) -> wf (mkW (st ++ ms) h).
Proof.
  intros (A & B & C & D & E & G). unfold wf. splits; auto; intros x l I; cbn [w_store]; rewrite app_length; [specialize (C x l I)|specialize (D x l I)]; cbn [w_store] in *; lia.
Qed.
Lemma grow_bond (st ms : list (M3 F)) h k : wf (mkW st h) -> bond_value (mkW (st ++ ms) h) k = bond_value (mkW st h) k.
Proof.
  intros (_ & _ & W3 & _). unfold bond_value; cbn. destruct (dget (h_exch h) k) as [l|] eqn:E; [|reflexivity]. apply nth_error_app1. apply (W3 k), dget_In, E.
Qed.
Lemma grow_onsite (st ms : list (M3 F)) h k : wf (mkW st h) -> onsite_value (mkW (st ++ ms) h) k = onsite_value (mkW st h) k.
Proof.
  intros (_ & _ & _ & W3 & _). unfold onsite_value; cbn. destruct (dget (h_ons h) k) as [l|] eqn:E; [|reflexivity]. apply nth_error_app1. apply (W3 k), dget_In, E.
Qed.
Lemma unshared_grow (st ms : list (M3 F)) h : unshared (mkW st h) -> unshared (mkW (st ++ ms) h).
Proof. intros U. exact U. Qed.

Lemma magnetic_covers order (w : world) atoms : (forall l, Permutation (order l) l) -> magnetic_atoms order w = (w, Ret atoms) ->
  NoDup atoms /\ forall a, In a atoms <-> (exists k, In k (bonds w) /\ (b_from k = a \/ b_to k = a)) \/ In a (sites w).
Proof.
  intros P E. destruct (magnetic_atoms_exact order w P) as (r & E' & N & _ & H). rewrite E in E'. injection E' as ->. auto.
Qed.

(** The constructor succeeds exactly under the conditions below, and its effect. *)
Lemma energy_init_ok order g cell (w : world) atoms ef of_ dc :
  (forall l, Permutation (order l) l) -> wf w -> (dc = true -> mirror_closed w) -> (dc = false -> unshared w) ->
  h_dc (w_ham w) = Some dc -> h_ef (w_ham w) = Some ef -> h_of (w_ham w) = Some of_ -> of_ <> 0 ->
  magnetic_atoms order w = (w, Ret atoms) -> (forall a, In a atoms -> spin_of w a <> None) ->
  exists w' E ro re, energy_init order g cell w = (w', Ret E) /\ e_g E = map g atoms /\ built atoms cell w w' E ef of_ ro re /\
    wf w' /\ same_rest w w' /\ h_dc (w_ham w') = Some dc /\
    (if dc then forall k, bond_value w' k = bond_value w k
     else exists w1, set_double_counting true w = (w1, Ret tt) /\ wf w1 /\ unshared w1 /\
            (forall k, bond_value w1 k = option_map (mscale (1 / f2)) (mirrored_value w k)) /\
            (forall k, bond_value w' k = if survives w1 k then mirrored_value w k else None)).
Proof.
  intros P W Hm Hu Hdc Hef Hof Hz Hat Hsp.
  destruct (magnetic_covers order w atoms P Hat) as [Nat Cov].
  destruct (all_spins_total atoms w Hsp) as [ss Ess].
  destruct (set_dc_true_ok w W (fun H => Hu ltac:(congruence))) as (w1 & E1 & W1 & U1 & R1 & D1 & V1).
  assert (R1' := R1). destruct R1' as (Q1 & Q2 & Q3 & Q4 & Q5 & Q6 & Q7).
  assert (Ef1 : h_ef (w_ham w1) = Some ef) by congruence. assert (Of1 : h_of (w_ham w1) = Some of_) by congruence.
  destruct (exchange_like_objects w1 ef of_ W1 Ef1 Of1 Hz) as (ms & ro & E2 & K2 & L2 & V2).
  set (w2 := mkW (w_store w1 ++ ms) (w_ham w1)) in *.
  assert (W2 : wf w2) by (unfold w2; apply wf_grow; destruct w1; exact W1).
  assert (B1 := mirrored_bonds w w1 _ W W1 V1).
  assert (Sites1 : sites w1 = sites w) by (unfold sites; rewrite Q1; reflexivity).
  assert (Hcov : forall kl, In kl (ro ++ h_exch (w_ham w1)) -> In (b_from (fst kl)) atoms /\ In (b_to (fst kl)) atoms).
  { intros kl I. apply in_app_or in I as [I|I].
    - apply (in_map fst) in I. rewrite K2, Sites1 in I. apply in_map_iff in I as (a & <- & I). cbn. split; apply Cov; right; exact I.
    - apply (in_map fst) in I. fold (dkeys (h_exch (w_ham w1))) in I. fold (bonds w1) in I. apply B1 in I as [I|I].
      + split; apply Cov; left; exists (fst kl); auto.
      + split; apply Cov; left; exists (mirror (fst kl)); cbn; auto. }
  destruct (index_bonds_ok atoms cell (ro ++ h_exch (w_ham w1)) w2 Hcov) as (bs & E3 & H3).
  assert (Hstart : forall w', set_double_counting dc w2 = (w', Ret tt) ->
     energy_init order g cell w = (w', Ret (mkEnergy ef (map g atoms) ss bs None))).
  { intros w' E4. unfold energy_init.
    rewrite (bind_val _ _ w w ef) by (unfold get_ef; rewrite bind_gets, Hef; reflexivity).
    rewrite (bind_val _ _ _ _ _ Hat). rewrite (bind_val _ _ _ _ _ Ess).
    rewrite (bind_val _ _ w w dc) by (unfold get_dc; rewrite bind_gets, Hdc; reflexivity).
    rewrite (bind_val _ _ _ _ _ E1). rewrite (bind_val _ _ _ _ _ E2). rewrite (bind_val _ _ _ _ _ E3).
    rewrite (bind_val _ _ _ _ _ E4). reflexivity. }
  assert (BV2 : forall k, bond_value w2 k = bond_value w1 k) by (intros k; unfold w2; destruct w1; apply grow_bond; exact W1).
  assert (OV2 : forall k, onsite_value w2 k = onsite_value w1 k) by (intros k; unfold w2; destruct w1; apply grow_onsite; exact W1).
  assert (Nre : NoDup (map fst (h_exch (w_ham w1)))) by apply W1.
  assert (Rov : map (fun kl => nth_error (w_store w2) (snd kl)) ro = map (fun a => option_map (mscale (ef / of_)) (onsite_value w a)) (sites w)).
  { cbn [w2 w_store]. rewrite V2, Sites1. apply map_ext. intros a. rewrite Q7. reflexivity. }
  assert (Rev : forall k l, In (k, l) (h_exch (w_ham w1)) -> nth_error (w_store w2) l = bond_value w1 k).
  { intros k l I. rewrite <- BV2. unfold bond_value, w2; cbn. rewrite (In_dget _ _ _ Nre I). reflexivity. }
  destruct dc.
  - (* double counting before *)
    destruct (set_dc_true_ok w2 W2 ltac:(unfold w2; cbn; congruence)) as (w3 & E4 & W3 & U3 & R3 & D3 & V3).
    destruct (set_dc_true_objects w2 w3 W2 D1 E4) as (ms3 & St3 & Fr3).
    assert (Cl1 : mirror_closed w1).
    { intros k I. rewrite B1 in *. rewrite mirror_invol. destruct I as [I|I]; auto. }
    assert (Grow : forall l, (l < List.length (w_store w2))%nat -> nth_error (w_store w3) l = nth_error (w_store w2) l)
      by (intros l L; rewrite St3; apply nth_error_app1; exact L).
    assert (Bval : forall k, bond_value w1 k = mirrored_value w k)
      by (intros k; rewrite V1, Hdc; cbn [dc_factor]; apply option_map_id', mscale_one).
    assert (Hon3 : forall l, In l (map snd (h_ons (w_ham w3))) -> (l < List.length (w_store w1))%nat).
    { intros l I. destruct R3 as (Z1 & _). rewrite Z1 in I. cbn in I. apply in_map_iff in I as ([a l'] & <- & I). destruct W1 as (_ & _ & _ & H4 & _). exact (H4 _ _ I). }
    assert (Hbo3 : forall l, In l (map snd (h_exch (w_ham w3))) -> (List.length (w_store w2) <= l)%nat).
    { intros l I. apply in_map_iff in I as ([k l'] & <- & I). apply (Fr3 k l' I).
      assert (I' : In k (bonds w3)) by (apply in_map_iff; exists (k, l'); auto).
      apply (mirrored_bonds w2 w3 _ W2 W3 V3) in I' as [I'|I']; [apply Cl1; exact I'|exact I']. }
    eexists w3, _, ro, (h_exch (w_ham w1)). split; [exact (Hstart w3 E4)|]. splits.
    + reflexivity.
    + constructor; cbn [e_factor e_spins e_field e_bonds]; auto.
      * exact (all_spins_ok _ _ _ _ Ess).
      * rewrite K2, Sites1. reflexivity.
      * rewrite <- Rov. apply map_ext_in. intros kl I. apply Grow, L2, I.
      * intros k l I. rewrite Grow; [rewrite (Rev k l I); apply Bval|]. destruct W2 as (_ & _ & H & _). exact (H k l I).
      * intros kl I J. destruct (L2 kl I) as [La Lb]. unfold in_use in J. apply in_app_or in J as [J|J].
        -- apply Hbo3 in J. cbn in J. lia.
        -- apply Hon3 in J. lia.
      * intros _ [k l] I J. cbn [snd] in J. unfold in_use in J. assert (Ll : (l < List.length (w_store w2))%nat) by (destruct W2 as (_ & _ & H & _); exact (H k l I)).
        apply in_app_or in J as [J|J]; [apply Hbo3 in J; lia|].
        (* an on-site object is older than every mirrored object of w1 *)
        destruct (set_dc_true_objects w w1 W Hdc E1) as (ms1 & St1 & Fr1).
        assert (Hk : In k (bonds w1)) by (apply in_map_iff; exists (k, l); auto).
        assert (Hk' : In (mirror k) (bonds w)).
        { apply B1 in Hk as [Hk|Hk]; [apply (Hm eq_refl); exact Hk|exact Hk]. }
        specialize (Fr1 k l I Hk'). destruct R3 as (Z1 & _). rewrite Z1 in J. cbn in J. rewrite Q1 in J.
        apply in_map_iff in J as ([a l'] & El & J). cbn in El. subst l'. destruct W as (_ & _ & _ & H4 & _). specialize (H4 _ _ J). lia.
    + exact W3.
    + destruct R3 as (Z1 & Z2 & Z3 & Z4 & Z5 & Z6 & Z7). unfold same_rest. cbn in Z1, Z2, Z3, Z4, Z5, Z6. splits; try congruence.
    + exact D3.
    + intros k. rewrite V3. assert (D2 : h_dc (w_ham w2) = Some true) by exact D1. rewrite D2. cbn [dc_factor]. rewrite option_map_id' by apply mscale_one. unfold mirrored_value.
      change (h_exch (w_ham w2)) with (h_exch (w_ham w1)).
      rewrite !BV2, !Bval. unfold mirrored_value. rewrite mirror_invol.
      destruct (dmem (h_exch (w_ham w1)) (mirror k)) eqn:Em.
      * apply dmem_key in Em. apply B1 in Em. rewrite mirror_invol in Em. assert (Ik : In k (bonds w)).
        { destruct Em as [Em|Em]; [apply (Hm eq_refl) in Em; rewrite mirror_invol in Em|]; exact Em. }
        apply dmem_key in Ik. unfold bonds in Ik. rewrite Ik. rewrite option_map_map. apply option_map_id', mtrans_invol.
      * assert (Nk : ~ In k (bonds w)).
        { intros I. apply dmem_key_false in Em. apply Em. change (dkeys (h_exch (w_ham w1))) with (bonds w1). apply B1. rewrite mirror_invol. auto. }
        assert (Nk' : ~ In (mirror k) (bonds w)).
        { intros I. apply (Hm eq_refl) in I. rewrite mirror_invol in I. contradiction. }
        apply dmem_key_false in Nk'. unfold bonds in Nk'. rewrite Nk'. reflexivity.
  - (* no double counting before *)
    assert (U : unshared w) by (apply Hu; reflexivity). assert (Un1 : unshared w1) by (apply U1, U).
    assert (Un2 : unshared w2) by exact Un1.
    assert (Cl1 : forall k, In k (bonds w2) -> canonical k = true \/ In (mirror k) (bonds w2)).
    { intros k I. right. change (bonds w2) with (bonds w1) in *. rewrite B1 in *. rewrite mirror_invol. tauto. }
    destruct (set_dc_false_ok w2 W2 (fun _ => Un2) Cl1) as (w3 & E4 & W3 & U3 & R3 & D3 & V3).
    assert (St3 := set_dc_false_store w2 w3 _ W2 E4). unfold dc_scaled in St3. assert (D2 : h_dc (w_ham w2) = Some true) by exact D1. rewrite D2 in St3. cbn [w_store] in St3.
    assert (Nsnd : NoDup (map snd (h_exch (w_ham w1)))) by exact (NoDup_app_l _ _ Un1).
    assert (Hfst : map fst (upds (fun _ : bkey => mscale f2) (h_exch (w_ham w2))) = map snd (h_exch (w_ham w1))).
    { unfold upds. rewrite map_map. reflexivity. }
    assert (Bval : forall k, option_map (mscale f2) (bond_value w1 k) = mirrored_value w k).
    { intros k. rewrite V1, Hdc. cbn [dc_factor]. rewrite option_map_map. apply option_map_id', scale_half_twice. }
    assert (Hin3 : forall l, In l (in_use w3) -> (l < List.length (w_store w1))%nat).
    { intros l I. unfold in_use in I. apply in_app_or in I as [I|I].
      - assert (exists k, In (k, l) (h_exch (w_ham w3))) as [k J].
        { apply in_map_iff in I as ([k l'] & <- & I). eauto. }
        unfold set_double_counting in E4. clear - E4 J W1 W2 D2 D1. 
        assert (E5 : ensure_no_dc (dc_scaled w2 false) = (w3, Ret tt)) by (rewrite <- (set_dc_split w2 false W2); exact E4).
        unfold ensure_no_dc in E5. rewrite bind_gets in E5. apply bind_inv in E5 as (w4 & r & E6 & E5).
        assert (w4 = dc_scaled w2 false) as ->.
        { clear -E6. revert w4 r E6. induction (h_exch (w_ham (dc_scaled w2 false))) as [|[k l] t IH]; intros w4 r E; cbn [collect_removal] in E; [injection E; auto|].
          rewrite bind_gets in E. destruct (canonical k); [|destruct (dmem _ _); [|discriminate]]; apply bind_inv in E as (w5 & r' & E & E'); injection E' as <- _; exact (IH _ _ E). }
        destruct (dc_scaled w2 false) as [st5 h5] eqn:E7. rewrite remove_all_nodc in E5 by (apply (f_equal (fun w => h_dc (w_ham w))) in E7; cbn in E7; congruence).
        apply (f_equal fst) in E5. cbn [fst] in E5. subst w3. cbn in J. apply del_all_incl in J.
        apply (f_equal (fun w => h_exch (w_ham w))) in E7. cbn in E7. rewrite <- E7 in J. destruct W1 as (_ & _ & H & _). exact (H _ _ J).
      - destruct R3 as (Z1 & _). rewrite Z1 in I. cbn in I. apply in_map_iff in I as ([a l'] & <- & I). destruct W1 as (_ & _ & _ & H4 & _). exact (H4 _ _ I). }
    eexists w3, _, ro, (h_exch (w_ham w1)). split; [exact (Hstart w3 E4)|]. splits.
    + reflexivity.
    + constructor; cbn [e_factor e_spins e_field e_bonds]; auto.
      * exact (all_spins_ok _ _ _ _ Ess).
      * rewrite K2, Sites1. reflexivity.
      * rewrite <- Rov. apply map_ext_in. intros kl I. rewrite St3. apply nth_apply_upds_out. rewrite Hfst. intros J.
        apply in_map_iff in J as ([k l'] & El & J). destruct W1 as (_ & _ & H & _). specialize (H _ _ J). destruct (L2 kl I) as [La Lb]. change (l' = snd kl) in El. rewrite El in H. exact (Nat.lt_irrefl _ (Nat.lt_le_trans _ _ _ H La)).
      * intros k l I. rewrite St3. rewrite (nth_apply_upds_in _ _ _ (mscale f2)).
        -- rewrite (Rev k l I). apply Bval.
        -- rewrite Hfst. exact Nsnd.
        -- unfold upds. apply in_map_iff. exists (k, l). auto.
      * intros kl I J. destruct (L2 kl I) as [La Lb]. apply Hin3 in J. lia.
      * intros; congruence.
    + exact W3.
    + destruct R3 as (Z1 & Z2 & Z3 & Z4 & Z5 & Z6 & Z7). unfold same_rest. cbn in Z1, Z2, Z3, Z4, Z5, Z6. splits; try congruence.
    + exact D3.
    + exists w1. splits; auto.
      * intros k. rewrite V1, Hdc. reflexivity.
      * intros k. rewrite V3, D2. cbn [dc_factor]. change (survives w2 k) with (survives w1 k). destruct (survives w1 k); [|reflexivity]. rewrite BV2. apply Bval.
Qed.


(** ** The value of [ferro] right after the construction *)
Lemma fold_osum {A} (f : A -> option F) l : forall a,
  fold_left (fun acc b => match acc, f b with Some x, Some y => Some (x + y) | _, _ => None end) l (Some a)
  = option_map (fun x => a + x) (osum (map f l)).
Proof.
  assert (Hn : forall l, fold_left (fun acc b => match acc, f b with Some x, Some y => Some (x + y) | _, _ => None end) l None = None).
  { clear. induction l as [|b l IH]; [reflexivity|]. cbn. exact IH. }
  induction l as [|b l IH]; intros a; cbn [fold_left map osum].
  - cbn. f_equal. ring.
  - destruct (f b) as [y|]; [|apply Hn]. rewrite IH. destruct (osum (map f l)); cbn; [f_equal; ring|reflexivity].
Qed.
Lemma bonds_energy_osum st E C dirs : bonds_energy st E C dirs = osum (map (bond_energy st E C dirs) (e_bonds E)).
Proof. unfold bonds_energy. rewrite fold_osum. destruct (osum _) as [x|]; cbn; [f_equal; ring|reflexivity]. Qed.

Definition uniform (u : atom -> V3 F) : config := fun a _ => u a.
Lemma uniform_periodic u : periodic (1, 1, 1)%nat (uniform u).
Proof. unfold periodic. intros. splits; reflexivity. Qed.
Lemma uniform_pair u k J : pair_energy (1, 1, 1)%nat (uniform u) k J = bilin (u (b_from k)) J (u (b_to k)).
Proof. unfold pair_energy, sum_box, sum_upto, uniform, bilin. ring. Qed.
Lemma uniform_site u a J : site_energy (1, 1, 1)%nat (uniform u) a J = bilin (u a) J (u a).
Proof. unfold site_energy, sum_box, sum_upto, uniform, bilin. ring. Qed.

(** One entry, by the Hamiltonian's own spins. *)
Definition entry_term (w : world) (st : list (M3 F)) (ef : F) (u : atom -> V3 F) (kl : bkey * loc) : option F :=
  match spin_of w (b_from (fst kl)), spin_of w (b_to (fst kl)), nth_error st (snd kl) with
  | Some x, Some y, Some J => Some (ef * (x * y * bilin (u (b_from (fst kl))) J (u (b_to (fst kl)))))
  | _, _, _ => None
  end.
Lemma spins_at (w : world) atoms ss i a : map (spin_of w) atoms = map Some ss -> nth_error atoms i = Some a ->
  nth_error ss i = spin_of w a.
Proof.
  intros H E. assert (X : nth_error (map (spin_of w) atoms) i = nth_error (map Some ss) i) by (rewrite H; reflexivity).
  rewrite (map_nth_error _ _ _ E) in X. destruct (nth_error ss i) as [s|] eqn:Es.
  - rewrite (map_nth_error _ _ _ Es) in X. injection X; auto.
  - assert (Y : nth_error (map Some ss) i = None) by (apply nth_error_None; rewrite map_length; apply nth_error_None; exact Es). rewrite Y in X. discriminate.
Qed.
Lemma entry_bond_energy (w : world) atoms cell (E : energy_obj) st u kl b :
  map (spin_of w) atoms = map Some (e_spins E) -> indexed atoms cell kl b ->
  bond_energy st E (fun _ J => J) (map u atoms) b = entry_term w st (e_factor E) u kl.
Proof.
  intros H. destruct b as [[[i j] d] l]. intros (A & B & C & ->). unfold bond_energy, entry_term.
  rewrite (spins_at w atoms _ i _ H A), (spins_at w atoms _ j _ H B).
  rewrite (map_nth_error u _ _ A), (map_nth_error u _ _ B).
  destruct (spin_of w (b_from (fst kl))); [|reflexivity]. destruct (spin_of w (b_to (fst kl))); [|reflexivity].
  destruct (nth_error st (snd kl)); [|reflexivity]. f_equal. ring.
Qed.

Definition pw (w : world) (u : atom -> V3 F) (k : bkey) (J : M3 F) : F := bond_weight false w k * bilin (u (b_from k)) J (u (b_to k)).
Lemma pw_mirror (w : world) u k J : pw w u (mirror k) (mtrans J) = pw w u k J.
Proof. unfold pw. rewrite bond_weight_mirror. unfold mirror; cbn [b_from b_to]. unfold bilin. rewrite dot_mvec_trans. reflexivity. Qed.
Lemma option_map_None {A B} (f : A -> B) o : option_map f o = None -> o = None.
Proof. destruct o; [discriminate|reflexivity]. Qed.

Lemma built_ferro atoms cell (w w' : world) (E : energy_obj) ef of_ ro re u X Y :
  wf w -> built atoms cell w w' E ef of_ ro re -> of_ <> 0 ->
  osum (map (bond_term false w (1, 1, 1)%nat (uniform u)) (bonds w)) = Some X ->
  osum (map (site_term false w (1, 1, 1)%nat (uniform u)) (sites w)) = Some Y ->
  bonds_energy (w_store w') E (fun _ J => J) (map u atoms) =
  Some (ef * (ef / of_ * Y) + ef * fsum (map (fun k => pw w u k (vdef (mirrored_value w k))) (map fst re))).
Proof.
  intros W B Hz HX HY. destruct B as [B1 B2 B3 B4 B5 B6 B7 B8 B9 _ _]. rewrite bonds_energy_osum.
  assert (Em : map (bond_energy (w_store w') E (fun _ J => J) (map u atoms)) (e_bonds E) = map (entry_term w (w_store w') ef u) (ro ++ re)).
  { clear - B1 B2 B4. induction B4 as [|kl b t r H4 B4 IH]; [reflexivity|]. cbn [map]. rewrite IH.
    rewrite (entry_bond_energy w atoms cell E (w_store w') u kl b B2 H4), B1. reflexivity. }
  rewrite Em, map_app, osum_app.
  assert (E1 : osum (map (entry_term w (w_store w') ef u) ro) = Some (ef * (ef / of_ * Y))).
  { assert (Eo : map (entry_term w (w_store w') ef u) ro =
      map (fun a => option_map (fun v => (ef * (ef / of_)) * v) (site_term false w (1, 1, 1)%nat (uniform u) a)) (sites w)).
    { transitivity (map (fun p => match spin_of w (b_from (fst p)), spin_of w (b_to (fst p)), snd p with
          | Some x, Some y, Some J => Some (ef * (x * y * bilin (u (b_from (fst p))) J (u (b_to (fst p))))) | _, _, _ => None end)
          (combine (map fst ro) (map (fun kl => nth_error (w_store w') (snd kl)) ro))).
      - clear. induction ro as [|kl t IH]; [reflexivity|]. cbn [map combine fst snd]. rewrite <- IH. reflexivity.
      - rewrite B5, B6. clear. induction (sites w) as [|a t IH]; [reflexivity|]. cbn [map combine fst snd b_from b_to]. rewrite <- IH. f_equal.
        unfold site_term, spin_length. destruct (spin_of w a) as [x|]; [|reflexivity]. destruct (onsite_value w a) as [A|]; [|reflexivity]. cbn [option_map].
        rewrite uniform_site. f_equal. transitivity (ef * (x * x * (ef / of_ * bilin (u a) A (u a)))); [f_equal; f_equal|ring].
        destruct A, (u a). lin3. ring. }
    rewrite Eo. rewrite (osum_map_scale (site_term false w (1, 1, 1)%nat (uniform u)) _ (ef * (ef / of_))) by (intros; reflexivity).
    rewrite HY. cbn. f_equal. ring. }
  rewrite E1.
  assert (Hs := osum_bonds_spins _ _ _ _ _ HX).
  assert (E2 : osum (map (entry_term w (w_store w') ef u) re) = Some (ef * fsum (map (fun k => pw w u k (vdef (mirrored_value w k))) (map fst re)))).
  { rewrite <- fsum_map_scale. rewrite map_map. apply osum_fsum. intros [k l] I. unfold entry_term. cbn [fst snd]. rewrite (B9 k l I).
    assert (Ik : In k (map fst re)) by (apply in_map_iff; exists (k, l); auto). apply B8 in Ik.
    assert (Sp : spin_of w (b_from k) <> None /\ spin_of w (b_to k) <> None).
    { destruct Ik as [Ik|Ik]; [exact (Hs k Ik)|destruct (Hs (mirror k) Ik); auto]. }
    destruct Sp as [S1 S2]. unfold pw, bond_weight, slen.
    change (dget (h_spins (w_ham w)) (b_from k)) with (spin_of w (b_from k)). change (dget (h_spins (w_ham w)) (b_to k)) with (spin_of w (b_to k)).
    destruct (spin_of w (b_from k)) as [x|]; [|congruence]. destruct (spin_of w (b_to k)) as [y|]; [|congruence]. cbn [sdef].
    destruct (mirrored_value w k) as [J|] eqn:EJ; [reflexivity|]. exfalso. unfold mirrored_value in EJ.
    destruct (dmem (h_exch (w_ham w)) (mirror k)) eqn:Em'.
    - apply option_map_None in EJ. apply (bond_value_absent w _ W) in EJ. apply EJ. apply dmem_key. exact Em'.
    - apply (bond_value_absent w _ W) in EJ. apply dmem_key_false in Em'. tauto. }
  rewrite E2. reflexivity.
Qed.

Lemma exchange_uniform (w : world) u X : osum (map (bond_term false w (1, 1, 1)%nat (uniform u)) (bonds w)) = Some X ->
  X = fsum (map (fun k => pw w u k (vdef (bond_value w k))) (bonds w)).
Proof.
  intros H. rewrite (bond_terms_sum _ _ _ _ _ H). apply fsum_map_ext. intros k _. rewrite uniform_pair. reflexivity.
Qed.

(** With double counting. *)
Lemma built_ferro_dc atoms cell (w w' : world) (E : energy_obj) ef of_ ro re u X Y :
  wf w -> built atoms cell w w' E ef of_ ro re -> of_ <> 0 -> mirror_closed w ->
  osum (map (bond_term false w (1, 1, 1)%nat (uniform u)) (bonds w)) = Some X ->
  osum (map (site_term false w (1, 1, 1)%nat (uniform u)) (sites w)) = Some Y ->
  bonds_energy (w_store w') E (fun _ J => J) (map u atoms) = Some (ef * X + ef * (ef / of_) * Y).
Proof.
  intros W B Hz Hm HX HY. rewrite (built_ferro _ _ _ _ _ _ _ _ _ u X Y W B Hz HX HY). f_equal.
  rewrite (exchange_uniform w u X HX).
  assert (Pk : Permutation (map fst re) (map mirror (bonds w))).
  { apply NoDup_Permutation; [apply (bu_re_nodup _ _ _ _ _ _ _ _ _ B)|apply NoDup_map_mirror, W|].
    intros k. rewrite (bu_re_keys _ _ _ _ _ _ _ _ _ B), in_map_iff. split.
    - intros I. exists (mirror k). rewrite mirror_invol. split; [reflexivity|]. destruct I as [I|I]; [apply Hm, I|exact I].
    - intros (x & <- & I). right. rewrite mirror_invol. exact I. }
  rewrite (fsum_perm _ _ (Permutation_map _ Pk)), map_map.
  rewrite (fsum_map_ext (fun x => pw w u (mirror x) (vdef (mirrored_value w (mirror x)))) (fun k => pw w u k (vdef (bond_value w k)))).
  - ring.
  - intros k I. rewrite <- (pw_mirror w u k). f_equal. unfold mirrored_value. rewrite mirror_invol.
    assert (I' := I). apply dmem_key in I'. unfold bonds in I'. rewrite I'. apply (bond_value_stored w k W) in I as [J ->]. reflexivity.
Qed.
(** Without double counting, each pair stored once. *)
Lemma built_ferro_no_dc atoms cell (w w' : world) (E : energy_obj) ef of_ ro re u X Y :
  wf w -> built atoms cell w w' E ef of_ ro re -> of_ <> 0 -> (forall k, In k (bonds w) -> ~ In (mirror k) (bonds w)) ->
  osum (map (bond_term false w (1, 1, 1)%nat (uniform u)) (bonds w)) = Some X ->
  osum (map (site_term false w (1, 1, 1)%nat (uniform u)) (sites w)) = Some Y ->
  bonds_energy (w_store w') E (fun _ J => J) (map u atoms) = Some (f2 * (ef * X) + ef * (ef / of_) * Y).
Proof.
  intros W B Hz Hm HX HY. rewrite (built_ferro _ _ _ _ _ _ _ _ _ u X Y W B Hz HX HY). f_equal.
  rewrite (exchange_uniform w u X HX).
  assert (Pk : Permutation (map fst re) (bonds w ++ map mirror (bonds w))).
  { apply split_mirror; [apply (bu_re_nodup _ _ _ _ _ _ _ _ _ B)|apply W|exact (bu_re_keys _ _ _ _ _ _ _ _ _ B)|exact Hm]. }
  rewrite (fsum_perm _ _ (Permutation_map _ Pk)), map_app, fsum_app, map_map.
  rewrite (fsum_map_ext (fun k => pw w u k (vdef (mirrored_value w k))) (fun k => pw w u k (vdef (bond_value w k))) (bonds w)).
  2:{ intros k I. unfold mirrored_value. assert (N := Hm k I). apply dmem_key_false in N. unfold bonds in N. rewrite N. reflexivity. }
  rewrite (fsum_map_ext (fun x => pw w u (mirror x) (vdef (mirrored_value w (mirror x)))) (fun k => pw w u k (vdef (bond_value w k))) (bonds w)).
  - unfold f2. ring.
  - intros k I. rewrite <- (pw_mirror w u k). f_equal. unfold mirrored_value. rewrite mirror_invol.
    assert (I' := I). apply dmem_key in I'. unfold bonds in I'. rewrite I'. apply (bond_value_stored w k W) in I as [J ->]. reflexivity.
Qed.

End EnergyInitProofs.
