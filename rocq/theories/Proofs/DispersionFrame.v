(** MagnonDispersion and the Hamiltonian it was made from: independence, and when the construction succeeds. *)
From Coq Require Import List Bool ZArith Reals Lra Lia Permutation Arith String.
From Coquelicot Require Import Complex.
From Verif.Base Require Import Scalar ScalarR Linear3 PyDict PyString.
From Verif.Model Require Import MatrixParam Hamiltonian History EnergyInit Energy Dispersion.
From Verif.Spec Require Import HamSpec NotationSpec HistorySpec DispersionSpec.
From Verif.Proofs Require Import DictProofs HamBasics HamSetters HamDouble HamDcEnergy NotationProofs HistoryProofs CallProofs FilterProofs FrameProofs
  HamGlue EnergyInitProofs OptimizerProofs DispersionMatrix DispersionInit DispersionAxes.
From Coq Require Import List.
Import ListNotations.
Local Open Scope R_scope.

Section Frame.
Variable P : list loc.
Lemma fr_atom_index atoms a : frames P (@atom_index R atoms a) (fun _ => True).
Proof. unfold atom_index. destruct (position a atoms); [apply fr_ret|apply fr_raise]; exact I. Qed.
Lemma fr_index_pairs atoms vec items : (forall kl, In kl items -> ~ In (snd kl) P) ->
  frames P (index_pairs atoms vec items) (fun bs => forall b, In b bs -> ~ In (snd b) P).
Proof.
  induction items as [|[k l] t IH]; intros H; cbn [index_pairs]; [apply fr_ret; intros b []|].
  eapply fr_bind; [apply fr_atom_index|]. intros i _. eapply fr_bind; [apply fr_atom_index|]. intros j _.
  eapply fr_bind; [apply IH; intros kl J; apply H; right; exact J|]. intros r Hr. apply fr_ret. intros b [<-|J]; [apply (H (k, l)); left; reflexivity|apply Hr, J].
Qed.
Lemma fr_get_ef : frames P (@get_ef R) (fun _ => True).
Proof. unfold get_ef. eapply fr_bind; [apply fr_gets|]. intros [x|] _; [apply fr_ret|apply fr_raise]; exact I. Qed.
Lemma fr_get_of : frames P (@get_of R) (fun _ => True).
Proof. unfold get_of. eapply fr_bind; [apply fr_gets|]. intros [x|] _; [apply fr_ret|apply fr_raise]; exact I. Qed.
Lemma fr_scaled_onsite (c : R) e : frames P (scaled_onsite c e) (fun r => forall kl, In kl r -> ~ In (snd kl) P).
Proof.
  induction e as [|[a l] t IH]; cbn [scaled_onsite]; [apply fr_ret; intros b []|].
  eapply fr_bind; [apply fr_read|]. intros m _. eapply fr_bind; [apply fr_alloc|]. intros l' Hl.
  eapply fr_bind; [apply IH|]. intros r Hr. apply fr_ret. intros b [<-|J]; [exact Hl|apply Hr, J].
Qed.
Lemma fr_exchange_like : frames P (@exchange_like R _) (fun r => forall kl, In kl r -> ~ In (snd kl) P).
Proof.
  unfold exchange_like. eapply fr_bind; [apply fr_get_ef|]. intros ef _. eapply fr_bind; [apply fr_get_of|]. intros of_ _.
  eapply fr_bind; [apply fr_py_div|]. intros c _. eapply fr_bind; [apply fr_gets|]. intros e _. eapply fr_bind; [apply fr_scaled_onsite|]. intros r Hr.
  eapply fr_bind; [apply fr_gets_exch|]. intros d Hd. apply fr_ret. intros kl J. apply in_app_or in J as [J|J]; [apply Hr, J|]. apply Hd, in_map, J.
Qed.
Lemma fr_magnetic order : frames P (@magnetic_atoms R order) (fun _ => True).
Proof. unfold magnetic_atoms. eapply fr_bind; [apply fr_gets|]. intros h _. apply fr_ret. exact I. Qed.
Lemma fr_lift {A} (o : out A) : frames P (lift o) (fun _ => True).
Proof. intros w Hw. cbn. splits; auto using same_at_refl. Qed.
Lemma fr_init order cell pos sv : frames P (init_copy order cell pos sv) (fun D => forall b, In b (d_bonds D) -> ~ In (snd b) P).
Proof.
  unfold init_copy. eapply fr_bind; [apply fr_set_notation|]. intros _ _. eapply fr_bind; [apply fr_magnetic|]. intros atoms _.
  eapply fr_bind; [apply fr_exchange_like|]. intros items Hi. eapply fr_bind; [apply fr_index_pairs, Hi|]. intros bs Hb.
  eapply fr_bind; [apply fr_lift|]. intros ax _. apply fr_ret. exact Hb.
Qed.
End Frame.

Lemma set_notation_spinw (w w' : world) : set_notation (NStr "SpinW") w = (w', Ret tt) -> h_ef (w_ham w') = Some 1 /\ h_of (w_ham w') = Some 1.
Proof.
  intros H. unfold set_notation in H. replace (parse_notation (NStr "SpinW")) with (Some (true, false, 1, 1)) in H by reflexivity.
  apply bind_inv in H as (w1 & [] & _ & H). apply bind_inv in H as (w2 & [] & _ & H). apply bind_inv in H as (w3 & [] & H3 & H).
  destruct (set_ef_outcome w2 1) as (st3 & _ & [E3|[e E3]]); rewrite H3 in E3; [|discriminate]. injection E3 as ->.
  destruct (set_of_outcome (mkW st3 (with_ef (w_ham w2) 1)) 1) as (st4 & _ & [E4|[e E4]]); rewrite H in E4; [|discriminate]. injection E4 as ->. split; reflexivity.
Qed.

(** ** The given Hamiltonian and the dispersion do not affect each other *)
Lemma dispersion_independent order cell pos sv (w : world) : Inv w ->
  let '(w1, o) := dispersion_init order cell pos sv w in
  wf (mkW (w_store w1) (w_ham w)) /\ same_parameters w (mkW (w_store w1) (w_ham w)) /\
  forall D, o = Ret D -> forall ops, (forall c l, In c ops -> In l (mentions c) -> ~ In l (map snd (d_bonds D))) ->
    forall k p q, d_h (w_store (run ops (mkW (w_store w1) (w_ham w)))) D k p q = d_h (w_store w1) D k p q.
Proof.
  intros I0. unfold dispersion_init. assert (C := copy_ok (w_store w) (w_ham w)). destruct w as [st0 h0]. cbn [w_store w_ham] in *. specialize (C (proj1 I0)).
  destruct (copy_ham st0 h0) as [st1 h1]. destruct C as ((ms & Est) & W1 & D1 & _ & _ & _ & _ & _ & B1 & S1 & _ & _ & L1).
  assert (I1 : Inv (mkW st1 h1)). { split; [exact W1|]. cbn [w_ham]. rewrite D1. intros Dc. unfold mirror_closed. rewrite B1. apply I0, Dc. }
  assert (U0 : forall l, In l (in_use (mkW st0 h0)) -> (l < List.length st0)%nat) by (intros l J; exact (wf_in_use (mkW st0 h0) l (proj1 I0) J)).
  assert (Ap1 : apart (in_use (mkW st0 h0)) (mkW st1 h1)).
  { intros l J. specialize (U0 l J). cbn. rewrite Est, app_length. split; [lia|]. intros J'. specialize (L1 l J'). lia. }
  destruct (fr_init (in_use (mkW st0 h0)) order cell pos sv (mkW st1 h1) Ap1) as (Ap2 & Sa2 & Q2).
  destruct (init_copy order cell pos sv (mkW st1 h1)) as [w1 o] eqn:E1. cbn [fst snd] in *.
  assert (Sa : forall l, In l (in_use (mkW st0 h0)) -> nth_error (w_store w1) l = nth_error st0 l).
  { intros l J. etransitivity; [exact (Sa2 l J)|]. cbn. rewrite Est. apply nth_error_app1, U0, J. }
  splits.
  - destruct I0 as [(N1 & N2 & W3 & W4 & W5) _]. unfold wf, bonds, sites in *. cbn [w_ham w_store] in *. splits; auto.
    + intros k l J. apply (Ap2 l). unfold in_use. apply in_or_app; left. apply in_map_iff. exists (k, l). auto.
    + intros k l J. apply (Ap2 l). unfold in_use. apply in_or_app; right. apply in_map_iff. exists (k, l). auto.
    + apply W5.
    + apply W5.
  - apply values_at; [reflexivity|exact Sa].
  - intros D -> ops Hops k p q.
    assert (Lt : forall l, In l (map snd (d_bonds D)) -> (l < List.length (w_store w1))%nat).
    { unfold init_copy in E1. apply bind_inv in E1 as (w4 & [] & H0 & H). assert (I4 : Inv w4).
      { assert (X := Inv_set_notation (NStr "SpinW") _ I1). rewrite H0 in X. exact X. }
      destruct (set_notation_spinw _ _ H0) as [Ef Of]. apply bind_inv in H as (w5 & atoms & Ha & H). assert (w5 = w4) as -> by (eapply magnetic_state; eauto).
      assert (nz : (1 : R) <> @f0 R R_Scalar) by exact R1_neq_R0.
      destruct (exchange_like_objects w4 1 1 (proj1 I4) Ef Of nz) as (ms4 & ro & Ex & K2 & L2 & V2).
      rewrite (bind_val _ _ _ _ _ Ex) in H. apply bind_inv in H as (w6 & bs & Hb & H). apply index_pairs_spec in Hb as (-> & Hb & Fa).
      unfold lift in H at 1. apply bind_inv in H as (w7 & ax & Hx & H). injection Hx as <- Hx. injection H as <- <-. cbn [d_bonds w_store].
      intros l J. rewrite Hb, map_map in J. cbn [snd] in J. apply in_map_iff in J as ([k' l'] & E & J). cbn [snd] in E. subst l'.
      apply in_app_or in J as [J|J]; [apply (L2 _ J)|]. rewrite app_length. destruct (proj1 I4) as (_ & _ & W3 & _). specialize (W3 _ _ J). lia. }
    assert (Ap3 : apart (map snd (d_bonds D)) (mkW (w_store w1) h0)).
    { intros l J. split; [exact (Lt l J)|]. intros J0. apply in_map_iff in J as (b & <- & J). exact (Q2 D eq_refl b J J0). }
    destruct (fr_run (map snd (d_bonds D)) ops Hops (mkW (w_store w1) h0) Ap3) as [_ X].
    assert (EJ : forall kk i j, d_J (w_store (run ops (mkW (w_store w1) h0))) D kk i j = d_J (w_store w1) D kk i j).
    { intros kk i j. unfold d_J. cut (forall l, incl l (d_bonds D) -> forall acc,
        fold_left (fun acc b => if at_ij i j b then cm_add acc (term_J (w_store (run ops (mkW (w_store w1) h0))) kk b) else acc) l acc =
        fold_left (fun acc b => if at_ij i j b then cm_add acc (term_J (w_store w1) kk b) else acc) l acc); [intros K; apply K, incl_refl|].
      induction l as [|[[[i' j'] d] l'] t IH]; intros Hi acc; [reflexivity|]. cbn [fold_left].
      replace (term_J (w_store (run ops (mkW (w_store w1) h0))) kk (i', j', d, l')) with (term_J (w_store w1) kk (i', j', d, l')).
      - apply IH. intros b J. apply Hi. right; exact J.
      - unfold term_J. f_equal. assert (Y := X l' (in_map snd _ _ (Hi _ (or_introl eq_refl)))). cbn [w_store] in Y.
        specialize (Lt l' (in_map snd _ _ (Hi _ (or_introl eq_refl)))). destruct (nth_error (w_store w1) l') as [m|] eqn:Em.
        + rewrite (nth_error_nth _ _ _ Em), (nth_error_nth _ _ _ Y). reflexivity.
        + apply nth_error_None in Em. unfold loc in *. lia. }
    assert (EA : forall kk i j, d_A (w_store (run ops (mkW (w_store w1) h0))) D kk i j = d_A (w_store w1) D kk i j) by (intros; unfold d_A; rewrite EJ; reflexivity).
    assert (EB : forall kk i j, d_B (w_store (run ops (mkW (w_store w1) h0))) D kk i j = d_B (w_store w1) D kk i j) by (intros; unfold d_B; rewrite EJ; reflexivity).
    assert (EC : forall i j, d_C (w_store (run ops (mkW (w_store w1) h0))) D i j = d_C (w_store w1) D i j).
    { intros i j. unfold d_C. destruct (Nat.eqb i j); [|reflexivity]. generalize (seq 0 (d_N D)), (RtoC 0). induction l as [|x l IH]; intros acc; [reflexivity|].
      cbn [fold_left]. rewrite EJ. apply IH. }
    unfold d_h. rewrite !EA, !EB, !EC. reflexivity.
Qed.

(** ** When the construction succeeds *)
Lemma index_pairs_total atoms vec items (w : world) : (forall kl, In kl items -> In (b_from (fst kl)) atoms /\ In (b_to (fst kl)) atoms) ->
  exists r, index_pairs atoms vec items w = (w, Ret r).
Proof.
  induction items as [|[k l] t IH]; intros H; cbn [index_pairs]; [eexists; reflexivity|].
  destruct (H (k, l) (or_introl eq_refl)) as [H1 H2]. cbn [fst] in *. destruct (position_In _ _ H1) as (i & Ei & _). destruct (position_In _ _ H2) as (j & Ej & _).
  destruct IH as [r Er]; [intros kl J; apply H; right; exact J|].
  rewrite (bind_val _ _ w w i) by (unfold atom_index; rewrite Ei; reflexivity). rewrite (bind_val _ _ w w j) by (unfold atom_index; rewrite Ej; reflexivity).
  rewrite (bind_val _ _ _ _ _ Er). eexists; reflexivity.
Qed.
Lemma local_axes_total sv atoms : (forall a, In a atoms -> exists s, sv a = Some s /\ norm s <> 0) -> exists r, local_axes sv atoms = Ret r.
Proof.
  induction atoms as [|a t IH]; intros H; cbn [local_axes]; [eexists; reflexivity|]. destruct (H a (or_introl eq_refl)) as (s & -> & Hs).
  destruct (span_spec s Hs) as (e1 & e2 & e3 & -> & _). destruct IH as [r ->]; [intros b J; apply H; right; exact J|]. cbn. eexists; reflexivity.
Qed.

Lemma dispersion_total order cell pos sv (w : world) : (forall l, Permutation (order l) l) -> wf w -> unshared w -> spins_defined w ->
  (forall a, In a (sites w) \/ (exists k, In k (bonds w) /\ (b_from k = a \/ b_to k = a)) -> exists s, sv a = Some s /\ s <> vzero) ->
  exists w1 D, dispersion_init order cell pos sv w = (w1, Ret D).
Proof.
  intros P W U Sp Sv. unfold dispersion_init. assert (CP := copy_ok (w_store w) (w_ham w)).
  replace (mkW (w_store w) (w_ham w)) with w in CP by (destruct w; reflexivity). specialize (CP W).
  destruct (copy_ham (w_store w) (w_ham w)) as [st h] eqn:Ec.
  destruct CP as (_ & Wc & _ & _ & _ & _ & Spc & _ & Bc & Sc & [Vb Vo] & Uc & _). specialize (Uc U). set (wc := mkW st h) in *.
  assert (Spd : spins_defined wc). { unfold spins_defined, spin_of. rewrite Bc, Sc. unfold wc; cbn [w_ham]. rewrite Spc. exact Sp. }
  destruct (set_dc_true_ok wc Wc (fun _ => Uc)) as (w1 & E1 & W1 & U1 & R1 & _ & V1). destruct R1 as (Q1 & Q2 & Q3 & _).
  assert (B1 := mirrored_bonds wc w1 _ Wc W1 V1).
  assert (Sp1 : spins_defined w1).
  { destruct Spd as [P1 P2]. unfold spins_defined, spin_of, sites in *. rewrite Q3, Q1. split; [|exact P2]. intros k I. apply B1 in I as [I|I]; [apply P1, I|]. destruct (P1 _ I) as [A B]. cbn in A, B. auto. }
  destruct (set_sn_total w1 false W1 Sp1) as [w2 E2]. destruct (set_sn_outcome w1 false) as (st2 & L2 & [E2'|[e E2']]); rewrite E2 in E2'; [|discriminate]. injection E2' as ->.
  set (w2 := mkW st2 _) in *.
  assert (W2 : wf w2). { destruct W1 as (A & B & C & D & E & G). unfold w2, wf, bonds, sites in *; cbn. rewrite L2. splits; auto. }
  assert (nz : (1 : R) <> @f0 R R_Scalar) by exact R1_neq_R0.
  destruct (set_ef_total w2 1 W2 nz) as [w3 E3]. destruct (set_ef_outcome w2 1) as (st3 & L3 & [E3'|[e E3']]); rewrite E3 in E3'; [|discriminate]. injection E3' as ->. set (w3 := mkW st3 _) in *.
  assert (W3 : wf w3). { destruct W2 as (A & B & C & D & E & G). unfold w3, wf, bonds, sites in *; cbn. rewrite L3. splits; auto. }
  destruct (set_of_total w3 1 W3 nz) as [w4 E4]. destruct (set_of_outcome w3 1) as (st4 & L4 & [E4'|[e E4']]); rewrite E4 in E4'; [|discriminate]. injection E4' as ->. set (w4 := mkW st4 _) in *.
  assert (W4 : wf w4). { destruct W3 as (A & B & C & D & E & G). unfold w4, wf, bonds, sites in *; cbn. rewrite L4. splits; auto. }
  assert (EN : set_notation (NStr "SpinW") wc = (w4, Ret tt)).
  { unfold set_notation. replace (parse_notation (NStr "SpinW")) with (Some (true, false, 1, 1)) by reflexivity.
    rewrite (bind_val _ _ _ _ _ E1), (bind_val _ _ _ _ _ E2), (bind_val _ _ _ _ _ E3). exact E4. }
  unfold init_copy. rewrite (bind_val _ _ _ _ _ EN). destruct (magnetic_atoms_exact order w4 P) as (atoms & Ea & _ & _ & Cov). rewrite (bind_val _ _ _ _ _ Ea).
  destruct (set_notation_spinw _ _ EN) as [Ef Of].
  destruct (exchange_like_objects w4 1 1 W4 Ef Of nz) as (ms4 & ro & Ex & K2 & _ & _). rewrite (bind_val _ _ _ _ _ Ex).
  assert (Hcov : forall kl, In kl (ro ++ h_exch (w_ham w4)) -> In (b_from (fst kl)) atoms /\ In (b_to (fst kl)) atoms).
  { intros kl I. apply in_app_or in I as [I|I].
    - apply (in_map fst) in I. rewrite K2 in I. apply in_map_iff in I as (a & <- & I). cbn. split; apply Cov; right; exact I.
    - apply (in_map fst) in I. change (map fst (h_exch (w_ham w4))) with (bonds w4) in I. split; apply Cov; left; exists (fst kl); auto. }
  destruct (index_pairs_total atoms (displacement cell pos) _ (mkW (w_store w4 ++ ms4) (w_ham w4)) Hcov) as [bs Eb]. rewrite (bind_val _ _ _ _ _ Eb).
  destruct (local_axes_total sv atoms) as [ax Eax].
  { intros a I. assert (Hs : exists s, sv a = Some s /\ s <> vzero).
    { apply Sv. apply Cov in I as [(k & I & Hk)|I].
      - right. change (bonds w4) with (bonds w1) in I. apply B1 in I as [I|I]; rewrite Bc in I; [exists k; auto|]. exists (mirror k). split; [exact I|]. cbn. tauto.
      - left. change (sites w4) with (sites w1) in I. unfold sites in I. rewrite Q1 in I. change (In a (sites wc)) in I. rewrite Sc in I. exact I. }
    destruct Hs as (s & Es & Ns). exists s. split; [exact Es|]. intros N0. apply Ns. assert (X := norm_sq s). rewrite N0 in X. destruct s as [x y z]. revert X. r3. intros X.
    assert (x = 0) by nra. assert (y = 0) by nra. assert (z = 0) by nra. subst. reflexivity. }
  rewrite Eax. unfold lift. cbn. do 2 eexists. reflexivity.
Qed.
