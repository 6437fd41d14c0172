(** Proofs for C49 and C61: the export to Vampire. *)
From Coq Require Import List Bool ZArith Lia Permutation String.
From Coq Require Import Ring Field Field_theory Ring_theory.
From Verif.Base Require Import Scalar Linear3 PyDict.
From Verif.Model Require Import MatrixParam Hamiltonian History EnergyInit Vampire.
From Verif.Spec Require Import ParameterSpec HamSpec HistorySpec NotationSpec VampireSpec.
From Verif.Proofs Require Import DictProofs ParameterProofs HamBasics HamSetters HamDouble HamDcEnergy NotationProofs HistoryProofs CallProofs FilterProofs FrameProofs HamGlue EnergyInitProofs NotationNames.
Import ListNotations.
Local Open Scope fld_scope.
Local Open Scope py_scope.

Section VampireProofs.
Context {F : Type} {SF : Scalar F}.
Add Field F_field : (@f_field F SF).
Notation ham := (@ham F).
Notation world := (@world F).
Notation M := (@M F).
Notation mask := (@mask F).

Lemma half_nz : - (1 / (1 + 1)) <> (0 : F).
Proof.
  intros H. apply (@F_1_neq_0 _ _ _ _ _ _ _ _ _ _ (@f_field F SF)). transitivity (- (1 + 1) * - (1 / (1 + 1))); [field; apply f_two|rewrite H; ring].
Qed.
Lemma mone_nz : - (1) <> (0 : F).
Proof. intros H. apply (@F_1_neq_0 _ _ _ _ _ _ _ _ _ _ (@f_field F SF)). transitivity (- - (1 : F)); [ring|rewrite H; ring]. Qed.

(** ** The notation setter and the rest of the Hamiltonian *)
Lemma atoms_dc (w w' : world) dc sn ef of_ new : full w dc sn ef of_ -> set_double_counting new w = (w', Ret tt) -> same_rest w w'.
Proof.
  intros Fw E. assert (W := fu_wf _ _ _ _ _ Fw). assert (U := fu_un _ _ _ _ _ Fw). destruct new.
  - destruct (set_dc_true_ok w W (fun _ => U)) as (w1 & E1 & _ & _ & R & _). congruence.
  - destruct (fu_st _ _ _ _ _ Fw) as (Hns & Hd & Hst).
    assert (Hok : forall k, In k (bonds w) -> canonical k = true \/ In (mirror k) (bonds w)).
    { intros k I. destruct dc; [right; apply Hst, I|left; apply canonical_kept, Hst, I]. }
    destruct (set_dc_false_ok w W (fun _ => U) Hok) as (w1 & E1 & _ & _ & R & _). congruence.
Qed.
Lemma set_notation_atoms (w w' : world) dc sn ef of_ dc' sn' ef' of' : full w dc sn ef of_ -> ef' <> 0 -> of' <> 0 ->
  set_notation (N4 dc' sn' ef' of') w = (w', Ret tt) ->
  h_atoms (w_ham w') = h_atoms (w_ham w) /\ h_spins (w_ham w') = h_spins (w_ham w) /\ h_ons (w_ham w') = h_ons (w_ham w).
Proof.
  intros F0 He Ho E. unfold set_notation in E; cbn [parse_notation] in E.
  destruct (step_dc w dc sn ef of_ dc' F0) as (w1 & E1 & F1 & _). rewrite (bind_val _ _ _ _ _ E1) in E.
  destruct (step_sn w1 dc' sn ef of_ sn' F1) as (w2 & E2 & F2 & _). rewrite (bind_val _ _ _ _ _ E2) in E.
  destruct (step_ef w2 dc' sn' ef of_ ef' F2 He) as (w3 & E3 & F3 & _). rewrite (bind_val _ _ _ _ _ E3) in E.
  destruct (atoms_dc _ _ _ _ _ _ _ F0 E1) as (A0 & A1 & A2 & _).
  assert (W1 := fu_wf _ _ _ _ _ F1). assert (W2 := fu_wf _ _ _ _ _ F2). assert (W3 := fu_wf _ _ _ _ _ F3).
  destruct (set_spin_normalized_ok w1 w2 sn' (proj1 W1) (proj1 (proj2 W1)) (fu_un _ _ _ _ _ F1) E2) as (? & ? & (R2 & _) & _).
  destruct (set_exchange_factor_ok w2 w3 ef' (proj1 W2) (fu_un _ _ _ _ _ F2) E3) as (? & (R3 & _) & _).
  destruct (set_on_site_factor_ok w3 w' of' (proj1 (proj2 W3)) (fu_un _ _ _ _ _ F3) E) as (? & (R4 & _) & _).
  rewrite R4. cbn. rewrite R3. cbn. rewrite R2. cbn. auto.
Qed.

(** ** More objects in the store *)
Lemma more_bond (w : world) ms k : wf w -> bond_value (mkW (w_store w ++ ms) (w_ham w)) k = bond_value w k.
Proof.
  intros (_ & _ & W3 & _). unfold bond_value; cbn. destruct (dget (h_exch (w_ham w)) k) as [l|] eqn:E; [|reflexivity].
  apply nth_error_app1. apply (W3 k), dget_In, E.
Qed.
Lemma more_onsite (w : world) ms a : wf w -> onsite_value (mkW (w_store w ++ ms) (w_ham w)) a = onsite_value w a.
Proof.
  intros (_ & _ & _ & W4 & _). unfold onsite_value; cbn. destruct (dget (h_ons (w_ham w)) a) as [l|] eqn:E; [|reflexivity].
  apply nth_error_app1. apply (W4 a), dget_In, E.
Qed.
Lemma more_full (w : world) ms dc sn ef of_ : full w dc sn ef of_ -> full (mkW (w_store w ++ ms) (w_ham w)) dc sn ef of_.
Proof.
  intros Fw. assert (W := fu_wf _ _ _ _ _ Fw). constructor; try apply Fw.
  - destruct W as (A & B & C & D & E & G). unfold wf. cbn [w_ham w_store]. splits; auto.
    + intros k l I. specialize (C k l I). rewrite app_length. lia.
    + intros a l I. specialize (D a l I). rewrite app_length. lia.
  - destruct (fu_st _ _ _ _ _ Fw) as (S1 & S2 & S3). unfold reciprocal_storage. splits; auto. destruct dc; [|exact S3]. destruct S3 as [S3 S4]. split; [exact S3|].
    intros k J J'. rewrite !(more_bond w) by exact W. apply S4.
Qed.
Lemma more_physics (w : world) ms dc sn ef of_ : wf w -> same_physics w dc sn ef of_ (mkW (w_store w ++ ms) (w_ham w)) dc sn ef of_.
Proof.
  intros W. unfold same_physics. splits; [reflexivity| |].
  - intros k _. rewrite (more_bond w ms k W). reflexivity.
  - intros a. rewrite (more_onsite w ms a W). reflexivity.
Qed.

(** ** The lines *)
Lemma list_set_same (st : list (M3 F)) l m : nth_error st l = Some m -> list_set st l m = st.
Proof. revert l; induction st as [|x st IH]; intros [|l]; cbn; [congruence|congruence|congruence|]. intros H. f_equal. apply IH, H. Qed.

Ltac par := cbv beta iota zeta delta [p_set_iso p_set_dmi p_set_aniso p_aniso p_iso_matrix p_iso p_dmi p_dmi_matrix p_symm p_asymm
   p_T p_add p_sub p_mul p_neg p_pos dmi_form composed symmetric traceless antisymmetric
    bilin vmat mmul mvec mrow1 mrow2 mrow3 cross dot vadd vsub vscale vopp vzero vmap2 vmap
    madd msub mopp mscale mdivs mzero mid mtrace mtrans mdet mmap2 mmap f2 f3
    vx vy vz mxx mxy mxz myx myy myz mzx mzy mzz].
Lemma drop_dmi (m : M3 F) j s d : composed m j s d -> composed (msub m (p_dmi_matrix m)) j s (mkV 0 0 0).
Proof.
  intros H. destruct (composed_parts _ _ _ _ H) as (_ & _ & Hd). destruct H as (Hs & Ht & Hm).
  apply composed_intro; auto. rewrite dmi_matrix_form, Hd, Hm. destruct s as [a1 a2 a3 a4 a5 a6 a7 a8 a9], d as [d1 d2 d3]. par. f_equal; ring.
Qed.
Lemma drop_aniso (m : M3 F) j s d : composed m j s d -> composed (msub m (p_aniso m)) j mzero d.
Proof.
  intros H. destruct (composed_parts _ _ _ _ H) as (_ & Ha & _). destruct H as (Hs & Ht & Hm).
  apply composed_intro; [par; auto|par; ring|]. rewrite Ha, Hm. destruct s as [a1 a2 a3 a4 a5 a6 a7 a8 a9], d as [d1 d2 d3]. par. f_equal; ring.
Qed.
Lemma composed_prints (an dm : bool) (m : M3 F) : let m1 := if dm then m else msub m (p_dmi_matrix m) in
  prints an dm None m (if an then m1 else msub m1 (p_aniso m1)).
Proof.
  intros m1. unfold prints. exists (p_iso m), (p_aniso m), (p_dmi m). split; [apply decompose|].
  assert (H : composed m1 (p_iso m) (p_aniso m) (if dm then p_dmi m else mkV 0 0 0)).
  { unfold m1. destruct dm; [apply decompose|]. apply drop_dmi with (d := p_dmi m), decompose. }
  destruct an; [exact H|]. eapply drop_aniso, H.
Qed.

Lemma masked_ok an dm (custom : option mask) l (w : world) m : harmless custom -> nth_error (w_store w) l = Some m ->
  (exists x, masked an dm custom l w = (w, Ret x) /\ prints an dm custom m x) \/
  (exists e f, masked an dm custom l w = (w, Raise e) /\ custom = Some f /\ snd (f m) = Raise e).
Proof.
  intros H E. unfold masked, bind, read. rewrite E. destruct custom as [f|].
  - cbn in H. unfold write. cbn [fst snd]. rewrite H, (list_set_same _ _ _ E). destruct w as [st h]. cbn [w_store w_ham].
    unfold of_out, prints. destruct (snd (f m)) as [x|e] eqn:X; [left; exists x; auto|right; exists e, f; auto].
  - left. eexists. split; [reflexivity|]. apply composed_prints.
Qed.

Lemma ucf_atoms_ok mats (w : world) l : forall i,
  ((i + List.length l <= List.length mats)%nat -> exists r, ucf_atoms mats i l w = (w, Ret r) /\ map (fun x => snd (fst x)) r = l /\
     map (fun x => fst (fst x)) r = seq i (List.length l) /\ Forall (fun x => nth_error mats (fst (fst x)) = Some (snd x)) r) /\
  ((List.length mats < i + List.length l)%nat -> (i <= List.length mats)%nat -> ucf_atoms mats i l w = (w, Raise IndexError)).
Proof.
  induction l as [|a t IH]; intros i; cbn [ucf_atoms List.length].
  - split; [|lia]. intros _. exists []. splits; constructor.
  - unfold bind, of_option. destruct (nth_error mats i) as [m|] eqn:E.
    + assert (L : (i < List.length mats)%nat) by (apply nth_error_Some; congruence). destruct (IH (S i)) as [A B]. split.
      * intros H. destruct A as (r & Er & R1 & R2 & R3); [lia|]. unfold ret at 1. rewrite Er. eexists. split; [reflexivity|]. cbn. splits.
        -- congruence.
        -- congruence.
        -- constructor; [exact E|exact R3].
      * intros H1 H2. unfold ret at 1. rewrite B by lia. reflexivity.
    + apply nth_error_None in E. split; [lia|]. intros _ _. reflexivity.
Qed.

Lemma ucf_rows_ok e an dm (custom : option mask) atoms (w : world) items : harmless custom ->
  (forall kl, In kl items -> In (b_from (fst kl)) atoms /\ In (b_to (fst kl)) atoms /\ nth_error (w_store w) (snd kl) <> None) -> forall iid,
  (exists rows, ucf_rows e an dm custom atoms iid items w = (w, Ret rows) /\ map (@r_id F) rows = seq iid (List.length items) /\
     Forall2 (fun kl r => says e an dm custom atoms (fst kl) (nth_error (w_store w) (snd kl)) r) items rows) \/
  (exists x f m kl, ucf_rows e an dm custom atoms iid items w = (w, Raise x) /\ In kl items /\ nth_error (w_store w) (snd kl) = Some m /\
     custom = Some f /\ snd (f m) = Raise x).
Proof.
  intros H. induction items as [|[k l] t IH]; intros Hin iid; cbn [ucf_rows].
  - left. exists []. splits; constructor.
  - destruct (Hin (k, l) (or_introl eq_refl)) as (I1 & I2 & I3). cbn [fst snd] in *.
    destruct (nth_error (w_store w) l) as [m|] eqn:Em; [|congruence].
    destruct (masked_ok an dm custom l w m H Em) as [(x & Ex & Px)|(x & f & Ex & C & Px)].
    + rewrite (bind_val _ _ _ _ _ Ex). destruct (position_In _ _ I1) as (i & Ei & Ni). destruct (position_In _ _ I2) as (j & Ej & Nj).
      rewrite Ei, Ej. rewrite (bind_val (of_option KeyError (Some i)) _ w w i) by reflexivity. rewrite (bind_val (of_option KeyError (Some j)) _ w w j) by reflexivity.
      destruct (IH (fun kl I => Hin kl (or_intror I)) (S iid)) as [(rows & Er & Q1 & Q2)|(x' & f & m' & kl & Er & Q1 & Q2 & Q3 & Q4)].
      * left. rewrite (bind_val _ _ _ _ _ Er). eexists. split; [reflexivity|]. cbn. split; [congruence|]. constructor; [|exact Q2].
        unfold says. cbn. rewrite Ni, Nj, Em. splits; auto. exists m, x. auto.
      * right. exists x', f, m', kl. rewrite (bind_exn _ _ _ _ _ Er). splits; auto. right; exact Q1.
    + right. exists x, f, m, (k, l). rewrite (bind_exn _ _ _ _ _ Ex). splits; auto. left; reflexivity.
Qed.

(** ** dump_ucf on a convertible Hamiltonian *)
Lemma get_notation_ok (w : world) dc sn ef of_ : notation_is w dc sn ef of_ -> get_notation w = (w, Ret (dc, sn, ef, of_)).
Proof.
  intros (A & B & C & D). unfold get_notation, get_dc, get_sn, get_ef, get_of, bind, gets. rewrite A. cbn. rewrite B. cbn. rewrite C. cbn. rewrite D. reflexivity.
Qed.
Lemma vampire_named (w : world) : set_notation (NStr "vampire") w = set_notation (N4 true true (- (1 / (1 + 1))) (- (1))) w.
Proof.
  apply (named "vampire" true true (- (1 / (1 + 1))) (- (1)) w "Vampire"); [right; right; right; left; reflexivity|].
  apply lower_same. reflexivity.
Qed.

Lemma carried_same (w w' : world) dc sn ef of_ dc' sn' ef' of' a : full w dc sn ef of_ -> full w' dc' sn' ef' of' ->
  same_physics w dc sn ef of_ w' dc' sn' ef' of' ->
  (exists k, In k (bonds w) /\ (b_from k = a \/ b_to k = a)) \/ In a (sites w) ->
  (exists k, In k (bonds w') /\ (b_from k = a \/ b_to k = a)) \/ In a (sites w').
Proof.
  intros Fw Fw' (_ & Hb & Ho) [(k & I & H)|I].
  - left. assert (C : exists k', canonical k' = true /\ In k' (bonds w) /\ (b_from k' = a \/ b_to k' = a)).
    { destruct (canonical k) eqn:C; [exists k; auto|]. exists (mirror k).
      apply (bond_value_stored w k (fu_wf _ _ _ _ _ Fw)) in I as [J EJ]. rewrite (full_twin _ _ _ _ _ k Fw C) in EJ. destruct dc; [|discriminate].
      splits; [destruct (canonical_or k); congruence| |unfold mirror; cbn; tauto].
      apply (bond_value_stored w _ (fu_wf _ _ _ _ _ Fw)). destruct (bond_value w (mirror k)); [eauto|discriminate]. }
    destruct C as (k' & C & I' & H'). exists k'. split; [|exact H']. apply (bond_value_stored w' _ (fu_wf _ _ _ _ _ Fw')).
    apply (bond_value_stored w _ (fu_wf _ _ _ _ _ Fw)) in I' as [J EJ]. specialize (Hb k' C). rewrite EJ in Hb.
    destruct (bond_value w' k'); [eauto|discriminate].
  - right. apply (onsite_value_stored w' _ (fu_wf _ _ _ _ _ Fw')). apply (onsite_value_stored w _ (fu_wf _ _ _ _ _ Fw)) in I as [J EJ].
    specialize (Ho a). rewrite EJ in Ho. destruct (onsite_value w' a); [eauto|discriminate].
Qed.
Lemma magnetic_count order (w w' : world) l l' dc sn ef of_ dc' sn' ef' of' : (forall l, Permutation (order l) l) ->
  full w dc sn ef of_ -> full w' dc' sn' ef' of' -> same_physics w dc sn ef of_ w' dc' sn' ef' of' ->
  magnetic_atoms order w = (w, Ret l) -> magnetic_atoms order w' = (w', Ret l') -> List.length l = List.length l'.
Proof.
  intros P Fw Fw' Ph E E'. destruct (magnetic_atoms_exact order w P) as (r & Er & N & _ & H).
  destruct (magnetic_atoms_exact order w' P) as (r' & Er' & N' & _ & H').
  assert (r = l) by congruence. assert (r' = l') by congruence. subst r r'.
  apply Permutation_length, NoDup_Permutation; auto. intros a. rewrite H, H'. split.
  - apply (carried_same w w' _ _ _ _ _ _ _ _ a Fw Fw' Ph).
  - apply (carried_same w' w _ _ _ _ _ _ _ _ a Fw' Fw), same_physics_sym, Ph.
Qed.

Lemma quotient_half : - (1 / (1 + 1)) / - (1) = (1 / (1 + 1) : F).
Proof. field. split; [apply f_two|apply mone_nz]. Qed.

Lemma exchange_like_terms (w : world) : full w true true (- (1 / (1 + 1))) (- (1)) ->
  exists ms items, exchange_like w = (mkW (w_store w ++ ms) (w_ham w), Ret items) /\
    map (fun kl => (fst kl, nth_error (w_store w ++ ms) (snd kl))) items = terms w.
Proof.
  intros Fw. assert (W := fu_wf _ _ _ _ _ Fw). destruct (fu_no _ _ _ _ _ Fw) as (_ & _ & N3 & N4).
  destruct (exchange_like_objects w _ _ W N3 N4 mone_nz) as (ms & ro & E & K & _ & V). exists ms, (ro ++ h_exch (w_ham w)). split; [exact E|].
  rewrite quotient_half in V. rewrite map_app. unfold terms. f_equal.
  - clear - K V. revert K V. generalize (sites w) as l. induction ro as [|[k l0] ro IH]; intros [|a l] K V; try discriminate; [reflexivity|].
    cbn [map fst snd] in *. injection K as K1 K2. injection V as V1 V2. rewrite K1, V1. f_equal. apply IH; auto.
  - unfold bonds, dkeys. rewrite map_map. apply map_ext_in. intros [k l] I. cbn [fst snd]. f_equal.
    destruct W as (N1 & _ & W3 & _). unfold bond_value. rewrite (In_dget _ _ _ N1 I). apply nth_error_app1, (W3 _ _ I).
Qed.

Lemma terms_defined (w : world) : wf w -> forall t, In t (terms w) -> snd t <> None.
Proof.
  intros W t I. unfold terms in I. apply in_app_or in I as [I|I]; apply in_map_iff in I as (x & <- & J); cbn [snd].
  - apply (onsite_value_stored w x W) in J as [A EA]. rewrite EA. discriminate.
  - apply (bond_value_stored w x W) in J as [A EA]. rewrite EA. discriminate.
Qed.

Section Run.
Variable e : F.
Variable order : list atom -> list atom.
Hypothesis order_ok : forall l, Permutation (order l) l.

Lemma ucf_run (w : world) dc sn ef of_ an dm custom materials : convertible w dc sn ef of_ -> harmless custom ->
  exists w1 atoms mats, set_notation (NStr "vampire") w = (w1, Ret tt) /\ (full w1 true true (- (1 / (1 + 1))) (- (1)) /\ same_physics w dc sn ef of_ w1 true true (- (1 / (1 + 1))) (- (1))) /\ sites w1 = sites w /\ magnetic_atoms order w1 = (w1, Ret atoms) /\
    mats = mats_of materials (List.length atoms) /\
    ((List.length mats < List.length atoms)%nat -> ucf_text e order an dm custom materials w = (w1, Raise IndexError)) /\
    ((List.length atoms <= List.length mats)%nat ->
       (exists w' u, ucf_text e order an dm custom materials w = (w', Ret u) /\ restored w w' dc sn ef of_ /\ states e an dm custom w1 mats atoms u) \/
       (exists w' x f t m, ucf_text e order an dm custom materials w = (w', Raise x) /\ w_ham w' = w_ham w1 /\ same_parameters w1 w' /\
          custom = Some f /\ In (t, Some m) (terms w1) /\ snd (f m) = Raise x)).
Proof.
  intros (W & U & S & St & No & Ne & Nf) Hm. assert (F0 := full_intro w dc sn ef of_ W U S St No Ne Nf).
  destruct (set_notation_full w _ _ _ _ true true _ _ F0 half_nz mone_nz) as (w1 & E1 & F1 & P1).
  destruct (magnetic_atoms_exact order w order_ok) as (at0 & Ea0 & _).
  destruct (magnetic_atoms_exact order w1 order_ok) as (atoms & Ea & Na & _ & Ha).
  assert (Lc := magnetic_count order w w1 at0 atoms _ _ _ _ _ _ _ _ order_ok F0 F1 P1 Ea0 Ea).
  exists w1, atoms, (mats_of materials (List.length atoms)).
  assert (E1' : set_notation (NStr "vampire") w = (w1, Ret tt)) by (rewrite vampire_named; exact E1).
  split; [exact E1'|]. split; [split; assumption|]. split; [unfold sites; rewrite (proj2 (proj2 (set_notation_atoms _ _ _ _ _ _ _ _ _ _ F0 half_nz mone_nz E1))); reflexivity|]. split; [exact Ea|]. split; [reflexivity|].
  assert (Pre : ucf_text e order an dm custom materials w =
    (al <- ucf_atoms (mats_of materials (List.length atoms)) 0 atoms ;; items <- exchange_like ;;
     rows <- ucf_rows e an dm custom atoms 0 items ;; set_notation (N4 dc sn ef of_) ;;;
     ret (mkUcf (List.length (nodup Z.eq_dec (mats_of materials (List.length atoms)))) al (List.length items) rows)) w1).
  { unfold ucf_text.
    assert (Em : (match materials with Some l => ret l | None => l <- magnetic_atoms order ;; ret (map Z.of_nat (seq 0 (List.length l))) end) w
                 = (w, Ret (mats_of materials (List.length atoms)))).
    { destruct materials; [reflexivity|]. rewrite (bind_val _ _ _ _ _ Ea0). unfold mats_of. rewrite Lc. reflexivity. }
    rewrite (bind_val _ _ _ _ _ Em), (bind_val _ _ _ _ _ (get_notation_ok _ _ _ _ _ No)), (bind_val _ _ _ _ _ E1'), (bind_val _ _ _ _ _ Ea). reflexivity. }
  rewrite Pre. destruct (ucf_atoms_ok (mats_of materials (List.length atoms)) w1 atoms 0) as [A B]. split.
  { intros L. rewrite (bind_exn _ _ _ _ _ (B ltac:(lia) ltac:(lia))). reflexivity. }
  intros L. destruct A as (al & Eal & A1 & A2 & A3); [lia|]. rewrite (bind_val _ _ _ _ _ Eal).
  destruct (exchange_like_terms w1 F1) as (ms & items & Ei & Ti). rewrite (bind_val _ _ _ _ _ Ei).
  set (w2 := mkW (w_store w1 ++ ms) (w_ham w1)) in *. assert (W1 := fu_wf _ _ _ _ _ F1).
  assert (Hin : forall kl, In kl items -> In (b_from (fst kl)) atoms /\ In (b_to (fst kl)) atoms /\ nth_error (w_store w2) (snd kl) <> None).
  { intros kl I. assert (J : In (fst kl, nth_error (w_store w2) (snd kl)) (terms w1)) by (rewrite <- Ti; apply in_map_iff; exists kl; auto).
    splits; [| |exact (terms_defined w1 W1 _ J)]; apply Ha; unfold terms in J; apply in_app_or in J as [J|J]; apply in_map_iff in J as (x & Ex & Jx);
      injection Ex as Ex _; rewrite <- Ex; cbn [b_from b_to]; auto; left; exists x; auto. }
  destruct (ucf_rows_ok e an dm custom atoms w2 items Hm Hin 0) as [(rows & Er & R1 & R2)|(x & f & m & kl & Er & R1 & R2 & R3 & R4)].
  - left. rewrite (bind_val _ _ _ _ _ Er). assert (F2 := more_full w1 ms _ _ _ _ F1). fold w2 in F2.
    destruct (set_notation_full w2 _ _ _ _ dc sn ef of_ F2 Ne Nf) as (w3 & E3 & F3 & P3). rewrite (bind_val _ _ _ _ _ E3).
    eexists _, _. split; [reflexivity|].
    assert (LR : List.length items = List.length rows) by (clear - R2; induction R2; cbn; congruence).
    split.
    + unfold restored. splits.
      * apply F3.
      * apply (full_determined w w3 dc sn ef of_ F0 F3). eapply same_physics_trans; [exact P1|]. eapply same_physics_trans; [exact (more_physics w1 ms _ _ _ _ W1)|exact P3].
      * rewrite (proj1 (set_notation_atoms _ _ _ _ _ _ _ _ _ _ F2 Ne Nf E3)). cbn. apply (set_notation_atoms _ _ _ _ _ _ _ _ _ _ F0 half_nz mone_nz E1).
      * rewrite (proj1 (proj2 (set_notation_atoms _ _ _ _ _ _ _ _ _ _ F2 Ne Nf E3))). cbn. apply (set_notation_atoms _ _ _ _ _ _ _ _ _ _ F0 half_nz mone_nz E1).
    + unfold states, file_atoms. cbn [u_nmat u_atoms u_count u_rows]. splits; auto; [rewrite <- LR; exact R1|]. rewrite <- Ti.
      clear - R2. induction R2; cbn [map]; constructor; auto.
  - right. rewrite (bind_exn _ _ _ _ _ Er). exists w2, x, f, (fst kl), m. splits; auto.
    + split; [intros; apply more_bond, W1|intros; apply more_onsite, W1].
    + rewrite <- Ti, <- R2. apply in_map_iff. exists kl. auto.
Qed.

Variable can_write : string -> bool.
Notation dump_ucf := (dump_ucf e order can_write).
Notation dump_vampire := (dump_vampire e order can_write).

Lemma dump_ucf_cases (w : world) filename an dm custom materials :
  dump_ucf filename an dm custom materials w =
  (let r := ucf_text e order an dm custom materials w in
   match snd r with
   | Ret u => (fst r, match filename with Some n => if can_write n then Ret u else Raise OSError | None => Ret u end)
   | Raise x => (fst r, Raise x)
   end).
Proof.
  unfold Vampire.dump_ucf, bind. destruct (ucf_text _ _ _ _ _ _ w) as [w' [u|x]]; cbn [fst snd]; [|reflexivity].
  destruct filename as [n|]; [destruct (can_write n)|]; reflexivity.
Qed.

Lemma ucf_kept (w w' : world) dc sn ef of_ filename an dm custom materials u : convertible w dc sn ef of_ -> harmless custom ->
  dump_ucf filename an dm custom materials w = (w', Ret u) -> restored w w' dc sn ef of_.
Proof.
  intros C H E. rewrite dump_ucf_cases in E.
  destruct (ucf_run w dc sn ef of_ an dm custom materials C H) as (w1 & atoms & mats & _ & _ & _ & _ & _ & B1 & B2).
  destruct (Nat.le_gt_cases (List.length atoms) (List.length mats)) as [L|L].
  - destruct (B2 L) as [(w2 & u2 & E2 & R & _)|(w2 & x & f & t & m & E2 & _)]; rewrite E2 in E; cbn in E; [|discriminate].
    replace w' with w2 by congruence. exact R.
  - rewrite (B1 L) in E. discriminate.
Qed.

Lemma full_of (w : world) dc sn ef of_ : convertible w dc sn ef of_ -> full w dc sn ef of_.
Proof. intros (W & U & S & St & No & Ne & Nf). apply full_intro; assumption. Qed.

Lemma enough_mats materials n : enough materials n <-> (n <= List.length (mats_of materials n))%nat.
Proof. destruct materials; cbn; [tauto|]. rewrite map_length, seq_length. split; auto. Qed.

Lemma magnetic_members (w : world) atoms : magnetic_atoms order w = (w, Ret atoms) ->
  NoDup atoms /\ forall a, In a atoms <-> (exists k, In k (bonds w) /\ (b_from k = a \/ b_to k = a)) \/ In a (sites w).
Proof. intros E. destruct (magnetic_atoms_exact order w order_ok) as (r & Er & N & _ & H). replace atoms with r by congruence. auto. Qed.

Lemma ucf_succeeds (w : world) dc sn ef of_ filename an dm custom materials atoms : convertible w dc sn ef of_ -> harmless custom ->
  magnetic_atoms order w = (w, Ret atoms) -> enough materials (List.length atoms) ->
  (forall f, custom = Some f -> forall m, exists x, snd (f m) = Ret x) -> (forall n, filename = Some n -> can_write n = true) ->
  exists w' u, dump_ucf filename an dm custom materials w = (w', Ret u).
Proof.
  intros C H Ea En Hf Hw. rewrite dump_ucf_cases.
  destruct (ucf_run w dc sn ef of_ an dm custom materials C H) as (w1 & at1 & mats & E1 & [F1 P1] & _ & Ea1 & Em & B1 & B2).
  assert (Lc := magnetic_count order w w1 atoms at1 _ _ _ _ _ _ _ _ order_ok (full_of _ _ _ _ _ C) F1 P1 Ea Ea1).
  apply enough_mats in En. rewrite Lc in En. rewrite <- Em in En.
  destruct (B2 En) as [(w2 & u2 & E2 & _)|(w2 & x & f & t & m & E2 & _ & _ & Cf & _ & X)].
  - rewrite E2. cbn [fst snd]. exists w2, u2. destruct filename as [n|]; [rewrite (Hw n eq_refl)|]; reflexivity.
  - destruct (Hf f Cf m) as [y Y]. congruence.
Qed.

(** What a failing call leaves behind. *)
Lemma ucf_failed (w w' : world) dc sn ef of_ filename an dm custom materials x : convertible w dc sn ef of_ -> harmless custom ->
  dump_ucf filename an dm custom materials w = (w', Raise x) ->
  (x = OSError /\ restored w w' dc sn ef of_) \/
  (in_vampire_notation w' /\ exists w1, set_notation (NStr "vampire") w = (w1, Ret tt) /\ same_parameters w1 w' /\
     ((x = IndexError /\ exists atoms, magnetic_atoms order w = (w, Ret atoms) /\ ~ enough materials (List.length atoms)) \/
      (exists f m, custom = Some f /\ snd (f m) = Raise x))).
Proof.
  intros C H E. rewrite dump_ucf_cases in E.
  destruct (ucf_run w dc sn ef of_ an dm custom materials C H) as (w1 & at1 & mats & E1 & [F1 P1] & _ & Ea1 & Em & B1 & B2).
  destruct (Nat.le_gt_cases (List.length at1) (List.length mats)) as [L|L].
  - destruct (B2 L) as [(w2 & u2 & E2 & R & _)|(w2 & y & f & t & m & E2 & Eh & Sp & Cf & _ & X)]; rewrite E2 in E; cbn [fst snd] in E.
    + left. destruct filename as [n|]; [destruct (can_write n)|]; try discriminate. injection E as <- <-. auto.
    + right. injection E as <- <-. split; [unfold in_vampire_notation, notation_is; rewrite Eh; apply F1|]. exists w1. splits; auto. right. exists f, m. auto.
  - right. rewrite (B1 L) in E. cbn in E. injection E as <- <-. split; [apply F1|]. exists w1. splits; auto; [split; reflexivity|]. left. split; [reflexivity|].
    destruct (magnetic_atoms_exact order w order_ok) as (at0 & Ea0 & _). exists at0. split; [exact Ea0|].
    assert (Lc := magnetic_count order w w1 at0 at1 _ _ _ _ _ _ _ _ order_ok (full_of _ _ _ _ _ C) F1 P1 Ea0 Ea1).
    rewrite enough_mats, Lc, <- Em. lia.
Qed.

Lemma get_notation_unset (w : world) : h_dc (w_ham w) = None \/ h_sn (w_ham w) = None \/ h_ef (w_ham w) = None \/ h_of (w_ham w) = None ->
  get_notation w = (w, Raise NotationError).
Proof.
  intros H. unfold get_notation, get_dc, get_sn, get_ef, get_of, bind, gets.
  destruct (h_dc (w_ham w)) as [b1|] eqn:E1; [|reflexivity]. cbn. destruct (h_sn (w_ham w)) as [b2|] eqn:E2; [|reflexivity]. cbn.
  destruct (h_ef (w_ham w)) as [b3|] eqn:E3; [|reflexivity]. cbn. destruct (h_of (w_ham w)) as [b4|] eqn:E4; [|reflexivity].
  destruct H as [H|[H|[H|H]]]; discriminate.
Qed.
Lemma ucf_unset (w : world) filename an dm custom materials :
  h_dc (w_ham w) = None \/ h_sn (w_ham w) = None \/ h_ef (w_ham w) = None \/ h_of (w_ham w) = None ->
  dump_ucf filename an dm custom materials w = (w, Raise NotationError).
Proof.
  intros H. unfold Vampire.dump_ucf, ucf_text. apply bind_exn.
  assert (Em : exists l, (match materials with Some l => ret l | None => l <- magnetic_atoms order ;; ret (map Z.of_nat (seq 0 (List.length l))) end) w = (w, Ret l)).
  { destruct materials; [eexists; reflexivity|]. unfold magnetic_atoms. eexists. reflexivity. }
  destruct Em as [l Em]. rewrite (bind_val _ _ _ _ _ Em). apply bind_exn, get_notation_unset, H.
Qed.

(** ** dump_mat reads only *)
Lemma bind_still {A B} (m : M A) (k : A -> M B) : (forall w, fst (m w) = w) -> (forall a w, fst (k a w) = w) -> forall w, fst (bind m k w) = w.
Proof. intros H1 H2 w. unfold bind. specialize (H1 w). destruct (m w) as [w1 [a|x]]; cbn [fst] in *; [rewrite H2|]; auto. Qed.
Lemma of_option_still {A} x (o : option A) w : fst (@of_option F A x o w) = w.
Proof. destruct o; reflexivity. Qed.
Lemma spin_still a (w : world) : fst (spin a w) = w.
Proof. unfold spin. rewrite bind_gets. destruct (dget _ a); reflexivity. Qed.
Lemma mat_rows_still materials l : forall i (w : world), fst (mat_rows materials i l w) = w.
Proof.
  induction l as [|a t IH]; intros i; cbn [mat_rows]; [reflexivity|].
  apply bind_still.
  - destruct materials; [|reflexivity]. apply bind_still; [apply of_option_still|reflexivity].
  - intros n. apply bind_still.
    + destruct n; [|reflexivity]. apply bind_still; [apply spin_still|reflexivity].
    + intros here. apply bind_still; [apply IH|reflexivity].
Qed.
Lemma mat_still filename materials (w : world) : fst (dump_mat order can_write filename materials w) = w.
Proof.
  revert w. unfold dump_mat. apply bind_still; [reflexivity|]. intros atoms. apply bind_still; [destruct materials; [apply of_option_still|reflexivity]|].
  intros n. apply bind_still; [apply mat_rows_still|]. intros rows w. destruct filename as [f|]; [destruct (can_write f)|]; reflexivity.
Qed.

(** ** dump_vampire *)
Lemma vampire_cases (w w' : world) seed an dm custom materials o : dump_vampire seed an dm custom materials w = (w', o) ->
  exists o', dump_ucf (Some (seed ++ ".UCF")%string) an dm custom materials w = (w', o') /\
    (o = Ret tt -> exists u, o' = Ret u) /\ (forall x, o' = Raise x -> o = Raise x).
Proof.
  unfold Vampire.dump_vampire, bind. destruct (dump_ucf _ an dm custom materials w) as [w1 [u|x]].
  - assert (Hs := mat_still (Some (seed ++ ".mat")%string) materials w1). destruct (dump_mat _ _ _ _ w1) as [w2 [r|y]]; cbn [fst] in Hs; subst w2.
    + destruct (can_write "input"); intros [= <- <-]; exists (Ret u); splits; eauto; discriminate.
    + intros [= <- <-]. exists (Ret u). splits; eauto; discriminate.
  - intros [= <- <-]. exists (Raise x). splits; eauto; congruence.
Qed.
Lemma vampire_kept (w w' : world) dc sn ef of_ seed an dm custom materials : convertible w dc sn ef of_ -> harmless custom ->
  dump_vampire seed an dm custom materials w = (w', Ret tt) -> restored w w' dc sn ef of_.
Proof.
  intros C H E. destruct (vampire_cases _ _ _ _ _ _ _ _ E) as (o' & E' & A & _). destruct (A eq_refl) as [u ->].
  exact (ucf_kept _ _ _ _ _ _ _ _ _ _ _ _ C H E').
Qed.
Lemma vampire_failed (w w' : world) dc sn ef of_ seed an dm custom materials x : convertible w dc sn ef of_ -> harmless custom ->
  dump_vampire seed an dm custom materials w = (w', Raise x) -> restored w w' dc sn ef of_ \/ in_vampire_notation w'.
Proof.
  intros C H E. destruct (vampire_cases _ _ _ _ _ _ _ _ E) as (o' & E' & _ & B). destruct o' as [u|y].
  - left. exact (ucf_kept _ _ _ _ _ _ _ _ _ _ _ _ C H E').
  - destruct (ucf_failed _ _ _ _ _ _ _ _ _ _ _ _ C H E') as [(_ & R)|(R & _)]; auto.
Qed.

(** ** The content of the file (C61) *)
Lemma ucf_content (w w' : world) dc sn ef of_ filename an dm custom materials u : convertible w dc sn ef of_ -> harmless custom ->
  dump_ucf filename an dm custom materials w = (w', Ret u) ->
  exists w1 atoms, set_notation (NStr "vampire") w = (w1, Ret tt) /\ magnetic_atoms order w1 = (w1, Ret atoms) /\
    states e an dm custom w1 (mats_of materials (List.length atoms)) atoms u.
Proof.
  intros C H E. rewrite dump_ucf_cases in E.
  destruct (ucf_run w dc sn ef of_ an dm custom materials C H) as (w1 & at1 & mats & E1 & [F1 P1] & _ & Ea1 & Em & B1 & B2).
  exists w1, at1. split; [exact E1|]. split; [exact Ea1|]. rewrite <- Em.
  destruct (Nat.le_gt_cases (List.length at1) (List.length mats)) as [L|L].
  - destruct (B2 L) as [(w2 & u2 & E2 & R & S)|(w2 & x & f & t & m & E2 & _)]; rewrite E2 in E; cbn [fst snd] in E; [|discriminate].
    destruct filename as [n|]; [destruct (can_write n)|]; try discriminate; injection E as _ <-; exact S.
  - rewrite (B1 L) in E. discriminate.
Qed.

Lemma prints_all (m x : M3 F) : prints true true None m x -> x = m.
Proof. intros (j & s & d & (_ & _ & ->) & (_ & _ & ->)). reflexivity. Qed.

Lemma site_same (w w1 : world) dc sn ef of_ L s a : full w dc sn ef of_ -> full w1 true true (- (1 / (1 + 1))) (- (1)) ->
  same_physics w dc sn ef of_ w1 true true (- (1 / (1 + 1))) (- (1)) -> forall y, site_term sn w L s a = Some y ->
  exists y1, site_term true w1 L s a = Some y1 /\ - (1) * y1 = of_ * y.
Proof.
  intros Fw Fw1 (Hs & _ & Ho) y Hy. specialize (Ho a). unfold site_term in *. cbn [spin_length].
  destruct (onsite_value w a) as [A|] eqn:EA; [|destruct (spin_length sn w a); discriminate].
  destruct (onsite_value w1 a) as [A1|] eqn:EA1; [|discriminate]. eexists. split; [reflexivity|].
  assert (E := f_equal (fun o => site_energy L s a (vdef o)) Ho). cbn [option_map vdef] in E. rewrite !site_energy_scale in E.
  unfold co, sl, slen in E. cbn [sdef] in E. unfold spin_length, spin_of in Hy. destruct sn.
  - injection Hy as <-. cbn [sdef] in E. transitivity (- (1) * (1 * 1) * site_energy L s a A1); [ring|]. rewrite E. ring.
  - destruct (dget (h_spins (w_ham w)) a) as [v|]; [|discriminate]. injection Hy as <-. cbn [sdef] in E.
    transitivity (- (1) * (1 * 1) * site_energy L s a A1); [ring|]. rewrite E. ring.
Qed.

Lemma says_energy atoms L s k m (r : @ucf_row F) : says e true true None atoms k m r ->
  exists J, m = Some J /\ row_energy atoms L s r = Some (e * pair_energy L s k J).
Proof.
  intros (A & B & C & J & x & -> & P & M). apply prints_all in P as ->. exists J. split; [reflexivity|].
  unfold row_energy. rewrite A, B, C, M. destruct k as [a b c]; cbn [b_from b_to b_cell]. rewrite pair_energy_scale. reflexivity.
Qed.

Lemma rows_energy atoms L s (w1 : world) rows :
  Forall2 (fun t r => says e true true None atoms (fst t) (snd t) r) (terms w1) rows ->
  forall X Y, osum (map (bond_term true w1 L s) (bonds w1)) = Some X -> osum (map (site_term true w1 L s) (sites w1)) = Some Y ->
  osum (map (row_energy atoms L s) rows) = Some (e * (X + 1 / (1 + 1) * Y)).
Proof.
  unfold terms. intros H X Y HX HY. apply Forall2_app_inv_l in H as (r1 & r2 & H1 & H2 & ->).
  assert (A1 : osum (map (row_energy atoms L s) r1) = Some (e * (1 / (1 + 1) * Y))).
  { clear H2 HX. revert r1 H1 Y HY. induction (sites w1) as [|a l IH]; intros r1 H1 Y HY; inversion H1 as [|t r l' r1' Hr H1' E1 E2]; subst; cbn [map osum] in *.
    - injection HY as <-. f_equal. ring.
    - apply (says_energy _ L s) in Hr as (J & EJ & ER). cbn [fst snd] in *. rewrite ER. unfold site_term in HY at 1. cbn [spin_length] in HY.
      destruct (onsite_value w1 a) as [A|]; [|discriminate]. cbn in EJ. injection EJ as <-.
      destruct (osum (map (site_term true w1 L s) l)) as [Y'|]; [|discriminate]. injection HY as <-.
      rewrite (IH _ H1' Y' eq_refl). f_equal. rewrite onsite_pair_energy, site_energy_scale. ring. }
  assert (A2 : osum (map (row_energy atoms L s) r2) = Some (e * X)).
  { clear H1 HY A1. revert r2 H2 X HX. induction (bonds w1) as [|k l IH]; intros r2 H2 X HX; inversion H2 as [|t r l' r2' Hr H2' E1 E2]; subst; cbn [map osum] in *.
    - injection HX as <-. f_equal. ring.
    - apply (says_energy _ L s) in Hr as (J & EJ & ER). cbn [fst snd] in *. rewrite ER. unfold bond_term in HX at 1. cbn [spin_length] in HX. rewrite EJ in HX.
      destruct (osum (map (bond_term true w1 L s) l)) as [X'|]; [|discriminate]. injection HX as <-.
      rewrite (IH _ H2' X' eq_refl). f_equal. ring. }
  rewrite map_app, osum_app, A1, A2. f_equal. ring.
Qed.

Lemma ucf_energy (w w' : world) dc sn ef of_ filename materials u L s X Y : convertible w dc sn ef of_ -> periodic L s ->
  dump_ucf filename true true None materials w = (w', Ret u) ->
  exchange_energy w L s = Some X -> onsite_energy w L s = Some Y ->
  vampire_energy u L s = Some (e * (X + Y / ((1 + 1) * (1 + 1)))).
Proof.
  intros C P E HX HY. assert (F0 := full_of _ _ _ _ _ C). rewrite dump_ucf_cases in E.
  destruct (ucf_run w dc sn ef of_ true true None materials C I) as (w1 & at1 & mats & E1 & [F1 P1] & Es & Ea1 & Em & B1 & B2).
  assert (S : states e true true None w1 mats at1 u).
  { destruct (Nat.le_gt_cases (List.length at1) (List.length mats)) as [Le|Le].
    - destruct (B2 Le) as [(w2 & u2 & E2 & R & S)|(w2 & x & f & t & m & E2 & _ & _ & D & _)]; [|discriminate]. rewrite E2 in E; cbn [fst snd] in E.
      destruct filename as [n|]; [destruct (can_write n)|]; try discriminate; injection E as _ <-; exact S.
    - rewrite (B1 Le) in E. discriminate. }
  destruct S as (_ & Fa & _ & _ & _ & _ & Rows).
  destruct (fu_no _ _ _ _ _ F0) as (N1 & N2 & N3 & Nof). destruct (fu_no _ _ _ _ _ F1) as (M1 & M2 & M3 & M4).
  unfold exchange_energy in HX. rewrite N2, N3 in HX. unfold onsite_energy in HY. rewrite N2, Nof in HY.
  destruct (osum (map (bond_term sn w L s) (bonds w))) as [X0|] eqn:EX; [|discriminate]. destruct (osum (map (site_term sn w L s) (sites w))) as [Y0|] eqn:EY; [|discriminate].
  cbn in HX, HY. injection HX as <-. injection HY as <-.
  assert (En : energy w L s = Some (ef * X0 + of_ * Y0)) by (unfold energy; rewrite N2, N3, Nof, EX, EY; reflexivity).
  destruct (fu_st _ _ _ _ _ F0) as (_ & _ & _).
  destruct (notation_energy w dc sn ef of_ (N4 true true (- (1 / (1 + 1))) (- (1))) true true _ _ (fu_wf _ _ _ _ _ F0) (fu_un _ _ _ _ _ F0) (fu_sp _ _ _ _ _ F0)
     (fu_st _ _ _ _ _ F0) (fu_no _ _ _ _ _ F0) (fu_ef _ _ _ _ _ F0) (fu_of _ _ _ _ _ F0) eq_refl half_nz mone_nz) as (w1' & E1' & _ & Hen).
  rewrite vampire_named, E1' in E1. injection E1 as ->. specialize (Hen L s P _ En).
  assert (HY1 : exists Y1, osum (map (site_term true w1 L s) (sites w)) = Some Y1 /\ - (1) * Y1 = of_ * Y0).
  { clear - EY F0 F1 P1. revert Y0 EY. induction (sites w) as [|a l IH]; intros Y0 EY; cbn [map osum] in *.
    - exists 0. injection EY as <-. split; [reflexivity|ring].
    - destruct (site_term sn w L s a) as [y|] eqn:Ey; [|discriminate]. destruct (osum (map (site_term sn w L s) l)) as [Y'|]; [|discriminate]. injection EY as <-.
      destruct (site_same w w1 dc sn ef of_ L s a F0 F1 P1 y Ey) as (y1 & -> & Q). destruct (IH Y' eq_refl) as (Y1 & -> & Q').
      eexists. split; [reflexivity|]. transitivity (- (1) * y1 + - (1) * Y1); [ring|]. rewrite Q, Q'. ring. }
  destruct HY1 as (Y1 & EY1 & QY). unfold energy in Hen. rewrite M2, M3, M4, Es, EY1 in Hen.
  destruct (osum (map (bond_term true w1 L s) (bonds w1))) as [X1|] eqn:EX1; [|discriminate]. injection Hen as Hen.
  unfold vampire_energy. rewrite Fa, (rows_energy _ L s w1 _ Rows X1 Y1 EX1) by (rewrite Es; exact EY1). cbn [option_map]. f_equal.
  assert (Q4 := four_neq (F := F)).
  assert (QX : - (1 / (1 + 1)) * X1 = ef * X0).
  { transitivity ((- (1 / (1 + 1)) * X1 + - (1) * Y1) - - (1) * Y1); [ring|]. rewrite Hen, QY. ring. }
  transitivity (e * (- (1 / (1 + 1)) * X1 + (- (1) * Y1) / ((1 + 1) * (1 + 1)))); [field; split; [exact Q4|apply f_two]|]. rewrite QX, QY. reflexivity.
Qed.
End Run.

End VampireProofs.
