(** Single calls (C13-C16) and transposed mirrors along tame histories (C12). *)
From Coq Require Import List Bool ZArith Lia Permutation String.
From Coq Require Import Ring Field Field_theory Ring_theory.
From Verif.Base Require Import Scalar Linear3 PyDict.
From Verif.Model Require Import MatrixParam Hamiltonian History.
From Verif.Spec Require Import HamSpec NotationSpec HistorySpec.
From Verif.Proofs Require Import DictProofs HamBasics HamSetters HamDouble HamDcEnergy NotationProofs HistoryProofs.
Import ListNotations.

Section CallProofs.
Context {F : Type} {SF : Scalar F}.
Add Field F_field : (@f_field F SF).
Notation world := (@world F).
Notation ham := (@ham F).
Notation M := (@M F).
Local Open Scope py_scope.
Local Open Scope fld_scope.

(** ** C13 *)
Lemma set_dc_false_keys (w w' : world) : wf w -> set_double_counting false w = (w', Ret tt) ->
  wf w' /\ forall k, In k (bonds w') <-> In k (bonds w) /\ survives w k = true.
Proof.
  intros W H. assert (Hok := set_dc_false_inv w w' W H). rewrite (set_dc_split w false W) in H.
  assert (W0 := dc_scaled_wf w false W).
  destruct (ensure_no_dc_ok _ W0 eq_refl Hok) as (w1 & E & W' & _ & R & D & V). rewrite E in H. injection H as <-.
  split; [exact W'|]. intros k. rewrite (survives_bonds (dc_scaled w false) w1 1 W0 W'); [reflexivity|].
  intros k'. rewrite V. destruct (survives _ _); [|reflexivity]. symmetry. apply option_map_mscale_1.
Qed.
Lemma dc_off_canonical (w w' : world) : wf w -> set_double_counting false w = (w', Ret tt) ->
  forall k, In k (bonds w') -> kept_direction k /\ ~ In (mirror k) (bonds w') /\ In k (bonds w).
Proof.
  intros W H k I. assert (Hok := set_dc_false_inv w w' W H). destruct (set_dc_false_keys w w' W H) as [W' K].
  assert (Can : forall k, In k (bonds w') -> canonical k = true).
  { clear k I. intros k I. apply K in I as [I S]. destruct (Hok k I) as [C|Im]; [exact C|]. unfold survives in S.
    rewrite (proj2 (dmem_key _ _) Im) in S. cbn in S. apply negb_true_iff in S. destruct (canonical_or k); congruence. }
  splits; [apply canonical_kept, Can, I| |apply K, I].
  intros Im. assert (C := Can _ Im). apply K in I as [I S]. apply K in Im as [Im _]. unfold survives in S.
  rewrite (proj2 (dmem_key _ _) Im), C in S. discriminate.
Qed.
Lemma dc_off_complete (w w' : world) : wf w -> set_double_counting false w = (w', Ret tt) ->
  (forall k, In k (bonds w) -> ~ self_bond k) -> distinct_indices w ->
  forall k, In k (bonds w) -> In k (bonds w') \/ In (mirror k) (bonds w').
Proof.
  intros W H Hns Hd k I. destruct (set_dc_false_keys w w' W H) as [W' K]. rewrite !K.
  destruct (survives w k) eqn:S; [auto|]. right. unfold survives in S. apply negb_false_iff, andb_true_iff in S as [Im C].
  apply dmem_key in Im. split; [exact Im|]. unfold survives. rewrite mirror_invol, (proj2 (dmem_key _ _) I). cbn. apply negb_true_iff.
  destruct (canonical k) eqn:C'; [|reflexivity]. exfalso. exact (kept_mirror_absent w k Hns Hd I C' C).
Qed.

(** ** C14 *)
Lemma insert_bond_value st (h : ham) k l m : wf (mkW st h) -> nth_error st l = Some m -> forall k',
  bond_value (insert_bond st h k l) k' =
  if eq_dec k' k then Some m
  else if eq_dec k' (mirror k) then
    (if dmem (h_exch h) (mirror k) then bond_value (mkW st h) k'
     else match h_dc h with Some true => Some (mtrans m) | _ => None end)
  else bond_value (mkW st h) k'.
Proof.
  intros W Em k'. assert (App : forall x l', dget (h_exch h) x = Some l' -> nth_error (st ++ [mtrans m]) l' = nth_error st l').
  { intros x l' E. apply nth_error_app1. apply (dget_loc (mkW st h) x l' W E). }
  assert (L : (l < List.length st)%nat) by (apply nth_error_Some; congruence).
  unfold insert_bond. rewrite Em. unfold bond_value.
  assert (Hm : dmem (dset (h_exch h) k l) (mirror k) = if eq_dec (mirror k) k then true else dmem (h_exch h) (mirror k)).
  { unfold dmem. rewrite dget_dset. destruct (eq_dec (mirror k) k); reflexivity. }
  rewrite Hm. destruct (h_dc h) as [[]|] eqn:Ed; [destruct (eq_dec (mirror k) k) as [Es|Es]; [|destruct (dmem (h_exch h) (mirror k)) eqn:Edm]| |];
  cbn [w_ham w_store with_exch h_exch]; rewrite ?dget_dset; destruct (eq_dec k' k) as [->|N1]; try exact Em.
  - destruct (eq_dec k' (mirror k)); [congruence|reflexivity].
  - destruct (eq_dec k' (mirror k)); reflexivity.
  - destruct (eq_dec k (mirror k)); [congruence|]. rewrite nth_error_app1 by exact L. exact Em.
  - destruct (eq_dec k' (mirror k)) as [->|N2]; [rewrite nth_error_app2, Nat.sub_diag by lia; reflexivity|].
    destruct (dget (h_exch h) k') as [l'|] eqn:E'; [apply (App _ _ E')|reflexivity].
  - destruct (eq_dec k' (mirror k)) as [->|N2]; [|reflexivity]. unfold dmem. destruct (dget (h_exch h) (mirror k)); reflexivity.
  - destruct (eq_dec k' (mirror k)) as [->|N2]; [|reflexivity]. unfold dmem. destruct (dget (h_exch h) (mirror k)); reflexivity.
Qed.
Lemma insert_bond_onsite st (h : ham) k l m : wf (mkW st h) -> nth_error st l = Some m -> forall a,
  onsite_value (insert_bond st h k l) a = onsite_value (mkW st h) a.
Proof.
  intros (_ & _ & _ & W & _) Em a. unfold insert_bond. rewrite Em. unfold onsite_value.
  destruct (h_dc h) as [[]|]; [destruct (dmem _ _)| |]; cbn [w_ham w_store with_exch h_ons]; try reflexivity.
  destruct (dget (h_ons h) a) as [l'|] eqn:E; [|reflexivity]. apply nth_error_app1. apply (W a l'), dget_In, E.
Qed.
Lemma insert_bond_loc st (h : ham) k l m : nth_error st l = Some m -> dget (h_exch (w_ham (insert_bond st h k l))) k = Some l.
Proof.
  intros Em. unfold insert_bond. rewrite Em. destruct (h_dc h) as [[]|]; [destruct (dmem _ (mirror k)) eqn:E| |]; cbn [w_ham with_exch h_exch];
  rewrite ?dget_dset.
  - destruct (eq_dec k k); [first [reflexivity|discriminate]|congruence].
  - destruct (eq_dec k (mirror k)) as [Es|]; [|destruct (eq_dec k k); [first [reflexivity|discriminate]|congruence]].
    exfalso. rewrite <- Es in E. unfold dmem in E. rewrite dget_dset in E. destruct (eq_dec k k); [first [reflexivity|discriminate]|congruence].
  - destruct (eq_dec k k); [first [reflexivity|discriminate]|congruence].
  - destruct (eq_dec k k); [first [reflexivity|discriminate]|congruence].
Qed.
Lemma insert_bond_rest st (h : ham) k l : exists d, w_ham (insert_bond st h k l) = with_exch h d.
Proof. unfold insert_bond. destruct (h_dc h) as [[]|]; destruct (nth_error st l); try destruct (dmem _ _); eexists; reflexivity. Qed.

Lemma grown_values (w w' : world) : grown w w' -> (forall k, bond_value w' k = bond_value w k) /\ (forall a, onsite_value w' a = onsite_value w a) /\ bonds w' = bonds w.
Proof. intros [E (l & El)]. unfold bond_value, onsite_value, bonds. rewrite E, El. auto. Qed.
Lemma resolve_add_refers r (w w' : world) a : resolve_add r w = (w', Ret a) -> refers r a /\ grown w w' /\ In a (h_atoms (w_ham w')).
Proof.
  intros E. destruct (resolve_add_grown r w) as [G I]. rewrite E in *; cbn [fst snd] in *. splits; auto.
  destruct r as [a'|s]; cbn [resolve_add refers] in *.
  - rewrite bind_gets in E. destruct (mem_atom _ _); [injection E; auto|]. unfold bind in E. cbn in E. injection E; auto.
  - destruct (get_atom_out s w) as [(a' & E' & _ & N)|E']; rewrite E' in E; [injection E as <- <-; exact N|discriminate].
Qed.
Lemma add_exchange_inv r1 r2 ijk l (w w' : world) : (l < List.length (w_store w))%nat -> add_exchange r1 r2 ijk l w = (w', Ret tt) ->
  exists a1 a2 w1, refers r1 a1 /\ refers r2 a2 /\ grown w w1 /\ In a1 (h_atoms (w_ham w1)) /\ In a2 (h_atoms (w_ham w1)) /\
    w' = insert_bond (w_store w1) (w_ham w1) (mkB a1 a2 ijk) l.
Proof.
  intros L H. unfold add_exchange in H. apply bind_inv in H as (w1 & a1 & E1 & H). apply bind_inv in H as (w2 & a2 & E2 & H).
  apply resolve_add_refers in E1 as (R1 & G1 & I1). apply resolve_add_refers in E2 as (R2 & G2 & I2).
  assert (G := grown_trans _ _ _ G1 G2). destruct w2 as [st h]. rewrite store_exchange_ok in H by (destruct G as [G _]; cbn in G; rewrite G; exact L).
  injection H as <-. exists a1, a2, (mkW st h). splits; auto. exact (grown_atoms _ _ G2 _ I1).
Qed.
Lemma add_exchange_new_inv r1 r2 ijk m (w w' : world) : add_exchange_new r1 r2 ijk (Some m) w = (w', Ret tt) ->
  exists a1 a2 w1, refers r1 a1 /\ refers r2 a2 /\ grown w w1 /\ In a1 (h_atoms (w_ham w1)) /\ In a2 (h_atoms (w_ham w1)) /\
    w' = insert_bond (w_store w1 ++ [m]) (w_ham w1) (mkB a1 a2 ijk) (List.length (w_store w1)).
Proof.
  intros H. unfold add_exchange_new in H. apply bind_inv in H as (w1 & a1 & E1 & H). apply bind_inv in H as (w2 & a2 & E2 & H).
  apply resolve_add_refers in E1 as (R1 & G1 & I1). apply resolve_add_refers in E2 as (R2 & G2 & I2).
  assert (G := grown_trans _ _ _ G1 G2). destruct w2 as [st h]. cbn [construct] in H.
  rewrite (bind_val (alloc m) _ _ (mkW (st ++ [m]) h) (List.length st)) in H by reflexivity.
  rewrite store_exchange_ok in H by (rewrite app_length; cbn; lia).
  injection H as <-. exists a1, a2, (mkW st h). splits; auto. exact (grown_atoms _ _ G2 _ I1).
Qed.

(** The effect of adding, in terms of values. *)
Lemma insert_added (w w1 : world) k l m st : wf w -> grown w w1 ->
  In (b_from k) (h_atoms (w_ham w1)) -> In (b_to k) (h_atoms (w_ham w1)) ->
  nth_error (w_store w1 ++ st) l = Some m ->
  added w (insert_bond (w_store w1 ++ st) (w_ham w1) k l) k m.
Proof.
  intros W G I1 I2 Em. destruct (grown_exch _ _ G) as (E1 & E2 & E3). destruct (grown_values _ _ G) as (V1 & V2 & V3).
  assert (W1 := grown_wf _ _ G W).
  assert (W2 : wf (mkW (w_store w1 ++ st) (w_ham w1))).
  { destruct W1 as (A & B & C & D & E & H). unfold wf; cbn [w_store w_ham]. rewrite app_length. splits; auto; intros; [specialize (C _ _ H0)|specialize (D _ _ H0)]; lia. }
  assert (Vb : forall k', bond_value (mkW (w_store w1 ++ st) (w_ham w1)) k' = bond_value w k').
  { intros k'. rewrite <- V1. unfold bond_value; cbn [w_store w_ham]. destruct (dget _ k') as [l'|] eqn:E; [|reflexivity].
    apply nth_error_app1. apply (dget_loc w1 k' l' W1 E). }
  assert (Vo : forall a, onsite_value (mkW (w_store w1 ++ st) (w_ham w1)) a = onsite_value w a).
  { intros a. rewrite <- V2. unfold onsite_value; cbn [w_store w_ham]. destruct (dget _ a) as [l'|] eqn:E; [|reflexivity].
    apply nth_error_app1. destruct W1 as (_ & _ & _ & D & _). apply (D a), dget_In, E. }
  assert (V := insert_bond_value _ _ k l m W2 Em). unfold added. splits.
  - rewrite V. destruct (eq_dec k k); congruence.
  - intros k' N1 N2. rewrite V. destruct (eq_dec k' k); [contradiction|]. destruct (eq_dec k' (mirror k)); [contradiction|]. apply Vb.
  - intros N. rewrite V. destruct (eq_dec (mirror k) k); [contradiction|]. destruct (eq_dec (mirror k) (mirror k)); [|congruence].
    rewrite E1, E3, Vb. fold (bonds w). destruct (in_dec eq_dec (mirror k) (bonds w)) as [i|i].
    + rewrite (proj2 (dmem_key _ _) i). reflexivity.
    + rewrite (proj2 (dmem_key_false _ _) i). reflexivity.
  - intros a. rewrite (insert_bond_onsite _ _ k l m W2 Em). apply Vo.
Qed.

Lemma add_exchange_effect r1 r2 ijk l m (w w' : world) : wf w -> nth_error (w_store w) l = Some m ->
  add_exchange r1 r2 ijk l w = (w', Ret tt) ->
  exists a1 a2, refers r1 a1 /\ refers r2 a2 /\ get_bond (mkB a1 a2 ijk) w' = (w', Ret l) /\ added w w' (mkB a1 a2 ijk) m.
Proof.
  intros W Em H. assert (L : (l < List.length (w_store w))%nat) by (apply nth_error_Some; congruence).
  destruct (add_exchange_inv _ _ _ _ _ _ L H) as (a1 & a2 & w1 & R1 & R2 & G & I1 & I2 & ->). exists a1, a2.
  assert (Es : w_store w1 = w_store w) by apply G.
  splits; auto.
  - unfold get_bond. rewrite bind_gets. erewrite insert_bond_loc; [reflexivity|]. rewrite Es. exact Em.
  - rewrite <- (app_nil_r (w_store w1)). apply insert_added; auto. rewrite app_nil_r, Es. exact Em.
Qed.
Lemma add_exchange_new_effect r1 r2 ijk m (w w' : world) : wf w -> add_exchange_new r1 r2 ijk (Some m) w = (w', Ret tt) ->
  exists a1 a2, refers r1 a1 /\ refers r2 a2 /\ added w w' (mkB a1 a2 ijk) m.
Proof.
  intros W H. destruct (add_exchange_new_inv _ _ _ _ _ _ H) as (a1 & a2 & w1 & R1 & R2 & G & I1 & I2 & ->). exists a1, a2.
  splits; auto. apply insert_added; auto. rewrite nth_error_app2, Nat.sub_diag by lia. reflexivity.
Qed.
(** Adding by Atom objects always succeeds. *)
Lemma add_exchange_total a1 a2 ijk l (w : world) : (l < List.length (w_store w))%nat ->
  exists w', add_exchange (AObj a1) (AObj a2) ijk l w = (w', Ret tt).
Proof.
  intros L. unfold add_exchange.
  assert (R : forall a (w : world), exists w1, resolve_add (AObj a) w = (w1, Ret a) /\ w_store w1 = w_store w).
  { intros a w0. cbn [resolve_add]. rewrite bind_gets. destruct (mem_atom _ _); eexists; split; reflexivity. }
  destruct (R a1 w) as (w1 & E1 & S1). destruct (R a2 w1) as ([st h] & E2 & S2).
  rewrite (bind_val _ _ _ _ _ E1), (bind_val _ _ _ _ _ E2). cbn in S2. rewrite store_exchange_ok; [eauto|congruence].
Qed.

(** Removing. *)
Lemma delete_removed st (h : ham) k : NoDup (dkeys (h_exch h)) -> removed (mkW st h) (mkW st (delete_bond h k)) k.
Proof.
  intros N. assert (N' := NoDup_ddel (h_exch h) k N). unfold removed, bond_value, delete_bond; cbn [w_ham w_store].
  splits; [| | |reflexivity].
  - destruct (h_dc h) as [[]|]; cbn [with_exch h_exch]; rewrite ?(dget_ddel _ _ _ N'), ?(dget_ddel _ _ _ N);
    destruct (eq_dec k k); try congruence. destruct (eq_dec k (mirror k)); reflexivity.
  - intros k' N1 N2. destruct (h_dc h) as [[]|]; cbn [with_exch h_exch]; rewrite ?(dget_ddel _ _ _ N'), ?(dget_ddel _ _ _ N);
    destruct (eq_dec k' k); try contradiction; try reflexivity. destruct (eq_dec k' (mirror k)); [contradiction|reflexivity].
  - intros N1. destruct (h_dc h) as [[]|]; cbn [with_exch h_exch]; rewrite ?(dget_ddel _ _ _ N'), ?(dget_ddel _ _ _ N);
    destruct (eq_dec (mirror k) k); try contradiction; try reflexivity. destruct (eq_dec (mirror k) (mirror k)); congruence.
Qed.
Lemma resolve_refers r (w w' : world) a : resolve r w = (w', Ret a) -> refers r a /\ w' = w.
Proof.
  destruct r as [a'|s]; cbn [resolve refers].
  - intros [= <- <-]. auto.
  - destruct (get_atom_out s w) as [(a' & E' & _ & N)|E']; rewrite E'; [intros [= <- <-]; auto|discriminate].
Qed.
Lemma remove_exchange_effect r1 r2 ijk b (w w' : world) : wf w -> remove_exchange r1 r2 ijk b w = (w', Ret tt) ->
  exists a1 a2, refers r1 a1 /\ refers r2 a2 /\ removed w w' (mkB a1 a2 ijk).
Proof.
  intros W H. unfold remove_exchange in H. apply bind_inv in H as (w1 & a1 & E1 & H). apply bind_inv in H as (w2 & a2 & E2 & H).
  apply resolve_refers in E1 as [R1 ->]. apply resolve_refers in E2 as [R2 ->]. exists a1, a2. splits; auto.
  destruct w as [st h]. destruct (remove_bond_out st h (mkB a1 a2 ijk) b) as [(_ & _ & E)|[_ E]]; [apply W|congruence|].
  rewrite E in H. injection H as <-. apply delete_removed. apply W.
Qed.
(** A failing removal changes nothing. *)
Lemma remove_exchange_reject r1 r2 ijk b (w w' : world) e : wf w -> remove_exchange r1 r2 ijk b w = (w', Raise e) -> w' = w.
Proof.
  intros W. unfold remove_exchange. destruct (resolve_out r1 w) as [(a1 & E1 & _)|E1]; [|rewrite (bind_exn _ _ _ _ _ E1); congruence].
  rewrite (bind_val _ _ _ _ _ E1). destruct (resolve_out r2 w) as [(a2 & E2 & _)|E2]; [|rewrite (bind_exn _ _ _ _ _ E2); congruence].
  rewrite (bind_val _ _ _ _ _ E2). destruct w as [st h].
  destruct (remove_bond_out st h (mkB a1 a2 ijk) b) as [(_ & _ & E)|[_ E]]; [apply W| |]; rewrite E; congruence.
Qed.

(** Membership and lookup. *)
Lemma contains_getitem_bond r1 r2 ijk (w : world) :
  (contains_bond r1 r2 ijk w = (w, Ret true) <-> exists l, getitem_bond r1 r2 ijk w = (w, Ret l)) /\
  (contains_bond r1 r2 ijk w = (w, Ret false) <-> getitem_bond r1 r2 ijk w = (w, Raise KeyError)).
Proof.
  unfold contains_bond, getitem_bond.
  destruct (resolve_out r1 w) as [(a1 & E1 & _)|E1].
  2:{ rewrite !(bind_exn _ _ _ _ _ E1). split; split; try discriminate. intros [? ?]; discriminate. }
  rewrite !(bind_val _ _ _ _ _ E1).
  destruct (resolve_out r2 w) as [(a2 & E2 & _)|E2].
  2:{ rewrite !(bind_exn _ _ _ _ _ E2). split; split; try discriminate. intros [? ?]; discriminate. }
  rewrite !(bind_val _ _ _ _ _ E2). unfold get_bond. rewrite !bind_gets. unfold dmem.
  destruct (dget (h_exch (w_ham w)) (mkB a1 a2 ijk)) as [l|]; unfold ret, raise; split; split; try discriminate; eauto.
  intros [? ?]; discriminate.
Qed.
Lemma contains_getitem_onsite r (w : world) :
  (contains_onsite r w = (w, Ret true) <-> exists l, getitem_onsite r w = (w, Ret l)) /\
  (contains_onsite r w = (w, Ret false) <-> getitem_onsite r w = (w, Raise KeyError)).
Proof.
  unfold contains_onsite, getitem_onsite.
  destruct (resolve_out r w) as [(a1 & E1 & _)|E1].
  2:{ rewrite !(bind_exn _ _ _ _ _ E1). split; split; try discriminate. intros [? ?]; discriminate. }
  rewrite !(bind_val _ _ _ _ _ E1). unfold get_onsite. rewrite !bind_gets. unfold dmem.
  destruct (dget (h_ons (w_ham w)) a1) as [l|]; unfold ret, raise; split; split; try discriminate; eauto.
  intros [? ?]; discriminate.
Qed.

(** On-site. *)
Lemma add_on_site_effect r l m (w w' : world) : nth_error (w_store w) l = Some m -> add_on_site r l w = (w', Ret tt) ->
  exists a, refers r a /\ onsite_value w' a = Some m /\ (forall a', a' <> a -> onsite_value w' a' = onsite_value w a') /\
    (forall k, bond_value w' k = bond_value w k).
Proof.
  intros Em H. unfold add_on_site in H. apply bind_inv in H as (w1 & a & E1 & H). apply resolve_add_refers in E1 as (R1 & G & I1).
  rewrite bind_gets in H. injection H as <-. destruct G as [Es (x & Eh)]. exists a.
  unfold onsite_value, bond_value; cbn [w_store w_ham h_ons h_exch]. rewrite Es, Eh. cbn [with_atoms h_ons h_exch]. splits; auto.
  - rewrite dget_dset. destruct (eq_dec a a); [exact Em|congruence].
  - intros a' N. rewrite dget_dset. destruct (eq_dec a' a); [contradiction|reflexivity].
Qed.
Lemma remove_on_site_effect a b (w w' : world) : wf w -> remove_on_site (AObj a) b w = (w', Ret tt) ->
  onsite_value w' a = None /\ (forall a', a' <> a -> onsite_value w' a' = onsite_value w a') /\ (forall k, bond_value w' k = bond_value w k).
Proof.
  intros (_ & N & _) H. cbn [remove_on_site] in H. rewrite bind_gets in H. destruct (dmem (h_ons (w_ham w)) a) eqn:E.
  - injection H as <-. unfold onsite_value, bond_value; cbn [w_store w_ham h_ons h_exch]. splits; auto.
    + rewrite (dget_ddel _ _ _ N). destruct (eq_dec a a); congruence.
    + intros a' N'. rewrite (dget_ddel _ _ _ N). destruct (eq_dec a' a); [contradiction|reflexivity].
  - destruct b; [discriminate|]. injection H as <-. splits; auto. apply dmem_false in E. unfold onsite_value. rewrite E. reflexivity.
Qed.
Lemma remove_on_site_present a b (w : world) : In a (sites w) -> exists w', remove_on_site (AObj a) b w = (w', Ret tt).
Proof. intros I. cbn [remove_on_site]. rewrite bind_gets. apply dmem_key in I. rewrite I. eexists; reflexivity. Qed.
Lemma remove_on_site_name s b (w : world) : fst (remove_on_site (AName s) b w) = w.
Proof.
  cbn [remove_on_site]. destruct (get_atom_out s w) as [(a & E & _)|E]; [rewrite (bind_val _ _ _ _ _ E); destruct b; reflexivity|].
  rewrite (bind_exn _ _ _ _ _ E). reflexivity.
Qed.

(** ** C15 *)
Lemma delitem_ok i (w : world) : Inv w -> ~ absent w i -> exists w', delitem i w = (w', Ret tt).
Proof.
  intros I N. destruct w as [st h]. destruct i as [k|a]; cbn [delitem absent] in *.
  - destruct (remove_bond_out st h k true) as [(_ & X & _)|[_ E]]; [apply I|contradiction|eauto].
  - apply (remove_on_site_present a true (mkW st h)). unfold sites in *; cbn in *. destruct (in_dec eq_dec a (dkeys (h_ons h))); tauto.
Qed.
Lemma delitem_other i j (w w' : world) : Inv w -> delitem i w = (w', Ret tt) -> j <> i ->
  (forall k, i = IBond k -> j = IBond (mirror k) -> h_dc (w_ham w) <> Some true) -> ~ absent w j -> ~ absent w' j.
Proof.
  intros I H Ne Hm N. destruct w as [st h]. destruct i as [k|a]; cbn [delitem] in H.
  - destruct (remove_bond_out st h k true) as [(_ & _ & E)|[_ E]]; [apply I|congruence|]. rewrite E in H. injection H as <-.
    destruct j as [k'|a']; cbn [absent] in *; [|exact N]. unfold bonds in *; cbn [w_ham] in *. intros A. apply N. intros X. apply A.
    apply delete_bond_keys; [apply I|]. splits; [exact X|congruence|]. intros D ->. apply (Hm k eq_refl eq_refl D).
  - cbn [remove_on_site] in H. rewrite bind_gets in H. destruct (dmem _ a); [|discriminate]. injection H as <-.
    destruct j as [k'|a']; cbn [absent] in *; [exact N|]. unfold sites in *; cbn [w_ham h_ons] in *. intros A. apply N. intros X. apply A.
    apply dkeys_ddel; [apply I|]. split; [congruence|exact X].
Qed.
Lemma delitem_dc i (w w' : world) o : delitem i w = (w', o) -> h_dc (w_ham w') = h_dc (w_ham w) /\ h_atoms (w_ham w') = h_atoms (w_ham w).
Proof.
  intros H. destruct w as [st h]. destruct i as [k|a]; cbn [delitem] in H.
  - unfold remove_bond in H. rewrite bind_gets in H. cbn [w_ham] in H.
    destruct (dmem (h_exch h) k).
    + rewrite (bind_val (set_exch _) _ (mkW st h) (mkW st (with_exch h (ddel (h_exch h) k))) tt) in H by reflexivity.
      unfold try_catch in H. set (w1 := mkW st (with_exch h (ddel (h_exch h) k))) in H.
      destruct (h_dc h) as [c|] eqn:Ed.
      * rewrite (bind_val _ _ _ _ _ (get_dc_some w1 c Ed)), bind_gets in H.
        destruct (c && dmem (h_exch (w_ham w1)) (mirror k))%bool; injection H as <- <-; cbn; auto.
      * rewrite (bind_exn _ _ _ _ _ (get_dc_none w1 Ed)) in H. cbn in H. injection H as <- <-. auto.
    + cbn in H. injection H as <- <-. auto.
  - destruct (remove_on_site_out (AObj a) true (mkW st h)) as [(a' & _ & _ & E)|E]; rewrite H in E; cbn [fst] in E; [injection E as -> ->|subst w']; auto.
Qed.
Lemma delete_all_ok items : forall w : world, Inv w -> NoDup items -> (forall i, In i items -> ~ absent w i) ->
  (forall k, In (IBond k) items -> In (IBond (mirror k)) items -> mirror k <> k -> h_dc (w_ham w) <> Some true) ->
  exists w', for_each items delitem w = (w', Ret tt).
Proof.
  induction items as [|i items IH]; intros w I N Hp Hm; [eexists; reflexivity|].
  destruct (delitem_ok i w I (Hp i (or_introl eq_refl))) as [w1 E1]. cbn [for_each]. rewrite (bind_val _ _ _ _ _ E1).
  inversion N; subst. apply IH; auto.
  - replace w1 with (fst (delitem i w)) by (rewrite E1; reflexivity). apply Inv_delitem, I.
  - intros j J. apply (delitem_other i j w w1 I E1); [congruence| |apply Hp; right; exact J].
    intros k -> ->. apply (Hm k); [left; reflexivity|right; exact J|]. intros X. rewrite X in J. contradiction.
  - intros k J1 J2. destruct (delitem_dc _ _ _ _ E1) as [-> _]. apply Hm; right; assumption.
Qed.
Lemma delitem_values i (w w' : world) : Inv w -> delitem i w = (w', Ret tt) ->
  (forall k, In k (bonds w') -> bond_value w' k = bond_value w k) /\ (forall a, In a (sites w') -> onsite_value w' a = onsite_value w a).
Proof.
  intros I H. destruct w as [st h]. destruct i as [k|a]; cbn [delitem] in H.
  - destruct (remove_bond_out st h k true) as [(_ & _ & E)|[_ E]]; [apply I|congruence|]. rewrite E in H. injection H as <-.
    assert (N : NoDup (dkeys (h_exch h))) by apply I. destruct (delete_removed st h k N) as (R1 & R2 & R3 & R4).
    split; [|intros; apply R4]. intros k' Ik. apply delete_bond_keys in Ik as (Ik & N1 & N2); [|exact N].
    destruct (eq_dec k' (mirror k)) as [->|N3]; [|apply R2; auto]. rewrite R3 by congruence. cbn [w_ham]. destruct (h_dc h) as [[]|]; auto. exfalso. apply N2; reflexivity.
  - cbn [remove_on_site] in H. rewrite bind_gets in H. destruct (dmem _ a) eqn:E; [|discriminate]. injection H as <-.
    split; [reflexivity|]. intros a' Ia. unfold onsite_value; cbn [w_ham w_store h_ons]. rewrite dget_ddel by apply I.
    apply dkeys_ddel in Ia as [Ia _]; [|apply I]. destruct (eq_dec a' a); [contradiction|reflexivity].
Qed.
(** Deleting a list of parameters: kept parameters are unchanged and only listed ones disappear. *)
Lemma delete_all_values items : forall w w' : world, Inv w -> for_each items delitem w = (w', Ret tt) ->
  (forall k, In k (bonds w') -> bond_value w' k = bond_value w k) /\ (forall a, In a (sites w') -> onsite_value w' a = onsite_value w a) /\
  (forall k, In k (bonds w) -> ~ In (IBond k) items -> (h_dc (w_ham w) = Some true -> ~ In (IBond (mirror k)) items) -> In k (bonds w')) /\
  (forall a, In a (sites w) -> ~ In (IAtom a) items -> In a (sites w')) /\
  h_dc (w_ham w') = h_dc (w_ham w) /\ h_atoms (w_ham w') = h_atoms (w_ham w).
Proof.
  induction items as [|i items IH]; intros w w' I H; cbn [for_each] in H.
  - injection H as <-. splits; auto.
  - apply bind_inv in H as (w1 & [] & E1 & E2).
    assert (I1 : Inv w1) by (replace w1 with (fst (delitem i w)) by (rewrite E1; reflexivity); apply Inv_delitem, I).
    destruct (IH w1 w' I1 E2) as (V1 & V2 & K1 & K2 & D & At). destruct (delitem_values i w w1 I E1) as [U1 U2].
    destruct (delitem_bonds_subset items w1 w' I1 E2) as [Sb Ss]. destruct (delitem_dc _ _ _ _ E1) as [D1 At1].
    splits; try congruence.
    + intros k Ik. rewrite (V1 k Ik). apply U1, Sb, Ik.
    + intros a Ia. rewrite (V2 a Ia). apply U2, Ss, Ia.
    + intros k Ik N Nm. apply K1; [|cbn in N; tauto|intros X; rewrite D1 in X; specialize (Nm X); cbn in Nm; tauto].
      assert (Q : ~ absent w1 (IBond k)).
      { apply (delitem_other i (IBond k) w w1 I E1); [intros X; apply N; left; congruence| |cbn; tauto].
        intros k0 -> X Dc. injection X as X. apply (Nm Dc). left. rewrite X, mirror_invol. reflexivity. }
      cbn in Q. destruct (in_dec eq_dec k (bonds w1)); tauto.
    + intros a Ia N. apply K2; [|cbn in N; tauto].
      assert (Q : ~ absent w1 (IAtom a)).
      { apply (delitem_other i (IAtom a) w w1 I E1); [intros X; apply N; left; congruence|discriminate|cbn; tauto]. }
      cbn in Q. destruct (in_dec eq_dec a (sites w1)); tauto.
Qed.

Lemma removal_list_In (w : world) a i : In i (removal_list w a) <->
  match i with IBond k => In k (bonds w) /\ (b_from k = a \/ b_to k = a) | IAtom a' => a' = a /\ In a (sites w) end.
Proof.
  unfold removal_list. rewrite in_app_iff, in_map_iff. unfold sites. destruct i as [k|a'].
  - split.
    + intros [(k' & [= <-] & J)|J]; [apply filter_In in J; rewrite touches_iff in J; exact J|destruct (dmem _ _); [destruct J as [J|[]]; discriminate|destruct J]].
    + intros [J T]. left. exists k. split; [reflexivity|]. apply filter_In. rewrite touches_iff. auto.
  - rewrite <- dmem_key. destruct (dmem (h_ons (w_ham w)) a); split.
    + intros [(k' & ? & _)|[J|[]]]; [discriminate|]. injection J as <-. auto.
    + intros [-> _]. right; left; reflexivity.
    + intros [(k' & ? & _)|[]]; discriminate.
    + intros [_ ?]; discriminate.
Qed.
Lemma removal_list_nodup (w : world) a : wf w -> NoDup (removal_list w a).
Proof.
  intros (N & _). unfold removal_list. apply NoDup_app_intro.
  - apply FinFun.Injective_map_NoDup; [intros x y [= E]; exact E|]. apply NoDup_filter, N.
  - destruct (dmem _ _); repeat constructor; auto.
  - intros x J. apply in_map_iff in J as (k & <- & _). destruct (dmem _ _); [intros [X|[]]; discriminate|auto].
Qed.
Lemma remove_first_count a l : NoDup l -> ~ In a (remove_first a l).
Proof.
  induction 1 as [|x l Hx N IH]; cbn; [auto|]. destruct (eq_dec a x) as [->|Ne]; [exact Hx|]. intros [->|J]; [congruence|contradiction].
Qed.

Lemma remove_atom_effect (w w' : world) a : Inv w -> remove_atom (AObj a) w = (w', Ret tt) ->
  (forall k, bond_value w' k = if touches a k then None else bond_value w k) /\
  (forall a', onsite_value w' a' = if eq_dec a' a then None else onsite_value w a') /\
  h_atoms (w_ham w') = remove_first a (h_atoms (w_ham w)).
Proof.
  intros I H. unfold remove_atom in H. cbn [resolve] in H. rewrite bind_ret, !bind_gets in H. fold (bonds w) in H. fold (removal_list w a) in H.
  apply bind_inv in H as (w1 & [] & E1 & H). destruct (removal_clears w w1 a I E1) as (I1 & Cb & Cs).
  destruct (delete_all_values _ _ _ I E1) as (V1 & V2 & K1 & K2 & D & At).
  destruct (delitem_bonds_subset _ _ _ I E1) as [Sb Ss].
  unfold crystal_remove_atom in H. rewrite bind_gets in H. destruct (mem_atom _ _); [|discriminate]. injection H as <-.
  assert (Vb : forall k, bond_value w1 k = if touches a k then None else bond_value w k).
  { intros k. destruct (touches a k) eqn:T.
    - apply bond_value_absent; [apply I1|]. intros Ik. apply Cb in Ik. apply touches_iff in T. tauto.
    - destruct (in_dec eq_dec k (bonds w1)) as [i|n]; [apply V1, i|].
      assert (n' := n). apply bond_value_absent in n'; [|apply I1]. rewrite n'. symmetry. apply bond_value_absent; [apply I|]. intros Ik. apply n.
      assert (T' : ~ (b_from k = a \/ b_to k = a)) by (rewrite <- touches_iff; congruence).
      apply K1; auto; [rewrite removal_list_In; tauto|]. intros _. rewrite removal_list_In. unfold mirror; cbn. tauto. }
  assert (Vo : forall a', onsite_value w1 a' = if eq_dec a' a then None else onsite_value w a').
  { intros a'. assert (A0 : forall (w : world) x, Inv w -> ~ In x (sites w) -> onsite_value w x = None).
    { intros w0 x I0 Nx. destruct (onsite_value w0 x) eqn:E; [|reflexivity]. exfalso. apply Nx. apply onsite_value_stored; [apply I0|eauto]. }
    destruct (eq_dec a' a) as [->|Ne]; [apply A0; auto|].
    destruct (in_dec eq_dec a' (sites w1)) as [i|n]; [apply V2, i|].
    rewrite (A0 w1 a' I1 n). symmetry. apply A0; [exact I|]. intros Ia. apply n. apply K2; auto. rewrite removal_list_In. tauto. }
  splits; [exact Vb|exact Vo|]. cbn. rewrite At. reflexivity.
Qed.
Lemma remove_atom_ok (w : world) a : Inv w -> In a (h_atoms (w_ham w)) ->
  (h_dc (w_ham w) = Some true -> forall k, In k (bonds w) -> (b_from k = a \/ b_to k = a) -> self_bond k) ->
  exists w', remove_atom (AObj a) w = (w', Ret tt).
Proof.
  intros I Ia Hs. unfold remove_atom. cbn [resolve]. rewrite bind_ret, !bind_gets. fold (bonds w). fold (removal_list w a).
  destruct (delete_all_ok (removal_list w a) w I (removal_list_nodup w a (proj1 I))) as [w1 E1].
  - intros i J. apply removal_list_In in J. destruct i; cbn; [tauto|]. destruct J as [-> J]; tauto.
  - intros k J1 J2 Ns Dc. apply removal_list_In in J1 as [J1 T]. apply Ns. exact (Hs Dc k J1 T).
  - rewrite (bind_val _ _ _ _ _ E1). unfold crystal_remove_atom. rewrite bind_gets.
    destruct (delete_all_values _ _ _ I E1) as (_ & _ & _ & _ & _ & At). rewrite At, (mem_atom_In _ _ Ia). eexists; reflexivity.
Qed.
(** Under double counting: deleting a bond also deletes its mirror, whose own turn then raises. *)
Lemma delitem_raises_key i (w w' : world) e : Inv w -> delitem i w = (w', Raise e) -> e = KeyError.
Proof.
  intros I H. destruct w as [st h]. destruct i as [k|a]; cbn [delitem] in H.
  - destruct (remove_bond_out st h k true) as [(_ & _ & E)|[_ E]]; [apply I| |]; rewrite E in H; congruence.
  - cbn [remove_on_site] in H. rewrite bind_gets in H. destruct (dmem _ a); [discriminate|]. injection H; auto.
Qed.
Lemma absent_raises k items : forall w : world, Inv w -> In (IBond k) items -> ~ In k (bonds w) ->
  exists w', for_each items delitem w = (w', Raise KeyError).
Proof.
  induction items as [|i items IH]; intros w I J N; [destruct J|]. cbn [for_each].
  destruct (delitem i w) as [w1 [[]|e]] eqn:E.
  - rewrite (bind_val _ _ _ _ _ E). destruct J as [->|J].
    + exfalso. cbn [delitem] in E. destruct w as [st h]. destruct (remove_bond_out st h k true) as [(_ & _ & E')|[[X|X] E']]; [apply I|congruence|discriminate|contradiction].
    + assert (E' : w1 = fst (delitem i w)) by (rewrite E; reflexivity). apply IH; auto; rewrite E'; [apply Inv_delitem, I|].
      exact (delitem_shrinks i w I (IBond k) N).
  - rewrite (bind_exn _ _ _ _ _ E). rewrite (delitem_raises_key i w w1 e I E). eauto.
Qed.
Lemma pair_raises k items : forall w : world, Inv w -> h_dc (w_ham w) = Some true -> In (IBond k) items -> In (IBond (mirror k)) items -> mirror k <> k ->
  exists w', for_each items delitem w = (w', Raise KeyError).
Proof.
  induction items as [|i items IH]; intros w I Dc J1 J2 Ns; [destruct J1|]. cbn [for_each].
  destruct (delitem i w) as [w1 [[]|e]] eqn:E.
  2:{ rewrite (bind_exn _ _ _ _ _ E). rewrite (delitem_raises_key i w w1 e I E). eauto. }
  rewrite (bind_val _ _ _ _ _ E). assert (E' : w1 = fst (delitem i w)) by (rewrite E; reflexivity).
  assert (I1 : Inv w1) by (rewrite E'; apply Inv_delitem, I).
  assert (Del : forall k0, i = IBond k0 -> ~ In k0 (bonds w1) /\ ~ In (mirror k0) (bonds w1)).
  { intros k0 ->. destruct w as [st h]. cbn [delitem] in E. destruct (remove_bond_out st h k0 true) as [(_ & _ & X)|[_ X]]; [apply I|congruence|].
    rewrite X in E. injection E as <-. unfold bonds; cbn [w_ham]. rewrite !delete_bond_keys by apply I. split; intros (A & B & C); [congruence|].
    apply C; auto. }
  destruct J1 as [->|J1].
  - destruct J2 as [[= J2]|J2]; [congruence|]. apply (absent_raises (mirror k)); auto. apply Del; reflexivity.
  - destruct J2 as [->|J2].
    + apply (absent_raises k); auto. destruct (Del _ eq_refl) as [_ D]. rewrite mirror_invol in D. exact D.
    + apply IH; auto. destruct (delitem_dc _ _ _ _ E) as [-> _]. exact Dc.
Qed.
Lemma remove_atom_double_counting (w : world) a k : Inv w -> h_dc (w_ham w) = Some true -> In k (bonds w) ->
  (b_from k = a \/ b_to k = a) -> ~ self_bond k -> exists w', remove_atom (AObj a) w = (w', Raise KeyError).
Proof.
  intros I Dc Ik T Ns. unfold remove_atom. cbn [resolve]. rewrite bind_ret, !bind_gets. fold (bonds w). fold (removal_list w a).
  destruct (pair_raises k (removal_list w a) w I Dc) as [w1 E1]; auto.
  - apply removal_list_In. auto.
  - apply removal_list_In. split; [apply I; auto|]. unfold mirror; cbn. tauto.
  - exists w1. apply bind_exn, E1.
Qed.

(** ** C12 *)
Definition Rec (w : world) : Prop := Inv w /\ unshared w /\ reciprocal w /\ (forall k, In k (bonds w) -> ~ self_bond k).

Lemma reciprocal_sub (w w' : world) : reciprocal w -> (forall k J, bond_value w' k = Some J -> bond_value w k = Some J) -> reciprocal w'.
Proof. intros R V k J J' H H'. apply (R k); apply V; assumption. Qed.
Lemma reciprocal_same (w w' : world) : reciprocal w -> (forall k, bond_value w' k = bond_value w k) -> reciprocal w'.
Proof. intros R V. apply (reciprocal_sub w w' R). intros k J. rewrite V. auto. Qed.
Lemma Rec_grown (w w' : world) : grown w w' -> Rec w -> Rec w'.
Proof.
  intros G (I & U & R & N). destruct (grown_values _ _ G) as (V1 & V2 & V3). destruct (grown_exch _ _ G) as (E1 & E2 & E3). unfold Rec. splits.
  - eapply Inv_grown; eauto.
  - unfold unshared. rewrite E1, E2. exact U.
  - exact (reciprocal_same w w' R V1).
  - rewrite V3. exact N.
Qed.
Lemma Rec_alloc (w : world) m : Rec w -> Rec (mkW (w_store w ++ [m]) (w_ham w)).
Proof.
  intros (I & U & R & N). unfold Rec. splits; auto; [apply Inv_alloc, I|]. apply (reciprocal_same w); [exact R|]. intros k.
  unfold bond_value; cbn. destruct (dget _ k) as [l|] eqn:E; [|reflexivity]. apply nth_error_app1. apply (dget_loc w k l (proj1 I) E).
Qed.
Lemma NoDup_app_sub {A} (l l' X : list A) : NoDup (l ++ X) -> NoDup l' -> (forall x, In x l' -> In x l) -> NoDup (l' ++ X).
Proof.
  intros N N' S. apply NoDup_app_intro; [exact N'|eapply NoDup_app_r; eauto|]. intros x Il Ix. apply S in Il.
  clear - N Il Ix. induction l as [|y l IH]; [destruct Il|]. cbn in N. inversion N; subst. destruct Il as [->|Il]; [apply H1, in_or_app; auto|auto].
Qed.
Lemma ddel_snd_nodup {K} `{EqDec K} (d : dict K loc) k : NoDup (map snd d) -> NoDup (map snd (ddel d k)).
Proof.
  induction d as [|[k' l] d IH]; cbn; [auto|]. intros N. inversion N; subst. destruct (eq_dec k k'); [assumption|]. cbn. constructor; [|auto].
  intros J. apply H2. apply in_map_iff in J as ([k'' l''] & E & J). cbn in E. subst. apply in_map_iff. exists (k'', l). split; [reflexivity|].
  eapply ddel_incl; eauto.
Qed.
Lemma ddel_snd_incl {K} `{EqDec K} (d : dict K loc) k x : In x (map snd (ddel d k)) -> In x (map snd d).
Proof. rewrite !in_map_iff. intros (p & E & J). exists p. split; [exact E|]. eapply ddel_incl; eauto. Qed.
Lemma Rec_delete st (h : ham) k : Rec (mkW st h) -> Rec (mkW st (delete_bond h k)).
Proof.
  intros (I & U & R & N). assert (Nd : NoDup (dkeys (h_exch h))) by apply I. unfold Rec. splits.
  - apply Inv_delete, I.
  - unfold unshared in *; cbn [w_ham] in *. apply (NoDup_app_sub (map snd (h_exch h))); [exact U| |].
    + apply NoDup_app_l in U. unfold delete_bond. destruct (h_dc h) as [[]|]; cbn [with_exch h_exch]; repeat apply ddel_snd_nodup; exact U.
    + intros x. unfold delete_bond. destruct (h_dc h) as [[]|]; cbn [with_exch h_exch]; intros J; repeat apply ddel_snd_incl in J; exact J.
  - apply (reciprocal_sub (mkW st h)); [exact R|]. intros k' J H.
    assert (Ik : In k' (bonds (mkW st (delete_bond h k)))) by (apply bond_value_stored; [apply Inv_delete, I|eauto]).
    apply delete_bond_keys in Ik as (A & B & C); [|exact Nd]. destruct (delete_removed st h k Nd) as (R1 & R2 & R3 & R4).
    destruct (eq_dec k' (mirror k)) as [->|N3]; [|rewrite <- R2; auto]. rewrite R3 in H by congruence. cbn [w_ham] in H.
    destruct (h_dc h) as [[]|]; [discriminate|auto|auto].
  - intros k' J. apply delete_bond_keys in J as (J & _); [|exact Nd]. apply N, J.
Qed.
Lemma Rec_remove_bond k b (w : world) : Rec w -> Rec (fst (remove_bond k b w)).
Proof.
  intros R. destruct w as [st h]. destruct (remove_bond_out st h k b) as [(_ & _ & E)|[_ E]]; [apply R|rewrite E; exact R|].
  rewrite E. apply Rec_delete, R.
Qed.
Lemma Rec_remove_on_site r b (w : world) : Rec w -> Rec (fst (remove_on_site r b w)).
Proof.
  intros (I & U & R & N). destruct (remove_on_site_out r b w) as [(a & _ & _ & E)|E]; [|rewrite E; unfold Rec; auto].
  assert (I' := Inv_remove_on_site r b w I). rewrite E in *; cbn [fst] in *. unfold Rec. splits; auto.
  unfold unshared in *; cbn [w_ham with_ons h_exch h_ons]. apply NoDup_app_intro.
  - eapply NoDup_app_l; eauto.
  - apply ddel_snd_nodup. eapply NoDup_app_r; eauto.
  - intros x J J'. apply ddel_snd_incl in J'. clear - U J J'. induction (map snd (h_exch (w_ham w))) as [|y l IH]; [destruct J|].
    cbn in U. inversion U; subst. destruct J as [->|J]; [apply H1, in_or_app; auto|auto].
Qed.
Lemma Rec_delitem i (w : world) : Rec w -> Rec (fst (delitem i w)).
Proof. destruct i; cbn [delitem]; [apply Rec_remove_bond|apply Rec_remove_on_site]. Qed.
Lemma Rec_insert st (h : ham) k l : (l < List.length st)%nat -> In (b_from k) (h_atoms h) -> In (b_to k) (h_atoms h) ->
  ~ In l (in_use (mkW st h)) -> new_bond (mkW st h) k -> Rec (mkW st h) -> Rec (insert_bond st h k l).
Proof.
  intros L I1 I2 Nl (Nk & Nm & Ns) (I & U & R & N). destruct (nth_error_lt st l L) as [m Em].
  assert (V := insert_bond_value st h k l m (proj1 I) Em). unfold Rec. splits.
  - apply Inv_insert; auto.
  - unfold unshared in *; cbn [w_ham] in U. unfold in_use in Nl; cbn [w_ham] in Nl. assert (U1 := snd_dset_nodup _ k l _ U Nl).
    unfold insert_bond. rewrite Em. destruct (h_dc h) as [[]|]; [|exact U1|exact U1]. destruct (dmem (dset (h_exch h) k l) (mirror k)); cbn [w_ham with_exch h_exch h_ons]; [exact U1|].
    apply snd_dset_nodup; [exact U1|]. intros J. destruct I as [(_ & _ & W3 & W4 & _) _]; cbn [w_ham w_store] in *.
    apply in_app_or in J as [J|J].
    + apply snd_dset_incl in J as [J|J]; [lia|]. apply in_map_iff in J as ([k' l'] & E & J). cbn in E. subst. specialize (W3 _ _ J). unfold loc in *. lia.
    + apply in_map_iff in J as ([k' l'] & E & J). cbn in E. subst. specialize (W4 _ _ J). unfold loc in *. lia.
  - intros x J J'. rewrite !V. assert (Hdm : dmem (h_exch h) (mirror k) = false) by (apply dmem_key_false; exact Nm). rewrite Hdm.
    destruct (eq_dec x k) as [->|N1].
    + destruct (eq_dec (mirror k) k); [contradiction|]. destruct (eq_dec (mirror k) (mirror k)); [|congruence].
      intros [= <-]. destruct (h_dc h) as [[]|]; try discriminate. intros X. apply (f_equal (@vdef F SF)) in X. symmetry. exact X.
    + destruct (eq_dec x (mirror k)) as [->|N2].
      * rewrite mirror_invol. destruct (eq_dec k k); [|congruence]. destruct (h_dc h) as [[]|]; try discriminate.
        intros X Y. apply (f_equal (@vdef F SF)) in X, Y. cbn [vdef] in X, Y. subst. symmetry. apply mtrans_invol.
      * destruct (eq_dec (mirror x) k) as [E|N3]; [exfalso; apply N2; rewrite <- E; symmetry; apply mirror_invol|].
        destruct (eq_dec (mirror x) (mirror k)) as [E|N4]; [apply mirror_inj in E; contradiction|]. apply R.
  - intros x J. apply insert_bond_keys in J as [J|[->|[_ ->]]]; [apply N, J|exact Ns| |exact L].
    unfold self_bond. rewrite mirror_invol. intros X. apply Ns. unfold self_bond. congruence.
Qed.
Lemma new_bond_grown (w w' : world) k : grown w w' -> new_bond w k -> new_bond w' k.
Proof. intros G. unfold new_bond. destruct (grown_values _ _ G) as (_ & _ & ->). auto. Qed.
Lemma resolve2_refers (w : world) r1 r2 (k : atom -> atom -> M unit) (P : world -> Prop) :
  (forall w', grown w w' -> P w') ->
  (forall w' a1 a2, grown w w' -> In a1 (h_atoms (w_ham w')) -> In a2 (h_atoms (w_ham w')) -> refers r1 a1 -> refers r2 a2 -> P (fst (k a1 a2 w'))) ->
  P (fst (bind (resolve_add r1) (fun a1 => bind (resolve_add r2) (fun a2 => k a1 a2)) w)).
Proof.
  intros Hg Hk. destruct (resolve_add r1 w) as [w1 [a1|e1]] eqn:E1.
  - rewrite (bind_val _ _ _ _ _ E1). apply resolve_add_refers in E1 as (R1 & G1 & I1).
    destruct (resolve_add r2 w1) as [w2 [a2|e2]] eqn:E2.
    + rewrite (bind_val _ _ _ _ _ E2). apply resolve_add_refers in E2 as (R2 & G2 & I2).
      apply Hk; auto; [exact (grown_trans _ _ _ G1 G2)|exact (grown_atoms _ _ G2 _ I1)].
    + rewrite (bind_exn _ _ _ _ _ E2). cbn. apply Hg. apply (grown_trans _ _ _ G1). destruct (resolve_add_grown r2 w1) as [G _]. rewrite E2 in G. exact G.
  - rewrite (bind_exn _ _ _ _ _ E1). cbn. apply Hg. destruct (resolve_add_grown r1 w) as [G _]. rewrite E1 in G. exact G.
Qed.
Lemma Rec_ons st (h : ham) a l : (l < List.length st)%nat -> In a (h_atoms h) -> ~ In l (in_use (mkW st h)) ->
  Rec (mkW st h) -> Rec (mkW st (with_ons h (dset (h_ons h) a l))).
Proof.
  intros L Ia Nl (I & U & R & N). unfold Rec. splits; auto; [apply Inv_ons; auto|].
  unfold unshared in *; cbn [w_ham with_ons h_exch h_ons] in *. unfold in_use in Nl; cbn [w_ham] in Nl.
  apply NoDup_app_intro; [eapply NoDup_app_l; eauto| |].
  - apply NoDup_app_r in U. rewrite <- (app_nil_r (map snd _)). assert (Nl' : ~ In l (map snd (h_ons h))) by (intros J; apply Nl, in_or_app; auto).
    clear - U Nl'. rewrite app_nil_r. induction (h_ons h) as [|[k' l'] d IH]; cbn; [repeat constructor; auto|].
    cbn in *. inversion U; subst. destruct (eq_dec a k'); cbn; constructor; auto.
    intros J. assert (X : forall d : dict atom loc, In l' (map snd (dset d a l)) -> l' = l \/ In l' (map snd d)).
    { clear. induction d as [|[k l0] d IH]; cbn; [intuition|]. destruct (eq_dec a k); cbn; intuition. }
    destruct (X _ J) as [->|]; tauto.
  - intros x J J'. assert (X : forall d : dict atom loc, In x (map snd (dset d a l)) -> x = l \/ In x (map snd d)).
    { clear. induction d as [|[k l0] d IH]; cbn; [intuition|]. destruct (eq_dec a k); cbn; intuition. }
    destruct (X _ J') as [->|J'']; [apply Nl, in_or_app; auto|].
    clear - U J J''. induction (map snd (h_exch h)) as [|y t IH]; [destruct J|]. cbn in U. inversion U; subst. destruct J as [->|J]; [apply H1, in_or_app; auto|auto].
Qed.
Lemma fresh_unused (w : world) m : wf w -> ~ In (List.length (w_store w)) (in_use (mkW (w_store w ++ [m]) (w_ham w))).
Proof.
  intros (_ & _ & W3 & W4 & _) J. unfold in_use in J; cbn in J. apply in_app_or in J as [J|J]; apply in_map_iff in J as ([k' l'] & E & J); cbn in E; subst;
  [specialize (W3 _ _ J)|specialize (W4 _ _ J)]; unfold loc in *; lia.
Qed.
Lemma in_use_grown (w w' : world) : grown w w' -> in_use w' = in_use w.
Proof. intros G. destruct (grown_exch _ _ G) as (E1 & E2 & _). unfold in_use. rewrite E1, E2. reflexivity. Qed.

Lemma Rec_rescaled (w w' : world) h' fe fo : Rec w -> rescaled w w' h' (fun k m => mscale (fe k) m) fo ->
  h_exch h' = h_exch (w_ham w) -> h_ons h' = h_ons (w_ham w) -> h_atoms h' = h_atoms (w_ham w) -> h_dc h' = h_dc (w_ham w) ->
  (forall k, fe (mirror k) = fe k) -> Rec w'.
Proof.
  intros (I & U & R & N) (Eh & El & Vb & Vo) E1 E2 E3 E4 Hs. unfold Rec. splits.
  - apply (Inv_store w w'); auto; congruence.
  - unfold unshared. rewrite Eh, E1, E2. exact U.
  - intros k J J'. rewrite !Vb, Hs. destruct (bond_value w k) as [M0|] eqn:A; [|discriminate]. destruct (bond_value w (mirror k)) as [M1|] eqn:B; [|discriminate].
    cbn [option_map]. intros X Y. apply (f_equal (@vdef F SF)) in X, Y. cbn [vdef] in X, Y. subst. rewrite (R _ _ _ A B), mtrans_mscale. reflexivity.
  - unfold bonds. rewrite Eh, E1. exact N.
Qed.
Lemma Rec_set_sn b (w w' : world) : Rec w -> set_spin_normalized b w = (w', Ret tt) -> Rec w'.
Proof.
  intros R H. destruct (set_spin_normalized_sym w w' b) as (ce & co & Hr & _ & _ & Hs); auto; try apply R.
  exact (Rec_rescaled w w' _ ce _ R Hr eq_refl eq_refl eq_refl eq_refl Hs).
Qed.
Lemma Rec_set_ef x (w w' : world) : Rec w -> set_exchange_factor x w = (w', Ret tt) -> Rec w'.
Proof.
  intros R H. destruct (set_exchange_factor_ok w w' x) as (c & Hr & _); auto; try apply R.
  exact (Rec_rescaled w w' _ (fun _ => c) _ R Hr eq_refl eq_refl eq_refl eq_refl (fun _ => eq_refl)).
Qed.
Lemma Rec_set_of x (w w' : world) : Rec w -> set_on_site_factor x w = (w', Ret tt) -> Rec w'.
Proof.
  intros R H. destruct (set_on_site_factor_ok w w' x) as (c & Hr & _); auto; try apply R.
  exact (Rec_rescaled w w' _ (fun _ => 1) _ R Hr eq_refl eq_refl eq_refl eq_refl (fun _ => eq_refl)).
Qed.
Lemma Rec_set_dc b (w w' : world) : Rec w -> set_double_counting b w = (w', Ret tt) -> Rec w'.
Proof.
  intros (I & U & R & N) H. assert (I' : Inv w') by (replace w' with (fst (set_double_counting b w)) by (rewrite H; reflexivity); apply Inv_set_dc, I).
  assert (W := proj1 I). assert (W' := proj1 I'). destruct b.
  - destruct (set_dc_true_ok w W (fun _ => U)) as (w1 & E & _ & U' & _ & _ & V). rewrite H in E. injection E as <-.
    unfold Rec. splits; auto.
    + intros k J J'. rewrite !V. unfold mirrored_value. rewrite mirror_invol.
      destruct (dmem (h_exch (w_ham w)) (mirror k)) eqn:Em; destruct (dmem (h_exch (w_ham w)) k) eqn:Ek.
      * apply dmem_key in Em, Ek. apply (bond_value_stored w _ W) in Em as [Jm Em]. apply (bond_value_stored w _ W) in Ek as [Jk Ek].
        rewrite Em, Ek. cbn [option_map]. intros X Y. apply (f_equal (@vdef F SF)) in X, Y. cbn [vdef] in X, Y. subst.
        rewrite (R _ _ _ Ek Em), !mtrans_mscale, !mtrans_invol. reflexivity.
      * destruct (bond_value w (mirror k)) as [Jm|]; [|discriminate]. cbn [option_map]. intros X Y. apply (f_equal (@vdef F SF)) in X, Y. cbn [vdef] in X, Y. subst.
        rewrite mtrans_mscale, mtrans_invol. reflexivity.
      * destruct (bond_value w k) as [Jm|]; [|discriminate]. cbn [option_map]. intros X Y. apply (f_equal (@vdef F SF)) in X, Y. cbn [vdef] in X, Y. subst.
        rewrite mtrans_mscale. reflexivity.
      * unfold bond_value. unfold dmem in Ek. destruct (dget (h_exch (w_ham w)) k); discriminate.
    + intros k J. apply (mirrored_bonds w w' _ W W' V) in J as [J|J]; [apply N, J|]. intros X. apply (N _ J). unfold self_bond in *. rewrite mirror_invol. congruence.
  - destruct (set_dc_false_ok w W (fun _ => U) (set_dc_false_inv w w' W H)) as (w1 & E & _ & U' & _ & _ & V). rewrite H in E. injection E as <-.
    unfold Rec. splits; auto.
    + intros k J J'. rewrite !V. destruct (survives w k); [|discriminate]. destruct (survives w (mirror k)); [|discriminate].
      destruct (bond_value w k) as [M0|] eqn:A; [|discriminate]. destruct (bond_value w (mirror k)) as [M1|] eqn:B; [|discriminate].
      cbn [option_map]. intros X Y. apply (f_equal (@vdef F SF)) in X, Y. cbn [vdef] in X, Y. subst. rewrite (R _ _ _ A B), mtrans_mscale. reflexivity.
    + intros k J. apply (survives_bonds w w' _ W W' V) in J as [J _]. apply N, J.
Qed.

Lemma Rec_exec o (w : world) : Rec w -> tame w o -> Rec (fst (exec o w)).
Proof.
  intros R T. destruct o; cbn [exec tame] in *.
  - apply (Rec_alloc w m R).
  - destruct R as (I & U & R & N). unfold write; cbn [fst]. unfold Rec. splits; auto.
    + apply (Inv_store w); auto. cbn. apply length_list_set.
    + apply (reciprocal_same w); [exact R|]. intros k. unfold bond_value; cbn. destruct (dget _ k) as [l'|] eqn:E; [|reflexivity].
      rewrite nth_list_set. destruct (Nat.eqb_spec l' l) as [->|]; [|reflexivity]. exfalso. apply T. apply in_map_iff. exists (k, l). split; [reflexivity|apply dget_In, E].
  - unfold valid_loc. destruct (Nat.ltb_spec l (List.length (w_store w))) as [L|L]; [|exact R]. destruct T as [Tl Tb].
    apply (resolve2_refers w r1 r2 (fun a1 a2 => store_exchange (mkB a1 a2 ijk) l) Rec); [intros; eapply Rec_grown; eauto|]. intros [st h] a1 a2 G I1 I2 R1 R2.
    assert (L' : (l < List.length st)%nat) by (destruct G as [G _]; cbn in G; rewrite G; exact L).
    rewrite store_exchange_ok by exact L'. cbn [fst]. apply Rec_insert; auto.
    + rewrite (in_use_grown _ _ G). exact Tl.
    + apply (new_bond_grown _ _ _ G). apply Tb; auto.
    + exact (Rec_grown _ _ G R).
  - apply (resolve2_refers w r1 r2 (fun a1 a2 => bind (construct m) (fun l => store_exchange (mkB a1 a2 ijk) l)) Rec); [intros; eapply Rec_grown; eauto|].
    intros [st h] a1 a2 G I1 I2 R1 R2. apply (Rec_grown _ _ G) in R. destruct m as [m|]; cbn [construct]; [|exact R].
    rewrite (bind_val (alloc m) _ _ (mkW (st ++ [m]) h) (List.length st)) by reflexivity.
    rewrite store_exchange_ok by (rewrite app_length; cbn; lia). cbn [fst]. apply Rec_insert; auto.
    + rewrite app_length; cbn; lia.
    + apply (fresh_unused (mkW st h) m). apply R.
    + apply (new_bond_grown _ _ _ G). apply T; auto.
    + apply (Rec_alloc (mkW st h) m R).
  - unfold remove_exchange. destruct (resolve_out r1 w) as [(a1 & E1 & _)|E1]; [|rewrite (bind_exn _ _ _ _ _ E1); exact R].
    rewrite (bind_val _ _ _ _ _ E1). destruct (resolve_out r2 w) as [(a2 & E2 & _)|E2]; [|rewrite (bind_exn _ _ _ _ _ E2); exact R].
    rewrite (bind_val _ _ _ _ _ E2). apply Rec_remove_bond, R.
  - unfold valid_loc. destruct (Nat.ltb_spec l (List.length (w_store w))) as [L|L]; [|exact R].
    apply (resolve1 w r (fun a => bind (gets (@h_ons F)) (fun d => set_ons (dset d a l))) Rec); [intros; eapply Rec_grown; eauto|]. intros [st h] a G Ia. rewrite bind_gets.
    apply (Rec_ons st h a l); auto; [destruct G as [G _]; cbn in G; rewrite G; exact L|rewrite (in_use_grown _ _ G); exact T|exact (Rec_grown _ _ G R)].
  - apply (resolve1 w r (fun a => bind (construct m) (fun l => bind (gets (@h_ons F)) (fun d => set_ons (dset d a l)))) Rec); [intros; eapply Rec_grown; eauto|]. intros [st h] a G Ia.
    apply (Rec_grown _ _ G) in R. destruct m as [m|]; cbn [construct]; [|exact R].
    rewrite (bind_val (alloc m) _ _ (mkW (st ++ [m]) h) (List.length st)) by reflexivity. rewrite bind_gets.
    apply (Rec_ons (st ++ [m]) h a (List.length st)); auto; [rewrite app_length; cbn; lia| |apply (Rec_alloc (mkW st h) m R)]. apply (fresh_unused (mkW st h) m). apply R.
  - apply Rec_remove_on_site, R.
  - apply Rec_delitem, R.
  - unfold h_filter. rewrite bind_gets. apply bind_inv_state; [rewrite collect_filter_bonds_state; exact R|]. intros r1 w1 R1. rewrite bind_gets.
    apply bind_inv_state; [rewrite collect_filter_onsite_state; exact R1|]. intros r2 w2 R2.
    apply for_each_inv; [|exact R2]. intros i w3 R3. rewrite try_catch_fst. apply Rec_delitem, R3.
  - apply (Rec_grown w); [|exact R]. split; [reflexivity|]. exists [a]. reflexivity.
  - assert (I' : Inv (fst (remove_atom r w))) by (apply Inv_remove_atom, R).
    revert I'. unfold remove_atom. destruct (resolve_out r w) as [(a & E & _)|E]; [|rewrite (bind_exn _ _ _ _ _ E); auto].
    rewrite (bind_val _ _ _ _ _ E), !bind_gets. set (items := map IBond _ ++ _).
    assert (R1 : Rec (fst (for_each items delitem w))) by (apply for_each_inv; [intros; apply Rec_delitem; assumption|exact R]).
    destruct (for_each items delitem w) as [w1 [[]|e]] eqn:E1; cbn [fst] in R1.
    + rewrite (bind_val _ _ _ _ _ E1). unfold crystal_remove_atom. rewrite bind_gets. destruct (mem_atom _ _); [|auto]. intros I'. cbn [fst] in *.
      destruct R1 as (I1 & U & Rc & N). unfold Rec. splits; auto.
    + rewrite (bind_exn _ _ _ _ _ E1). auto.
  - destruct (set_double_counting b w) as [w' o] eqn:E. cbn in T. subst. apply (Rec_set_dc b w); auto.
  - destruct (set_spin_normalized b w) as [w' o] eqn:E. cbn in T. subst. apply (Rec_set_sn b w); auto.
  - destruct (set_exchange_factor x w) as [w' o] eqn:E. cbn in T. subst. apply (Rec_set_ef x w); auto.
  - destruct (set_on_site_factor x w) as [w' o] eqn:E. cbn in T. subst. apply (Rec_set_of x w); auto.
  - destruct (set_notation n w) as [w' o] eqn:E. cbn in T. subst. cbn [fst]. unfold set_notation in E.
    destruct (parse_notation n) as [[[[dc sn] fe] fo]|]; [|discriminate].
    apply bind_inv in E as (w1 & [] & E1 & E). apply bind_inv in E as (w2 & [] & E2 & E). apply bind_inv in E as (w3 & [] & E3 & E).
    apply (Rec_set_of fo w3); auto. apply (Rec_set_ef fe w2); auto. apply (Rec_set_sn sn w1); auto. apply (Rec_set_dc dc w); auto.
Qed.
Lemma Rec_fresh st atoms (spins : dict atom F) : Rec (fresh st atoms spins).
Proof.
  unfold Rec. splits; [apply Inv_fresh|constructor| |]; [intros k J J' H; discriminate|intros k []].
Qed.
Lemma tame_reciprocal ops : forall w : world, Rec w -> tame_history ops w -> Rec (run ops w).
Proof. induction ops as [|o t IH]; intros w R; cbn [run tame_history]; [auto|]. intros [T Tt]. apply IH; [apply Rec_exec; auto|exact Tt]. Qed.
Lemma history_reciprocal st atoms (spins : dict atom F) ops : tame_history ops (fresh st atoms spins) ->
  let w := run ops (fresh st atoms spins) in h_dc (w_ham w) = Some true ->
  forall k J, bond_value w k = Some J -> bond_value w (mirror k) = Some (mtrans J).
Proof.
  intros T w Dc k J H. assert (R := tame_reciprocal ops _ (Rec_fresh st atoms spins) T). fold w in R. destruct R as ((W & Cl) & _ & R & _).
  assert (Im : In (mirror k) (bonds w)) by (apply Cl; [exact Dc|]; apply bond_value_stored; eauto).
  apply (bond_value_stored w _ W) in Im as [J' Im]. rewrite Im, (R _ _ _ H Im). reflexivity.
Qed.

End CallProofs.
