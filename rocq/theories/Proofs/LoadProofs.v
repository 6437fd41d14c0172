(** What a loaded file contains: the calls made by the section readers, in terms of values. *)
From Coq Require Import String Ascii List Bool ZArith Arith Lia Permutation.
From Verif.Base Require Import Scalar Linear3 PyDict PyString PyText.
From Verif.Spec Require Import HamSpec HistorySpec TxtSpec TxtFormat.
From Verif.Model Require Import MatrixParam Hamiltonian TxtVerify TxtRead.
From Verif.Proofs Require Import DictProofs HamBasics HamSetters HamDouble HistoryProofs CallProofs TextBasics SectionProofs TxtReadProofs VerifyProofs.
Import ListNotations.
Local Open Scope string_scope.

Section Load.
Context {F : Type} {SF : Scalar F}.
Variable X : externals F.
Notation world := (@world F).
Notation M := (@M F).
Notation call := (@call F).
Local Open Scope py_scope.

(** ** Texts describe at most one thing *)
Lemma numbers_fun ws xs ys : numbers X ws xs -> numbers X ws ys -> xs = ys.
Proof.
  intros H. revert ys. induction H; intros ys H'; inversion H'; subst; [reflexivity|]. f_equal; [congruence|auto].
Qed.
Lemma data_text_fun lines ds : data_text X lines ds -> forall ds', data_text X lines ds' -> ds = ds'.
Proof.
  induction 1; intros ds' H'; inversion H'; subst; try reflexivity;
    repeat match goal with
    | E1 : py_split ?l = _, E2 : py_split ?l = _ |- _ => rewrite E1 in E2; inversion E2; subst; clear E2
    end;
    try match goal with Ha : initial ?a ?k, Hb : initial ?b ?k |- _ => pose proof (initial_fun _ _ _ Ha Hb); discriminate end;
    try contradiction;
    repeat match goal with
    | N1 : numbers X ?ws ?xs, N2 : numbers X ?ws ?ys |- _ =>
        first [constr_eq xs ys; fail 1 | pose proof (numbers_fun _ _ _ N1 N2) as E; inversion E; subst; clear E N2]
    | E1 : x_float X ?w = Some ?x, E2 : x_float X ?w = Some ?y |- _ => rewrite E1 in E2; inversion E2; subst; clear E2
    end; f_equal; auto.
Qed.
Lemma bond_text_fun s b b' : bond_text X s b -> bond_text X s b' -> b = b'.
Proof.
  intros (h & d & wi & wj & wk & i & j & k & -> & E & Ei & Ej & Ek & Ec & D) (h' & d' & wi' & wj' & wk' & i' & j' & k' & E0 & E' & Ei' & Ej' & Ek' & Ec' & D').
  inversion E0; subst. rewrite E in E'. inversion E'; subst. pose proof (data_text_fun _ _ D _ D').
  destruct b, b'; simpl in *; subst. f_equal; auto. congruence.
Qed.
Lemma exchange_text_fun lines bs bs' : Forall clean lines -> exchange_text X lines bs -> exchange_text X lines bs' -> bs = bs'.
Proof.
  intros C E E'. destruct (exchange_runs X _ _ E C) as [H _]. destruct (exchange_runs X _ _ E' C) as [H' _]. clear E E'.
  revert bs' H'. induction H as [|s b rs bs Hb _ IH]; intros bs' H'; inversion H'; subst; [reflexivity|].
  f_equal; [eapply bond_text_fun; eauto|auto].
Qed.

(** ** Atoms by name *)
Definition names_ok (w : world) : Prop := NoDup (map a_name (h_atoms (w_ham w))).
Lemma name_inj (l : list atom) a b : NoDup (map a_name l) -> In a l -> In b l -> a_name a = a_name b -> a = b.
Proof.
  induction l as [|x l IH]; simpl; intros N Ia Ib E; [contradiction|]. inversion N; subst.
  destruct Ia as [->|Ia], Ib as [->|Ib]; auto; exfalso; apply H1; [rewrite E|rewrite <- E]; apply in_map; assumption.
Qed.
Lemma get_atom_ok (w : world) a : names_ok w -> In a (h_atoms (w_ham w)) -> get_atom (a_name a) w = (w, Ret a).
Proof.
  unfold names_ok. intros N I. destruct (get_atom_out (a_name a) w) as [(b & E & Ib & Eb)|E].
  - rewrite (name_inj _ _ _ N Ib I Eb) in E. exact E.
  - exfalso. unfold get_atom in E. rewrite bind_gets in E.
    assert (G : filter (fun b => if string_dec (a_name b) (a_name a) then true else false) (h_atoms (w_ham w)) = [a]).
    { clear E. revert N I. generalize (h_atoms (w_ham w)). induction l as [|x l IH]; simpl; intros N I; [contradiction|].
      inversion N; subst. destruct (string_dec (a_name x) (a_name a)) as [Ex|Ex].
      - assert (filter (fun b => if string_dec (a_name b) (a_name a) then true else false) l = []) as ->.
        { destruct (filter _ l) as [|y t] eqn:Ef; [reflexivity|]. exfalso.
          assert (Iy : In y (filter (fun b => if string_dec (a_name b) (a_name a) then true else false) l)) by (rewrite Ef; left; reflexivity).
          apply filter_In in Iy. destruct Iy as [Iy Ey]. destruct (string_dec (a_name y) (a_name a)) as [Ey'|]; [|discriminate].
          apply H1. rewrite Ex, <- Ey'. apply in_map. exact Iy. }
        destruct I as [->|I]; [reflexivity|]. exfalso. apply H1. rewrite Ex. apply in_map. exact I.
      - apply IH; [assumption|]. destruct I as [->|I]; [congruence|exact I]. }
    rewrite G in E. discriminate.
Qed.

(** What reading parameters leaves alone. *)
Definition same_frame (w w' : world) : Prop :=
  h_atoms (w_ham w') = h_atoms (w_ham w) /\ h_spins (w_ham w') = h_spins (w_ham w) /\ h_dc (w_ham w') = h_dc (w_ham w)
  /\ h_sn (w_ham w') = h_sn (w_ham w) /\ h_ef (w_ham w') = h_ef (w_ham w) /\ h_of (w_ham w') = h_of (w_ham w).
Lemma same_frame_refl w : same_frame w w.
Proof. unfold same_frame. tauto. Qed.
Lemma same_frame_trans w1 w2 w3 : same_frame w1 w2 -> same_frame w2 w3 -> same_frame w1 w3.
Proof. unfold same_frame. intuition congruence. Qed.

(** ** One bond *)
Definition call_key (c : call) (k : bkey) : Prop :=
  let '(n1, n2, R, _) := c in a_name (b_from k) = n1 /\ a_name (b_to k) = n2 /\ b_cell k = R.
Definition after_call (w : world) (k : bkey) (m : M3 F) (k' : bkey) : option (M3 F) :=
  if eq_dec k' k then Some m
  else if eq_dec k' (mirror k) then
    (if dmem (h_exch (w_ham w)) (mirror k) then bond_value w k'
     else match h_dc (w_ham w) with Some true => Some (mtrans m) | _ => None end)
  else bond_value w k'.

Lemma call_step n1 n2 R m (w w' : world) : Inv w -> do_call (n1, n2, R, Some m) w = (w', Ret tt) ->
  exists k, call_key (n1, n2, R, Some m) k /\ In (b_from k) (h_atoms (w_ham w)) /\ In (b_to k) (h_atoms (w_ham w)) /\
    Inv w' /\ same_frame w w' /\ (forall k', bond_value w' k' = after_call w k m k') /\ (forall a, onsite_value w' a = onsite_value w a)
    /\ sites w' = sites w.
Proof.
  intros I H. assert (I' : Inv w') by (change w' with (fst (w', Ret tt)); rewrite <- H; apply Inv_add_exchange_new, I).
  unfold do_call, add_exchange_new in H. cbn [resolve_add] in H.
  destruct (get_atom_out n1 w) as [(a1 & E1 & I1 & N1)|E1]; [|rewrite (bind_exn _ _ _ _ _ E1) in H; discriminate].
  rewrite (bind_val _ _ _ _ _ E1) in H.
  destruct (get_atom_out n2 w) as [(a2 & E2 & I2 & N2)|E2]; [|rewrite (bind_exn _ _ _ _ _ E2) in H; discriminate].
  rewrite (bind_val _ _ _ _ _ E2) in H. destruct w as [st h]. cbn [construct] in H.
  rewrite (bind_val (alloc m) _ _ (mkW (st ++ [m]) h) (List.length st)) in H by reflexivity.
  rewrite store_exchange_ok in H by (rewrite app_length; cbn; lia). injection H as H. cbn [w_ham] in *.
  assert (Em : nth_error (st ++ [m])%list (List.length st) = Some m) by (rewrite nth_error_app2, Nat.sub_diag by lia; reflexivity).
  assert (W2 : wf (mkW (st ++ [m]) h)) by (apply (Inv_alloc (mkW st h) m I)).
  assert (Vb : forall k', bond_value (mkW (st ++ [m]) h) k' = bond_value (mkW st h) k').
  { intros k'. unfold bond_value; cbn [w_store w_ham]. destruct (dget _ k') as [l'|] eqn:E; [|reflexivity].
    apply nth_error_app1. apply (dget_loc (mkW st h) k' l' (proj1 I) E). }
  exists (mkB a1 a2 R). split; [cbn; auto|]. split; [exact I1|]. split; [exact I2|]. split; [exact I'|]. split; [|split; [|split]].
  - subst w'. destruct (insert_bond_rest (st ++ [m]) h (mkB a1 a2 R) (List.length st)) as [d E]. unfold same_frame. rewrite E. cbn. tauto.
  - intros k'. subst w'. rewrite (insert_bond_value _ _ _ _ m W2 Em). unfold after_call. cbn [w_ham].
    destruct (eq_dec k' _); [reflexivity|]. rewrite !Vb. reflexivity.
  - intros a. subst w'. rewrite (insert_bond_onsite _ _ _ _ m W2 Em). unfold onsite_value; cbn [w_store w_ham].
    destruct (dget _ a) as [l'|] eqn:E; [|reflexivity]. apply nth_error_app1. destruct I as [(_ & _ & _ & D & _) _]. apply (D a l'). apply dget_Some_In, E.
  - subst w'. destruct (insert_bond_rest (st ++ [m]) h (mkB a1 a2 R) (List.length st)) as [d E]. unfold sites. rewrite E. reflexivity.
Qed.

Lemma call_total n1 n2 R m (w : world) a1 a2 : names_ok w -> In a1 (h_atoms (w_ham w)) -> In a2 (h_atoms (w_ham w)) ->
  a_name a1 = n1 -> a_name a2 = n2 -> exists w', do_call (n1, n2, R, Some m) w = (w', Ret tt).
Proof.
  intros N I1 I2 <- <-. unfold do_call, add_exchange_new. cbn [resolve_add].
  rewrite (bind_val _ _ _ _ _ (get_atom_ok w a1 N I1)), (bind_val _ _ _ _ _ (get_atom_ok w a2 N I2)). destruct w as [st h]. cbn [construct].
  rewrite (bind_val (alloc m) _ _ (mkW (st ++ [m]) h) (List.length st)) by reflexivity.
  rewrite store_exchange_ok by (rewrite app_length; cbn; lia). eauto.
Qed.

(** ** All bonds *)
Definition keyed := (bkey * M3 F)%type.
Definition last_key (k : bkey) (cs : list keyed) : option (M3 F) :=
  last_some (fun c => if eq_dec (fst c) k then Some (snd c) else None) cs.
Definition first_key (k : bkey) (cs : list keyed) : option (M3 F) :=
  match find (fun c => if eq_dec (fst c) k then true else false) cs with Some c => Some (snd c) | None => None end.
Definition calls_value (dc : option bool) (cs : list keyed) (k : bkey) : option (M3 F) :=
  match last_key k cs with
  | Some m => Some m
  | None => match dc with Some true => option_map mtrans (first_key (mirror k) cs) | _ => None end
  end.

Lemma last_some_snoc {A B} (f : A -> option B) l x :
  last_some f (l ++ [x])%list = match f x with Some y => Some y | None => last_some f l end.
Proof. unfold last_some. rewrite fold_left_app. reflexivity. Qed.
Lemma find_snoc {A} (f : A -> bool) l x : find f (l ++ [x])%list = match find f l with Some y => Some y | None => if f x then Some x else None end.
Proof. induction l as [|a l IH]; simpl; [destruct (f x); reflexivity|]. destruct (f a); [reflexivity|exact IH]. Qed.

Lemma last_for_cons k b (bs : list (@bond F)) :
  last_for k (b :: bs) = match last_for k bs with Some y => Some y | None => if is_entry k b then Some b else None end.
Proof.
  unfold last_for. revert b. induction bs as [|x bs IH] using rev_ind; intros b; [unfold last_some; cbn; destruct (is_entry k b); reflexivity|].
  rewrite app_comm_cons, !last_some_snoc. destruct (is_entry k x); [reflexivity|apply IH].
Qed.
Lemma last_key_snoc k cs c : last_key k (cs ++ [c])%list = if eq_dec (fst c) k then Some (snd c) else last_key k cs.
Proof. unfold last_key. rewrite last_some_snoc. destruct (eq_dec (fst c) k); reflexivity. Qed.
Lemma first_key_snoc k cs c : first_key k (cs ++ [c])%list = match first_key k cs with Some m => Some m | None => if eq_dec (fst c) k then Some (snd c) else None end.
Proof.
  unfold first_key. rewrite find_snoc. match goal with |- context [find ?g cs] => destruct (find g cs) end; [reflexivity|]. destruct (eq_dec (fst c) k); reflexivity.
Qed.
Lemma for_each_snoc {A} (l : list A) x (body : A -> M unit) w :
  for_each (l ++ [x])%list body w = (for_each l body ;;; body x) w.
Proof.
  rewrite for_each_app. unfold bind. destruct (for_each l body w) as [w1 [u|e]]; [|reflexivity]. cbn [for_each]. unfold bind.
  destruct (body x w1) as [w2 [[]|e]]; reflexivity.
Qed.

Definition key_of (c : call) (kc : keyed) : Prop := call_key c (fst kc) /\ snd c = Some (snd kc).

Lemma calls_effect (w0 : world) : Inv w0 -> bonds w0 = [] -> forall cs w, for_each cs do_call w0 = (w, Ret tt) ->
  Forall (fun c => snd c <> None) cs ->
  exists ks, Forall2 key_of cs ks
    /\ Forall (fun kc => In (b_from (fst kc)) (h_atoms (w_ham w0)) /\ In (b_to (fst kc)) (h_atoms (w_ham w0))) ks
    /\ Inv w /\ same_frame w0 w /\ (forall k, bond_value w k = calls_value (h_dc (w_ham w0)) ks k)
    /\ (forall a, onsite_value w a = onsite_value w0 a) /\ sites w = sites w0.
Proof.
  intros I0 B0 cs. induction cs as [|c cs IH] using rev_ind; intros w H Hs.
  - inversion H; subst. exists []. split; [constructor|]. split; [constructor|]. split; [exact I0|]. split; [apply same_frame_refl|].
    split; [|split; reflexivity]. intros k. unfold calls_value. cbn. destruct (h_dc (w_ham w)) as [[]|]; apply (bond_value_absent w k (proj1 I0)); rewrite B0; auto.
  - rewrite for_each_snoc in H. apply bind_inv in H as (w1 & u & H1 & H2). destruct u. apply Forall_app in Hs. destruct Hs as [Hs Hc].
    inversion Hc as [|? ? Hcs _]; subst. destruct (IH w1 H1 Hs) as (ks & K & At & I1 & F1 & V1 & O1 & S1).
    destruct c as [[[n1 n2] R] [m|]]; [|cbn in Hcs; congruence].
    destruct (call_step n1 n2 R m w1 w I1 H2) as (k & Hk & A1 & A2 & I & F2 & V & O & S2).
    destruct F1 as (Fa & Fr). rewrite Fa in A1, A2.
    exists (ks ++ [(k, m)])%list. split; [apply Forall2_app; [exact K|constructor; [split; [exact Hk|reflexivity]|constructor]]|].
    split; [apply Forall_app; split; [exact At|repeat constructor; assumption]|].
    split; [exact I|]. split; [eapply same_frame_trans; [split; [exact Fa|exact Fr]|exact F2]|]. split; [|split; [intros a; rewrite O; apply O1|congruence]].
    intros k'. rewrite V. unfold after_call, calls_value. rewrite last_key_snoc, first_key_snoc. cbn [fst snd]. rewrite V1. unfold calls_value.
    assert (Edc : h_dc (w_ham w1) = h_dc (w_ham w0)) by apply Fr. rewrite Edc.
    destruct (eq_dec k' k) as [->|Nk]; [destruct (eq_dec k k); [reflexivity|congruence]|].
    destruct (eq_dec k k') as [E|_]; [congruence|].
    destruct (eq_dec k' (mirror k)) as [->|Nm].
    + rewrite mirror_invol.
      assert (Hmem : dmem (h_exch (w_ham w1)) (mirror k) = true <-> exists J, bond_value w1 (mirror k) = Some J).
      { rewrite <- (bond_value_stored w1 (mirror k) (proj1 I1)). apply dmem_key. }
      destruct (dmem (h_exch (w_ham w1)) (mirror k)) eqn:Ed.
      * destruct (proj1 Hmem eq_refl) as [J EJ]. rewrite V1 in EJ. unfold calls_value in EJ. rewrite mirror_invol in EJ.
        destruct (last_key (mirror k) ks); [reflexivity|]. destruct (h_dc (w_ham w0)) as [[]|]; [|discriminate|discriminate].
        destruct (first_key k ks); [reflexivity|discriminate].
      * assert (EJ : bond_value w1 (mirror k) = None).
        { destruct (bond_value w1 (mirror k)) eqn:E; [|reflexivity]. assert (false = true) by (apply Hmem; eauto). discriminate. }
        rewrite V1 in EJ. unfold calls_value in EJ. rewrite mirror_invol in EJ.
        destruct (last_key (mirror k) ks); [discriminate|]. destruct (h_dc (w_ham w0)) as [[]|]; [|reflexivity|reflexivity].
        destruct (first_key k ks); [discriminate|]. destruct (eq_dec k k); [reflexivity|congruence].
    + destruct (last_key k' ks); [reflexivity|]. destruct (h_dc (w_ham w0)) as [[]|]; [|reflexivity|reflexivity].
      destruct (first_key (mirror k') ks); [reflexivity|]. destruct (eq_dec k (mirror k')) as [E|_]; [|reflexivity].
      exfalso. apply Nm. rewrite E. symmetry. apply mirror_invol.
Qed.

Lemma calls_total (w0 : world) : Inv w0 -> names_ok w0 -> forall cs,
  Forall (fun c : call => (exists a, In a (h_atoms (w_ham w0)) /\ a_name a = fst (fst (fst c)))
      /\ (exists a, In a (h_atoms (w_ham w0)) /\ a_name a = snd (fst (fst c))) /\ snd c <> None) cs ->
  exists w, for_each cs do_call w0 = (w, Ret tt).
Proof.
  intros I0 N0 cs. revert w0 I0 N0. induction cs as [|c cs IH]; intros w0 I0 N0 H; [eexists; reflexivity|].
  inversion H as [|? ? ((a1 & I1 & E1) & (a2 & I2 & E2) & Hm) Hr]; subst. destruct c as [[[n1 n2] R] [m|]]; [|cbn in Hm; congruence]. cbn [fst snd] in *.
  destruct (call_total n1 n2 R m w0 a1 a2 N0 I1 I2 E1 E2) as [w1 Hw]. cbn [for_each]. unfold bind. rewrite Hw.
  destruct (call_step _ _ _ _ _ _ I0 Hw) as (k & _ & _ & _ & I & (Fa & _) & _). apply IH; [exact I|unfold names_ok; rewrite Fa; exact N0|].
  rewrite Fa. exact Hr.
Qed.

(** ** From entries to calls *)
Lemma entry_key (atoms : list atom) (b : @bond F) k k0 : NoDup (map a_name atoms) ->
  In (b_from k) atoms -> In (b_to k) atoms -> In (b_from k0) atoms -> In (b_to k0) atoms ->
  a_name (b_from k0) = bn_from b -> a_name (b_to k0) = bn_to b -> b_cell k0 = bn_cell b ->
  is_entry k b = true <-> k0 = k.
Proof.
  intros N I1 I2 J1 J2 E1 E2 E3. unfold is_entry. split.
  - intros H. apply andb_prop in H. destruct H as [H H3]. apply andb_prop in H. destruct H as [H1 H2].
    destruct (string_dec _ _) as [S1|] in H1; [|discriminate]. destruct (string_dec _ _) as [S2|] in H2; [|discriminate].
    destruct (eq_dec _ _) as [S3|] in H3; [|discriminate].
    destruct k as [f t c], k0 as [f0 t0 c0]; cbn in *. f_equal; [apply (name_inj atoms)|apply (name_inj atoms)|]; congruence.
  - intros ->. rewrite E1, E2, E3. destruct (string_dec (bn_from b) (bn_from b)); [|congruence].
    destruct (string_dec (bn_to b) (bn_to b)); [|congruence]. destruct (eq_dec (bn_cell b) (bn_cell b)); [reflexivity|congruence].
Qed.

Lemma bond_calls_some (b : @bond F) : Forall (fun c => snd c <> None) (bond_calls b).
Proof.
  unfold bond_calls. rewrite Forall_map. eapply Forall_impl; [|apply bond_states_ok; exact I].
  intros bd H. destruct (bond_matrix_total bd H) as [m Em]. cbn. congruence.
Qed.

(** The calls of one bond: a common key; the last matrix is the one described, the first that of the first line. *)
Lemma bond_calls_keys (b : @bond F) ks : bn_data b <> [] -> Forall2 key_of (bond_calls b) ks ->
  (forall kc, In kc ks -> a_name (b_from (fst kc)) = bn_from b /\ a_name (b_to (fst kc)) = bn_to b /\ b_cell (fst kc) = bn_cell b)
  /\ (exists pre k, ks = (pre ++ [(k, described (bn_data b))])%list) /\ (exists k post, ks = (k, described (firstn 1 (bn_data b))) :: post).
Proof.
  intros Hn H. unfold bond_calls in H. set (f := fun bd : bond_data => (bn_from b, bn_to b, bn_cell b, bond_matrix bd)) in H.
  split; [|split].
  - intros kc Ik. clear Hn. revert H Ik. generalize (bond_states (mkBD None None None None) (bn_data b)). intros l. revert ks.
    induction l as [|bd l IH]; intros ks H Ik; inversion H; subst; [contradiction|]. destruct Ik as [<-|Ik]; [|eapply IH; eauto].
    destruct H2 as [Hk _]. exact Hk.
  - pose proof (states_described (bn_data b) Hn) as E.
    assert (Hs : bond_states (mkBD None None None None) (bn_data b) <> []) by (destruct (bn_data b); [congruence|discriminate]).
    destruct (exists_last Hs) as (l & bd & El). rewrite El in H, E. rewrite last_last in E. rewrite map_app in H.
    apply Forall2_app_inv_l in H. destruct H as (k1 & k2 & _ & H2 & ->). cbn [map] in H2. inversion H2 as [|? [k m] ? ? [_ Hm] H3]; subst.
    inversion H3; subst. cbn in Hm. rewrite E in Hm. inversion Hm; subst. exists k1, k. reflexivity.
  - destruct (bn_data b) as [|d ds]; [congruence|]. cbn [bond_states map] in H. inversion H as [|? [k m] ? post [_ Hm] H3]; subst.
    exists k, post. cbn [firstn]. f_equal. f_equal. cbn in Hm.
    pose proof (states_described [d] ltac:(discriminate)) as E. cbn [bond_states last] in E. rewrite E in Hm. congruence.
Qed.

Lemma calls_value_entries (atoms : list atom) dc (bs : list (@bond F)) ks : NoDup (map a_name atoms) ->
  Forall (fun b => bn_data b <> []) bs -> Forall2 key_of (flat_map bond_calls bs) ks ->
  Forall (fun kc => In (b_from (fst kc)) atoms /\ In (b_to (fst kc)) atoms) ks ->
  forall k, In (b_from k) atoms -> In (b_to k) atoms ->
  calls_value dc ks k =
    match last_for k bs with
    | Some b => Some (described (bn_data b))
    | None => match dc with
              | Some true => option_map (fun b => mtrans (described (firstn 1 (bn_data b)))) (first_for (mirror k) bs)
              | _ => None
              end
    end.
Proof.
  intros N Hn. revert ks.
  assert (G : forall ks, Forall2 key_of (flat_map bond_calls bs) ks ->
    Forall (fun kc => In (b_from (fst kc)) atoms /\ In (b_to (fst kc)) atoms) ks ->
    forall k, In (b_from k) atoms -> In (b_to k) atoms ->
      first_key k ks = option_map (fun b => described (firstn 1 (bn_data b))) (first_for k bs)
      /\ (forall acc, fold_left (fun acc c => match (if eq_dec (fst c) k then Some (snd c) else None) with Some y => Some y | None => acc end) ks acc
          = match last_for k bs with Some b => Some (described (bn_data b)) | None => acc end)).
  { induction Hn as [|b bs Hb _ IH]; intros ks H A k I1 I2; cbn [flat_map] in H.
    - inversion H; subst. split; reflexivity.
    - apply Forall2_app_inv_l in H. destruct H as (k1 & k2 & H1 & H2 & ->). apply Forall_app in A. destruct A as [A1 A2].
      destruct (IH k2 H2 A2 k I1 I2) as [IHf IHl]. destruct (bond_calls_keys b k1 Hb H1) as (Hk & (pre & kl & El) & (kf & post & Ef)).
      assert (Same : forall kc, In kc k1 -> (fst kc = k <-> is_entry k b = true)).
      { intros kc Ik. destruct (Hk kc Ik) as (E1 & E2 & E3). rewrite Forall_forall in A1. destruct (A1 kc Ik) as [J1 J2].
        symmetry. apply (entry_key atoms); assumption. }
      destruct (is_entry k b) eqn:Eb.
      + assert (All : forall kc, In kc k1 -> fst kc = k) by (intros kc Ik; apply Same; auto).
        split.
        * unfold first_key, first_for. rewrite Ef. cbn [app find fst snd]. rewrite (All (kf, _)) by (rewrite Ef; left; reflexivity).
          cbn [fst]. destruct (eq_dec k k); [|congruence]. cbn. rewrite Eb. reflexivity.
        * intros acc. rewrite fold_left_app, IHl, last_for_cons, Eb. destruct (last_for k bs); [reflexivity|]. rewrite El, fold_left_app. cbn [fold_left fst snd].
          rewrite (All (kl, described (bn_data b))) by (rewrite El; apply in_or_app; right; left; reflexivity).
          cbn [fst]. destruct (eq_dec k k); [reflexivity|congruence].
      + assert (Non : forall kc, In kc k1 -> fst kc <> k) by (intros kc Ik E; apply Same in E; [discriminate|exact Ik]).
        assert (F1 : find (fun c : keyed => if eq_dec (fst c) k then true else false) k1 = None).
        { clear - Non. induction k1 as [|c k1 IH]; [reflexivity|]. simpl. destruct (eq_dec (fst c) k) as [E|_]; [exfalso; apply (Non c); [left; reflexivity|exact E]|].
          apply IH. intros kc Ik. apply Non. right. exact Ik. }
        assert (F2 : forall acc, fold_left (fun acc c => match (if eq_dec (fst c) k then Some (snd c) else None) with Some y => Some y | None => acc end) k1 acc = acc).
        { clear - Non. induction k1 as [|c k1 IH]; intros acc; [reflexivity|]. simpl. destruct (eq_dec (fst c) k) as [E|_]; [exfalso; apply (Non c); [left; reflexivity|exact E]|].
          apply IH. intros kc Ik. apply Non. right. exact Ik. }
        split.
        * unfold first_key. assert (E : forall l, find (fun c : keyed => if eq_dec (fst c) k then true else false) (k1 ++ l)%list = find (fun c : keyed => if eq_dec (fst c) k then true else false) l).
          { intros l. clear - F1. induction k1 as [|c k1 IH]; [reflexivity|]. simpl in *. destruct (eq_dec (fst c) k); [discriminate|]. apply IH. exact F1. }
          rewrite E. unfold first_for. cbn [find]. rewrite Eb. exact IHf.
        * intros acc. rewrite fold_left_app, F2, IHl, last_for_cons, Eb. destruct (last_for k bs); reflexivity. }
  intros ks H A k I1 I2. unfold calls_value. destruct (G ks H A k I1 I2) as [_ Gl]. unfold last_key, last_some. rewrite Gl.
  destruct (last_for k bs); [reflexivity|]. destruct dc as [[]|]; [|reflexivity|reflexivity].
  destruct (G ks H A (mirror k)) as [Gf _]; [destruct k; exact I2|destruct k; exact I1|]. rewrite Gf. destruct (first_for _ bs); reflexivity.
Qed.

(** ** On-site parameters *)
Lemma os_step conv n m (w w' : world) : Inv w -> os_call conv (n, m) w = (w', Ret tt) ->
  exists a, a_name a = n /\ In a (h_atoms (w_ham w)) /\ Inv w' /\ same_frame w w'
    /\ (forall k, bond_value w' k = bond_value w k) /\ bonds w' = bonds w
    /\ (forall a', onsite_value w' a' = if eq_dec a' a then Some (mscale conv m) else onsite_value w a').
Proof.
  intros I H. unfold os_call in H. cbn [fst snd] in H.
  destruct (get_atom_out n w) as [(a & E & Ia & Na)|E]; [|rewrite (bind_exn _ _ _ _ _ E) in H; discriminate].
  rewrite (bind_val _ _ _ _ _ E) in H.
  assert (I' : Inv w') by (change w' with (fst (w', Ret tt)); rewrite <- H; apply Inv_add_on_site_new, I).
  unfold add_on_site_new in H. cbn [resolve_add] in H.
  assert (Er : (l <- gets (@h_atoms F) ;; (if mem_atom a l then ret tt else add_atom a) ;;; ret a) w = (w, Ret a)).
  { rewrite bind_gets. unfold mem_atom. destruct (in_dec eq_dec a (h_atoms (w_ham w))); [reflexivity|contradiction]. }
  rewrite (bind_val _ _ _ _ _ Er) in H. destruct w as [st h]. cbn [construct] in H.
  rewrite (bind_val (alloc _) _ _ (mkW (st ++ [mscale conv m]) h) (List.length st)) in H by reflexivity. rewrite bind_gets in H.
  unfold set_ons, modify in H. injection H as H. exists a. split; [exact Na|]. split; [exact Ia|]. split; [exact I'|].
  subst w'. cbn. split; [unfold same_frame; cbn; tauto|]. split; [|split; [reflexivity|]].
  - intros k. unfold bond_value; cbn. destruct (dget _ k) as [l'|] eqn:El; [|reflexivity].
    apply nth_error_app1. apply (dget_loc (mkW st h) k l' (proj1 I) El).
  - intros a'. unfold onsite_value; cbn. rewrite dget_dset. destruct (eq_dec a' a) as [->|]; [rewrite nth_error_app2, Nat.sub_diag by lia; reflexivity|].
    destruct (dget _ a') as [l'|] eqn:El; [|reflexivity]. apply nth_error_app1. destruct I as [(_ & _ & _ & D & _) _]. apply (D a' l'). apply dget_Some_In, El.
Qed.
Lemma os_total conv n m (w : world) a : names_ok w -> In a (h_atoms (w_ham w)) -> a_name a = n -> exists w', os_call conv (n, m) w = (w', Ret tt).
Proof.
  intros N Ia <-. unfold os_call. cbn [fst snd]. rewrite (bind_val _ _ _ _ _ (get_atom_ok w a N Ia)).
  unfold add_on_site_new. cbn [resolve_add].
  assert (Er : (l <- gets (@h_atoms F) ;; (if mem_atom a l then ret tt else add_atom a) ;;; ret a) w = (w, Ret a)).
  { rewrite bind_gets. unfold mem_atom. destruct (in_dec eq_dec a (h_atoms (w_ham w))); [reflexivity|contradiction]. }
  rewrite (bind_val _ _ _ _ _ Er). destruct w as [st h]. cbn [construct].
  rewrite (bind_val (alloc _) _ _ (mkW (st ++ [mscale conv m]) h) (List.length st)) by reflexivity. rewrite bind_gets. eexists. reflexivity.
Qed.

Lemma os_effect conv (w0 : world) : Inv w0 -> names_ok w0 -> forall es w, for_each es (os_call conv) w0 = (w, Ret tt) ->
  Inv w /\ same_frame w0 w /\ (forall k, bond_value w k = bond_value w0 k) /\ bonds w = bonds w0
  /\ forall a, In a (h_atoms (w_ham w0)) -> onsite_value w a = match last_entry (a_name a) es with Some m => Some (mscale conv m) | None => onsite_value w0 a end.
Proof.
  intros I0 N0 es. induction es as [|e es IH] using rev_ind; intros w H.
  - inversion H; subst. split; [exact I0|]. split; [apply same_frame_refl|]. auto.
  - rewrite for_each_snoc in H. apply bind_inv in H as (w1 & u & H1 & H2). destruct u. destruct (IH w1 H1) as (I1 & F1 & V1 & B1 & O1). destruct e as [n m].
    destruct (os_step conv n m w1 w I1 H2) as (a & Na & Ia & I & F2 & V & B & O).
    split; [exact I|]. split; [eapply same_frame_trans; eauto|]. split; [intros k; rewrite V; apply V1|]. split; [congruence|].
    intros a' Ia'. rewrite O. unfold last_entry. rewrite last_some_snoc. cbn [fst snd].
    assert (Fa : h_atoms (w_ham w1) = h_atoms (w_ham w0)) by apply F1. rewrite Fa in Ia.
    destruct (eq_dec a' a) as [->|Ne].
    + destruct (string_dec n (a_name a)); [reflexivity|congruence].
    + destruct (string_dec n (a_name a')) as [E|_]; [|apply O1; exact Ia'].
      exfalso. apply Ne. apply (name_inj (h_atoms (w_ham w0))); auto. congruence.
Qed.
Lemma os_calls_total conv (w0 : world) : Inv w0 -> names_ok w0 -> forall es,
  Forall (fun e => exists a, In a (h_atoms (w_ham w0)) /\ a_name a = fst e) es -> exists w, for_each es (os_call conv) w0 = (w, Ret tt).
Proof.
  intros I0 N0 es. revert w0 I0 N0. induction es as [|[n m] es IH]; intros w0 I0 N0 H; [eexists; reflexivity|].
  inversion H as [|? ? (a & Ia & Ea) Hr]; subst. destruct (os_total conv n m w0 a N0 Ia Ea) as [w1 Hw]. cbn [for_each]. unfold bind. rewrite Hw.
  destruct (os_step _ _ _ _ _ I0 Hw) as (a' & _ & _ & I & (Fa & _) & _). apply IH; [exact I|unfold names_ok; rewrite Fa; exact N0|].
  rewrite Fa. exact Hr.
Qed.

(** ** Notation of an empty Hamiltonian *)
Definition note (p : @property F) (h : @ham F) : @ham F :=
  match p with
  | PSpin b => with_sn h b
  | PDouble b => mkHam (h_exch h) (h_ons h) (h_atoms h) (h_spins h) (Some b) (h_sn h) (h_ef h) (h_of h)
  | PExchange x => with_ef h x
  | POnSite x => with_of h x
  | POther => h
  end.
Lemma set_property_empty p st (h : @ham F) : h_exch h = [] -> h_ons h = [] -> set_property p (mkW st h) = (mkW st (note p h), Ret tt).
Proof.
  destruct h as [d e at_ sp dc sn ef of_]. cbn. intros -> ->. destruct p as [b|b|x|x|].
  - cbn. unfold set_spin_normalized. destruct sn as [[]|]; destruct b; reflexivity.
  - cbn. unfold set_double_counting. destruct dc as [[]|]; destruct b; reflexivity.
  - cbn. unfold set_exchange_factor. destruct ef as [o|]; [|reflexivity]. cbn. destruct (feq_dec o x); reflexivity.
  - cbn. unfold set_on_site_factor. destruct of_ as [o|]; [|reflexivity]. cbn. destruct (feq_dec o x); reflexivity.
  - reflexivity.
Qed.
Lemma note_rest p (h : @ham F) : h_exch (note p h) = h_exch h /\ h_ons (note p h) = h_ons h /\ h_atoms (note p h) = h_atoms h /\ h_spins (note p h) = h_spins h.
Proof. destruct p; cbn; tauto. Qed.
Definition noted (ps : list (@property F)) (h : @ham F) : @ham F := fold_left (fun h p => note p h) ps h.
Lemma noted_rest ps : forall (h : @ham F), h_exch (noted ps h) = h_exch h /\ h_ons (noted ps h) = h_ons h /\ h_atoms (noted ps h) = h_atoms h /\ h_spins (noted ps h) = h_spins h.
Proof.
  induction ps as [|p ps IH]; intros h; [cbn; tauto|]. cbn [noted fold_left]. fold (noted ps (note p h)).
  destruct (IH (note p h)) as (A & B & C & D). destruct (note_rest p h) as (A' & B' & C' & D'). intuition congruence.
Qed.
Lemma set_properties_empty ps : forall st (h : @ham F), h_exch h = [] -> h_ons h = [] -> for_each ps set_property (mkW st h) = (mkW st (noted ps h), Ret tt).
Proof.
  induction ps as [|p ps IH]; intros st h E O; [reflexivity|]. cbn [for_each]. unfold bind. rewrite (set_property_empty p st h E O).
  destruct (note_rest p h) as (A & B & _). apply IH; congruence.
Qed.
(** The last mention counts. *)
Lemma noted_values ps : forall (h : @ham F),
  h_dc (noted ps h) = match last_some (fun p => match p with PDouble b => Some b | _ => None end) ps with Some b => Some b | None => h_dc h end
  /\ h_sn (noted ps h) = match last_some (fun p => match p with PSpin b => Some b | _ => None end) ps with Some b => Some b | None => h_sn h end
  /\ h_ef (noted ps h) = match last_some (fun p => match p with PExchange b => Some b | _ => None end) ps with Some b => Some b | None => h_ef h end
  /\ h_of (noted ps h) = match last_some (fun p => match p with POnSite b => Some b | _ => None end) ps with Some b => Some b | None => h_of h end.
Proof.
  induction ps as [|p ps IH] using rev_ind; intros h; [cbn; tauto|].
  rewrite !last_some_snoc. unfold noted. rewrite fold_left_app. cbn [fold_left]. fold (noted ps h). destruct (IH h) as (A & B & C & D).
  destruct p; cbn; auto.
Qed.

End Load.
