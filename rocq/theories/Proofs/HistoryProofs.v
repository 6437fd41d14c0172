(** Invariants of histories (C11-C16) and outcomes of single calls. *)
From Coq Require Import List Bool ZArith Lia Permutation String.
From Coq Require Import Ring Field Field_theory Ring_theory.
From Verif.Base Require Import Scalar Linear3 PyDict.
From Verif.Model Require Import MatrixParam Hamiltonian History.
From Verif.Spec Require Import HamSpec NotationSpec.
From Verif.Proofs Require Import DictProofs HamBasics HamSetters HamDouble HamDcEnergy NotationProofs.
Import ListNotations.

Section HistoryProofs.
Context {F : Type} {SF : Scalar F}.
Add Field F_field : (@f_field F SF).
Notation world := (@world F).
Notation ham := (@ham F).
Notation M := (@M F).
Local Open Scope py_scope.
Local Open Scope fld_scope.

(** ** Computations that change parameter values only *)
Definition store_only {A} (m : M A) : Prop :=
  forall w, w_ham (fst (m w)) = w_ham w /\ List.length (w_store (fst (m w))) = List.length (w_store w).

Lemma so_ret {A} (a : A) : store_only (ret a). Proof. split; reflexivity. Qed.
Lemma so_raise {A} e : store_only (@raise F A e). Proof. split; reflexivity. Qed.
Lemma so_gets {A} (f : ham -> A) : store_only (gets f). Proof. split; reflexivity. Qed.
Lemma so_bind {A B} (m : M A) (k : A -> M B) : store_only m -> (forall a, store_only (k a)) -> store_only (bind m k).
Proof.
  intros Hm Hk w. destruct (Hm w) as [A1 A2]. unfold bind. destruct (m w) as [w1 [a|e]]; cbn in *; [|auto].
  destruct (Hk a w1) as [B1 B2]. split; congruence.
Qed.
Lemma so_read l : store_only (read l).
Proof. intros w. unfold read. destruct (nth_error _ _); split; reflexivity. Qed.
Lemma so_write l m : store_only (write l m).
Proof. intros w. split; [reflexivity|]. cbn. apply length_list_set. Qed.
Lemma so_for_each {A} (l : list A) (body : A -> M unit) : (forall x, store_only (body x)) -> store_only (for_each l body).
Proof. intros H. induction l; cbn [for_each]; [apply so_ret|]. apply so_bind; auto. Qed.
Lemma so_get_bond k : store_only (get_bond k).
Proof. unfold get_bond. apply so_bind; [apply so_gets|]. intros d. destruct (dget d k); [apply so_ret|apply so_raise]. Qed.
Lemma so_get_onsite k : store_only (get_onsite k).
Proof. unfold get_onsite. apply so_bind; [apply so_gets|]. intros d. destruct (dget d k); [apply so_ret|apply so_raise]. Qed.
Lemma so_spin a : store_only (spin a).
Proof. unfold spin. apply so_bind; [apply so_gets|]. intros d. destruct (dget d a); [apply so_ret|apply so_raise]. Qed.
Lemma so_scale l c : store_only (scale_loc l c).
Proof. unfold scale_loc. apply so_bind; [apply so_read|]. intros; apply so_write. Qed.
Lemma so_div l c : store_only (div_loc l c).
Proof. unfold div_loc. apply so_bind; [apply so_read|]. intros m. destruct (p_div m c); [apply so_write|apply so_raise]. Qed.
Lemma so_py_div a b : store_only (py_div a b).
Proof. unfold py_div. destruct (feq_dec b 0); [apply so_raise|apply so_ret]. Qed.
Ltac so := repeat (first [apply so_ret | apply so_raise | apply so_gets | apply so_get_bond | apply so_get_onsite | apply so_spin
   | apply so_scale | apply so_div | apply so_py_div | apply so_for_each; intro | apply so_bind; [|intro]]).

(** The scaling part of the three setters. *)
Lemma setter_split {A} (m : M A) (p : M unit) (f : ham -> ham) (w : world) : store_only m -> (forall w, p w = (mkW (w_store w) (f (w_ham w)), Ret tt)) ->
  exists st, List.length st = List.length (w_store w) /\
    (bind m (fun _ => p) w = (mkW st (f (w_ham w)), Ret tt) \/ exists e, bind m (fun _ => p) w = (mkW st (w_ham w), Raise e)).
Proof.
  intros Hm Hp. destruct (Hm w) as [A1 A2]. unfold bind. destruct (m w) as [w1 [a|e]]; cbn in *; destruct w1 as [st1 h1]; cbn in *; subst h1;
  exists st1; (split; [exact A2|]).
  - left. rewrite Hp. reflexivity.
  - right. exists e. reflexivity.
Qed.

Lemma set_sn_outcome (w : world) new : exists st, List.length st = List.length (w_store w) /\
  (set_spin_normalized new w = (mkW st (with_sn (w_ham w) new), Ret tt) \/ exists e, set_spin_normalized new w = (mkW st (w_ham w), Raise e)).
Proof.
  destruct w as [st h]. unfold set_spin_normalized. rewrite bind_gets; cbn [w_ham].
  apply (setter_split _ (put_sn new) (fun h => with_sn h new)); [|reflexivity].
  destruct (h_sn h) as [[]|]; destruct new; so.
Qed.
Lemma set_ef_outcome (w : world) new : exists st, List.length st = List.length (w_store w) /\
  (set_exchange_factor new w = (mkW st (with_ef (w_ham w) new), Ret tt) \/ exists e, set_exchange_factor new w = (mkW st (w_ham w), Raise e)).
Proof.
  destruct w as [st h]. unfold set_exchange_factor. rewrite bind_gets; cbn [w_ham].
  apply (setter_split _ (put_ef new) (fun h => with_ef h new)); [|reflexivity].
  destruct (h_ef h) as [o|]; [destruct (feq_dec o new)|]; so.
Qed.
Lemma set_of_outcome (w : world) new : exists st, List.length st = List.length (w_store w) /\
  (set_on_site_factor new w = (mkW st (with_of (w_ham w) new), Ret tt) \/ exists e, set_on_site_factor new w = (mkW st (w_ham w), Raise e)).
Proof.
  destruct w as [st h]. unfold set_on_site_factor. rewrite bind_gets; cbn [w_ham].
  apply (setter_split _ (put_of new) (fun h => with_of h new)); [|reflexivity].
  destruct (h_of h) as [o|]; [destruct (feq_dec o new)|]; so.
Qed.

Lemma set_sn_reject (w w' : world) new e : set_spin_normalized new w = (w', Raise e) -> w_ham w' = w_ham w.
Proof. destruct (set_sn_outcome w new) as (st & _ & [E|[e' E]]); rewrite E; intros [=]; subst; reflexivity. Qed.

(** ** Resolving atoms *)
Lemma get_atom_out s (w : world) : (exists a, get_atom s w = (w, Ret a) /\ In a (h_atoms (w_ham w)) /\ a_name a = s) \/ get_atom s w = (w, Raise ValueError).
Proof.
  unfold get_atom. rewrite bind_gets. destruct (filter _ _) as [|a [|b l]] eqn:E; [right; reflexivity| |right; reflexivity].
  left. exists a. splits; [reflexivity| |]; assert (I : In a (filter (fun a => if string_dec (a_name a) s then true else false) (h_atoms (w_ham w))))
    by (rewrite E; left; reflexivity); apply filter_In in I as [I1 I2]; [exact I1|].
  destruct (string_dec (a_name a) s); [assumption|discriminate].
Qed.
Definition with_atoms (h : ham) l := mkHam (h_exch h) (h_ons h) l (h_spins h) (h_dc h) (h_sn h) (h_ef h) (h_of h).

Lemma resolve_out r (w : world) : (exists a, resolve r w = (w, Ret a) /\ (r = AObj a \/ In a (h_atoms (w_ham w)))) \/ resolve r w = (w, Raise ValueError).
Proof.
  destruct r as [a|s]; cbn [resolve].
  - left. exists a. auto.
  - destruct (get_atom_out s w) as [(a & E & I & _)|E]; [left; eauto|right; exact E].
Qed.
Lemma resolve_add_out r (w : world) :
  (exists a, resolve_add r w = (w, Ret a) /\ In a (h_atoms (w_ham w))) \/
  (exists a, resolve_add r w = (mkW (w_store w) (with_atoms (w_ham w) (h_atoms (w_ham w) ++ [a])), Ret a)) \/
  resolve_add r w = (w, Raise ValueError).
Proof.
  destruct r as [a|s]; cbn [resolve_add].
  - rewrite bind_gets. unfold mem_atom. destruct (in_dec eq_dec a (h_atoms (w_ham w))) as [i|i].
    + left. exists a. split; [reflexivity|exact i].
    + right; left. exists a. reflexivity.
  - destruct (get_atom_out s w) as [(a & E & I & _)|E]; [left; eauto|right; right; exact E].
Qed.

(** Same Hamiltonian, possibly with more atoms. *)
Definition grown (w w' : world) : Prop :=
  w_store w' = w_store w /\ exists l, w_ham w' = with_atoms (w_ham w) (h_atoms (w_ham w) ++ l).
Lemma grown_refl w : grown w w.
Proof. split; [reflexivity|]. exists []. rewrite app_nil_r. destruct (w_ham w); reflexivity. Qed.
Lemma grown_trans w w' w'' : grown w w' -> grown w' w'' -> grown w w''.
Proof.
  intros [A (l & B)] [A' (l' & B')]. split; [congruence|]. exists (l ++ l'). rewrite B', B. cbn. rewrite app_assoc. reflexivity.
Qed.
Lemma resolve_add_grown r (w : world) : grown w (fst (resolve_add r w)) /\
  forall a, snd (resolve_add r w) = Ret a -> In a (h_atoms (w_ham (fst (resolve_add r w)))).
Proof.
  destruct (resolve_add_out r w) as [(a & E & I)|[(a & E)|E]]; rewrite E; cbn [fst snd].
  - split; [apply grown_refl|]. intros ? [= <-]; exact I.
  - split; [split; [reflexivity|]; exists [a]; reflexivity|]. intros ? [= <-]. cbn. apply in_or_app. right; left; reflexivity.
  - split; [apply grown_refl|]. discriminate.
Qed.
Lemma grown_atoms w w' : grown w w' -> forall a, In a (h_atoms (w_ham w)) -> In a (h_atoms (w_ham w')).
Proof. intros [_ (l & ->)] a I. cbn. apply in_or_app; left; exact I. Qed.
Lemma grown_exch w w' : grown w w' -> h_exch (w_ham w') = h_exch (w_ham w) /\ h_ons (w_ham w') = h_ons (w_ham w) /\ h_dc (w_ham w') = h_dc (w_ham w).
Proof. intros [_ (l & ->)]. auto. Qed.
Lemma grown_wf w w' : grown w w' -> wf w -> wf w'.
Proof.
  intros [A (l & B)] (W1 & W2 & W3 & W4 & W5 & W6). unfold wf, bonds, sites in *. rewrite A, B. cbn.
  splits; auto; intros; try split; apply in_or_app; left; [apply W5|apply W5|apply W6]; auto.
Qed.

(** ** Single calls in closed form *)
Lemma get_dc_some (w : world) b : h_dc (w_ham w) = Some b -> get_dc w = (w, Ret b).
Proof. intros E. unfold get_dc. rewrite bind_gets, E. reflexivity. Qed.
Lemma get_dc_none (w : world) : h_dc (w_ham w) = None -> get_dc w = (w, Raise NotationError).
Proof. intros E. unfold get_dc. rewrite bind_gets, E. reflexivity. Qed.

Definition insert_bond (st : list (M3 F)) (h : ham) (k : bkey) (l : loc) : world :=
  let d := dset (h_exch h) k l in
  match h_dc h, nth_error st l with
  | Some true, Some m => if dmem d (mirror k) then mkW st (with_exch h d)
                         else mkW (st ++ [mtrans m]) (with_exch h (dset d (mirror k) (List.length st)))
  | _, _ => mkW st (with_exch h d)
  end.
Lemma store_exchange_ok st (h : ham) k l : (l < List.length st)%nat ->
  store_exchange k l (mkW st h) = (insert_bond st h k l, Ret tt).
Proof.
  intros L. destruct (nth_error_lt st l L) as [m Em].
  unfold store_exchange, insert_bond. rewrite bind_gets; cbn [w_ham].
  rewrite (bind_val (set_exch _) _ (mkW st h) (mkW st (with_exch h (dset (h_exch h) k l))) tt) by reflexivity.
  unfold try_catch. set (w1 := mkW st (with_exch h (dset (h_exch h) k l))).
  destruct (h_dc h) as [b|] eqn:Ed.
  - rewrite (bind_val _ _ _ _ _ (get_dc_some w1 b Ed)), bind_gets. cbn [w_ham w1 with_exch h_exch].
    destruct b; cbn [andb]; [|reflexivity].
    destruct (dmem (dset (h_exch h) k l) (mirror k)); cbn [negb]; [rewrite Em; reflexivity|].
    rewrite (bind_val (read l) _ w1 w1 m) by (unfold read; cbn; rewrite Em; reflexivity).
    rewrite Em. unfold with_exch. cbn. rewrite Ed. reflexivity.
  - rewrite (bind_exn _ _ _ _ _ (get_dc_none w1 Ed)). reflexivity.
Qed.
Lemma insert_bond_keys st (h : ham) k l : (l < List.length st)%nat ->
  forall x, In x (bonds (insert_bond st h k l)) <-> In x (dkeys (h_exch h)) \/ x = k \/ (h_dc h = Some true /\ x = mirror k).
Proof.
  intros L x. destruct (nth_error_lt st l L) as [m Em]. unfold insert_bond. rewrite Em. unfold bonds.
  destruct (h_dc h) as [[]|]; [destruct (dmem _ (mirror k)) eqn:E| |]; cbn [w_ham with_exch h_exch]; rewrite ?In_dkeys_dset.
  - apply dmem_key in E. rewrite In_dkeys_dset in E. split; [tauto|]. intros [H|[H|[_ ->]]]; tauto.
  - split; [tauto|]. intros [H|[H|[_ H]]]; tauto.
  - split; [tauto|]. intros [H|[H|[H _]]]; [tauto|tauto|discriminate].
  - split; [tauto|]. intros [H|[H|[H _]]]; [tauto|tauto|discriminate].
Qed.

Definition delete_bond (h : ham) (k : bkey) : ham :=
  with_exch h (match h_dc h with Some true => ddel (ddel (h_exch h) k) (mirror k) | _ => ddel (h_exch h) k end).
Lemma remove_bond_out st (h : ham) k b : NoDup (dkeys (h_exch h)) ->
  (b = true /\ ~ In k (dkeys (h_exch h)) /\ remove_bond k b (mkW st h) = (mkW st h, Raise KeyError)) \/
  ((b = false \/ In k (dkeys (h_exch h))) /\ remove_bond k b (mkW st h) = (mkW st (delete_bond h k), Ret tt)).
Proof.
  intros N. unfold remove_bond, delete_bond. rewrite bind_gets; cbn [w_ham].
  destruct (dmem (h_exch h) k) eqn:E.
  - right. apply dmem_key in E. split; [right; exact E|].
    rewrite (bind_val (set_exch _) _ (mkW st h) (mkW st (with_exch h (ddel (h_exch h) k))) tt) by reflexivity.
    unfold try_catch. set (w1 := mkW st (with_exch h (ddel (h_exch h) k))).
    destruct (h_dc h) as [c|] eqn:Ed.
    + rewrite (bind_val _ _ _ _ _ (get_dc_some w1 c Ed)), bind_gets. cbn [w_ham w1 with_exch h_exch].
      destruct c; cbn [andb]; [|reflexivity].
      destruct (dmem (ddel (h_exch h) k) (mirror k)) eqn:Em; [unfold with_exch; cbn; rewrite Ed; reflexivity|].
      rewrite (ddel_absent (ddel (h_exch h) k)); [reflexivity|]. apply dmem_key_false, Em.
    + rewrite (bind_exn _ _ _ _ _ (get_dc_none w1 Ed)). reflexivity.
  - apply dmem_key_false in E. destruct b; [left|right].
    + splits; auto.
    + split; [left; reflexivity|]. rewrite (ddel_absent (h_exch h) k E). rewrite bind_ret. unfold try_catch.
      assert (Hw : with_exch h (h_exch h) = h) by (destruct h; reflexivity).
      destruct (h_dc h) as [c|] eqn:Ed.
      * rewrite (bind_val _ _ _ _ _ (get_dc_some (mkW st h) c Ed)), bind_gets. cbn [w_ham].
        destruct c; cbn [andb]; [|rewrite Hw; reflexivity].
        destruct (dmem (h_exch h) (mirror k)) eqn:Em; [reflexivity|].
        apply dmem_key_false in Em. rewrite (ddel_absent _ _ Em), Hw. reflexivity.
      * rewrite (bind_exn _ _ _ _ _ (get_dc_none (mkW st h) Ed)), Hw. reflexivity.
Qed.
Lemma delete_bond_keys (h : ham) k : NoDup (dkeys (h_exch h)) ->
  forall x, In x (dkeys (h_exch (delete_bond h k))) <-> In x (dkeys (h_exch h)) /\ x <> k /\ (h_dc h = Some true -> x <> mirror k).
Proof.
  intros N x. assert (N' := NoDup_ddel (h_exch h) k N). unfold delete_bond.
  destruct (h_dc h) as [[]|]; cbn [with_exch h_exch].
  - rewrite (dkeys_ddel _ _ N'), (dkeys_ddel _ _ N). intuition.
  - rewrite (dkeys_ddel _ _ N). intuition discriminate.
  - rewrite (dkeys_ddel _ _ N). intuition discriminate.
Qed.
Lemma delete_bond_incl (h : ham) k kv : In kv (h_exch (delete_bond h k)) -> In kv (h_exch h).
Proof. unfold delete_bond. destruct (h_dc h) as [[]|]; cbn; intros I; repeat apply ddel_incl in I; exact I. Qed.
Lemma delete_bond_nodup (h : ham) k : NoDup (dkeys (h_exch h)) -> NoDup (dkeys (h_exch (delete_bond h k))).
Proof. intros N. unfold delete_bond. destruct (h_dc h) as [[]|]; cbn; repeat apply NoDup_ddel; exact N. Qed.

(** ** The invariant *)
Definition Inv (w : world) : Prop := wf w /\ (h_dc (w_ham w) = Some true -> mirror_closed w).

Lemma Inv_grown w w' : grown w w' -> Inv w -> Inv w'.
Proof.
  intros G [W C]. split; [eapply grown_wf; eauto|]. destruct (grown_exch _ _ G) as (E1 & E2 & E3).
  unfold mirror_closed, bonds. rewrite E1, E3. exact C.
Qed.
Lemma Inv_store (w w' : world) : List.length (w_store w') = List.length (w_store w) ->
  h_exch (w_ham w') = h_exch (w_ham w) -> h_ons (w_ham w') = h_ons (w_ham w) -> h_atoms (w_ham w') = h_atoms (w_ham w) ->
  h_dc (w_ham w') = h_dc (w_ham w) -> Inv w -> Inv w'.
Proof.
  intros L E1 E2 E3 E4 [(A & B & C & D & E & G) Cl]. unfold Inv, wf, mirror_closed, bonds, sites in *.
  rewrite L, E1, E2, E3, E4. splits; auto.
Qed.
Lemma Inv_delete st (h : ham) k : Inv (mkW st h) -> Inv (mkW st (delete_bond h k)).
Proof.
  intros [(A & B & C & D & E & G) Cl]. assert (K := delete_bond_keys h k A).
  unfold Inv, wf, bonds, sites, mirror_closed in *; cbn [w_store w_ham] in *.
  splits; auto.
  - apply delete_bond_nodup, A.
  - intros k' l I. apply delete_bond_incl in I. eauto.
  - intros k' I. apply K in I as [I _]. apply E, I.
  - cbn. intros Hdc k' I. apply K in I as (I & N1 & N2). apply K. splits; auto.
    + intros X. apply mirror_eq in X. apply (N2 Hdc X).
    + intros _ X. apply mirror_inj in X. contradiction.
Qed.
Lemma Inv_insert st (h : ham) k l : (l < List.length st)%nat -> In (b_from k) (h_atoms h) -> In (b_to k) (h_atoms h) ->
  Inv (mkW st h) -> Inv (insert_bond st h k l).
Proof.
  intros L Ia Ib [(A & B & C & D & E & G) Cl]. assert (K := insert_bond_keys st h k l L).
  assert (Hh : exists d st', insert_bond st h k l = mkW st' (with_exch h d) /\ (List.length st <= List.length st')%nat /\ NoDup (dkeys d) /\
     (forall k' l', In (k', l') d -> (l' < List.length st')%nat)).
  { unfold insert_bond. destruct (nth_error_lt st l L) as [m Em]. rewrite Em.
    assert (S1 : NoDup (dkeys (dset (h_exch h) k l))) by (apply NoDup_dset, A).
    assert (S2 : forall k' l', In (k', l') (dset (h_exch h) k l) -> (l' < List.length st)%nat).
    { intros k' l' I. apply In_dget in I; [|exact S1]. rewrite dget_dset in I. destruct (eq_dec k' k); [injection I as <-; exact L|].
      apply dget_In in I. apply (C k' l' I). }
    destruct (h_dc h) as [[]|]; [destruct (dmem _ _)| |]; do 2 eexists; (split; [reflexivity|]); splits; auto.
    - rewrite app_length; lia.
    - apply NoDup_dset, S1.
    - intros k' l' I. rewrite app_length; cbn. apply In_dget in I; [|apply NoDup_dset, S1]. rewrite dget_dset in I.
      destruct (eq_dec k' (mirror k)); [injection I as <-; lia|]. apply dget_In, S2 in I. lia. }
  destruct Hh as (d & st' & Eq & Le & Nd & Hl). rewrite Eq in *. unfold Inv, wf, bonds, sites, mirror_closed in *; cbn [w_store w_ham with_exch h_exch h_ons h_atoms h_dc] in *.
  splits; auto.
  - intros a l' I. specialize (D a l' I). lia.
  - intros k' I. apply K in I as [I|[->|[_ ->]]]; auto.
  - intros Hdc k' I. rewrite K. apply K in I. destruct I as [I|[->|[_ ->]]]; auto. rewrite mirror_invol. auto.
Qed.
Lemma Inv_alloc (w : world) m : Inv w -> Inv (mkW (w_store w ++ [m]) (w_ham w)).
Proof.
  intros [(A & B & C & D & E & G) Cl]. split; [|exact Cl]. unfold wf in *; cbn. rewrite app_length; cbn.
  splits; auto; intros; [specialize (C _ _ H)|specialize (D _ _ H)]; lia.
Qed.
Lemma Inv_ons st (h : ham) a l : (l < List.length st)%nat -> In a (h_atoms h) -> Inv (mkW st h) -> Inv (mkW st (with_ons h (dset (h_ons h) a l))).
Proof.
  intros L I [(A & B & C & D & E & G) Cl]. unfold Inv, wf, bonds, sites, mirror_closed in *; cbn -[dset] in *. splits; auto.
  - apply NoDup_dset, B.
  - intros a' l' I'. apply In_dget in I'; [|apply NoDup_dset, B]. rewrite dget_dset in I'. destruct (eq_dec a' a); [injection I' as <-; exact L|].
    apply dget_In in I'. eauto.
  - intros a' I'. apply In_dkeys_dset in I' as [->|I']; auto.
Qed.
Lemma Inv_delons st (h : ham) a : Inv (mkW st h) -> Inv (mkW st (with_ons h (ddel (h_ons h) a))).
Proof.
  intros [(A & B & C & D & E & G) Cl]. unfold Inv, wf, bonds, sites, mirror_closed in *; cbn in *. splits; auto.
  - apply NoDup_ddel, B.
  - intros a' l' I'. apply ddel_incl in I'. eauto.
  - intros a' I'. apply dkeys_ddel in I' as [_ I']; auto.
Qed.

(** Inv through the two resolutions of add_exchange. *)
Lemma resolve2 (w : world) r1 r2 (k : atom -> atom -> M unit) (P : world -> Prop) :
  (forall w', grown w w' -> P w') ->
  (forall w' a1 a2, grown w w' -> In a1 (h_atoms (w_ham w')) -> In a2 (h_atoms (w_ham w')) -> P (fst (k a1 a2 w'))) ->
  P (fst ((a1 <- resolve_add r1 ;; a2 <- resolve_add r2 ;; k a1 a2) w)).
Proof.
  intros Hg Hk. destruct (resolve_add_grown r1 w) as [G1 I1]. unfold bind at 1. destruct (resolve_add r1 w) as [w1 [a1|e]]; cbn [fst snd] in *; [|auto].
  destruct (resolve_add_grown r2 w1) as [G2 I2]. unfold bind. destruct (resolve_add r2 w1) as [w2 [a2|e]]; cbn [fst snd] in *.
  - apply Hk; [eapply grown_trans; eauto|eapply grown_atoms; eauto|auto].
  - apply Hg. eapply grown_trans; eauto.
Qed.

Lemma Inv_add_exchange r1 r2 ijk l (w : world) : (l < List.length (w_store w))%nat -> Inv w -> Inv (fst (add_exchange r1 r2 ijk l w)).
Proof.
  intros L I. apply (resolve2 w r1 r2 (fun a1 a2 => store_exchange (mkB a1 a2 ijk) l) Inv); [intros; eapply Inv_grown; eauto|]. intros [st h] a1 a2 G I1 I2.
  assert (L' : (l < List.length st)%nat) by (destruct G as [G _]; cbn in G; rewrite G; exact L).
  rewrite store_exchange_ok by exact L'. cbn [fst]. apply Inv_insert; auto. eapply Inv_grown; eauto.
Qed.
Lemma Inv_add_exchange_new r1 r2 ijk m (w : world) : Inv w -> Inv (fst (add_exchange_new r1 r2 ijk m w)).
Proof.
  intros I. apply (resolve2 w r1 r2 (fun a1 a2 => l <- construct m ;; store_exchange (mkB a1 a2 ijk) l) Inv); [intros; eapply Inv_grown; eauto|]. intros [st h] a1 a2 G I1 I2.
  apply (Inv_grown _ _ G) in I. destruct m as [m|]; cbn [construct]; [|exact I].
  rewrite (bind_val (alloc m) _ _ (mkW (st ++ [m]) h) (List.length st)) by reflexivity.
  assert (L : (List.length st < List.length (st ++ [m]))%nat) by (rewrite app_length; cbn; lia).
  rewrite store_exchange_ok by exact L. apply Inv_insert; auto. apply (Inv_alloc (mkW st h) m I).
Qed.
Lemma Inv_remove_bond k b (w : world) : Inv w -> Inv (fst (remove_bond k b w)).
Proof.
  intros I. destruct w as [st h]. destruct (remove_bond_out st h k b) as [(_ & _ & E)|[_ E]]; [apply I|rewrite E; exact I|].
  rewrite E. apply Inv_delete, I.
Qed.
Lemma Inv_remove_exchange r1 r2 ijk b (w : world) : Inv w -> Inv (fst (remove_exchange r1 r2 ijk b w)).
Proof.
  intros I. unfold remove_exchange. destruct (resolve_out r1 w) as [(a1 & E1 & _)|E1].
  - rewrite (bind_val _ _ _ _ _ E1). destruct (resolve_out r2 w) as [(a2 & E2 & _)|E2].
    + rewrite (bind_val _ _ _ _ _ E2). apply Inv_remove_bond, I.
    + rewrite (bind_exn _ _ _ _ _ E2). exact I.
  - rewrite (bind_exn _ _ _ _ _ E1). exact I.
Qed.
Lemma resolve1 (w : world) r (k : atom -> M unit) (P : world -> Prop) :
  (forall w', grown w w' -> P w') ->
  (forall w' a, grown w w' -> In a (h_atoms (w_ham w')) -> P (fst (k a w'))) ->
  P (fst ((a <- resolve_add r ;; k a) w)).
Proof.
  intros Hg Hk. destruct (resolve_add_grown r w) as [G1 I1]. unfold bind. destruct (resolve_add r w) as [w1 [a1|e]]; cbn [fst snd] in *; auto.
Qed.
Lemma Inv_add_on_site r l (w : world) : (l < List.length (w_store w))%nat -> Inv w -> Inv (fst (add_on_site r l w)).
Proof.
  intros L I. apply (resolve1 w r (fun a => d <- gets (@h_ons F) ;; set_ons (dset d a l)) Inv); [intros; eapply Inv_grown; eauto|]. intros [st h] a G Ia. rewrite bind_gets.
  apply Inv_ons; auto; [destruct G as [G _]; cbn in G; rewrite G; exact L|eapply Inv_grown; eauto].
Qed.
Lemma Inv_add_on_site_new r m (w : world) : Inv w -> Inv (fst (add_on_site_new r m w)).
Proof.
  intros I. apply (resolve1 w r (fun a => l <- construct m ;; d <- gets (@h_ons F) ;; set_ons (dset d a l)) Inv); [intros; eapply Inv_grown; eauto|]. intros [st h] a G Ia. apply (Inv_grown _ _ G) in I.
  destruct m as [m|]; cbn [construct]; [|exact I].
  rewrite (bind_val (alloc m) _ _ (mkW (st ++ [m]) h) (List.length st)) by reflexivity. rewrite bind_gets.
  apply (Inv_ons (st ++ [m]) h a (List.length st)); auto; [rewrite app_length; cbn; lia|]. apply (Inv_alloc (mkW st h) m I).
Qed.
Lemma remove_on_site_out r b (w : world) :
  (exists a, r = AObj a /\ In a (sites w) /\ remove_on_site r b w = (mkW (w_store w) (with_ons (w_ham w) (ddel (h_ons (w_ham w)) a)), Ret tt)) \/
  fst (remove_on_site r b w) = w.
Proof.
  destruct r as [a|s]; cbn [remove_on_site].
  - rewrite bind_gets. destruct (dmem (h_ons (w_ham w)) a) eqn:E.
    + left. exists a. splits; auto. apply dmem_key, E.
    + right. destruct b; reflexivity.
  - right. destruct (get_atom_out s w) as [(a & E & _)|E]; [rewrite (bind_val _ _ _ _ _ E)|rewrite (bind_exn _ _ _ _ _ E); reflexivity].
    destruct b; reflexivity.
Qed.
Lemma Inv_remove_on_site r b (w : world) : Inv w -> Inv (fst (remove_on_site r b w)).
Proof.
  intros I. destruct (remove_on_site_out r b w) as [(a & _ & _ & E)|E]; [|rewrite E; exact I].
  rewrite E. destruct w as [st h]. apply Inv_delons, I.
Qed.
Lemma Inv_delitem i (w : world) : Inv w -> Inv (fst (delitem i w)).
Proof. destruct i; cbn [delitem]; [apply Inv_remove_bond|apply Inv_remove_on_site]. Qed.
Lemma for_each_inv {A} (P : world -> Prop) (l : list A) (body : A -> M unit) :
  (forall x w, P w -> P (fst (body x w))) -> forall w, P w -> P (fst (for_each l body w)).
Proof.
  intros Hb. induction l as [|x l IH]; intros w Pw; cbn [for_each]; [exact Pw|].
  unfold bind. specialize (Hb x w Pw). destruct (body x w) as [w1 [a|e]]; cbn in *; auto.
Qed.
Lemma try_catch_fst {A} (m : M A) is (a : A) (w : world) : fst (try_catch m is (ret a) w) = fst (m w).
Proof. unfold try_catch. destruct (m w) as [w1 [x|e]]; [reflexivity|]. destruct (is e); reflexivity. Qed.

Lemma collect_filter_bonds_state dist maxd mind custom items (w : world) : fst (collect_filter_bonds dist maxd mind custom items w) = w.
Proof.
  induction items as [|[k l] t IH]; cbn [collect_filter_bonds]; [reflexivity|]. unfold bind, read.
  destruct (nth_error (w_store w) l); [|reflexivity]. destruct (collect_filter_bonds dist maxd mind custom t w) as [w1 [r|e]]; exact IH.
Qed.
Lemma collect_filter_onsite_state mind custom items (w : world) : fst (@collect_filter_onsite F SF mind custom items w) = w.
Proof.
  induction items as [|[k l] t IH]; cbn [collect_filter_onsite]; [reflexivity|]. unfold bind, read.
  destruct (nth_error (w_store w) l); [|reflexivity]. destruct (collect_filter_onsite mind custom t w) as [w1 [r|e]]; exact IH.
Qed.
Lemma Inv_filter dist order maxd mind custom (w : world) : Inv w -> Inv (fst (h_filter dist order maxd mind custom w)).
Proof.
  intros I. unfold h_filter. rewrite bind_gets.
  assert (E1 := collect_filter_bonds_state dist maxd mind custom (h_exch (w_ham w)) w). unfold bind at 1.
  destruct (collect_filter_bonds _ _ _ _ _ w) as [w1 [r1|e]]; cbn [fst] in E1; subst w1; [|exact I].
  rewrite bind_gets. assert (E2 := collect_filter_onsite_state mind custom (h_ons (w_ham w)) w). unfold bind at 1.
  destruct (collect_filter_onsite _ _ _ w) as [w1 [r2|e]]; cbn [fst] in E2; subst w1; [|exact I].
  apply for_each_inv; [|exact I]. intros x w0 I0. rewrite try_catch_fst. apply Inv_delitem, I0.
Qed.

(** *** remove_atom *)
Definition absent (w : world) (i : item) : Prop := match i with IBond k => ~ In k (bonds w) | IAtom a => ~ In a (sites w) end.
Lemma delitem_shrinks i (w : world) : Inv w -> forall j, absent w j -> absent (fst (delitem i w)) j.
Proof.
  intros I j. destruct w as [st h]. destruct i as [k|a]; cbn [delitem].
  - destruct (remove_bond_out st h k true) as [(_ & _ & E)|[_ E]]; [apply I|rewrite E; auto|]. rewrite E.
    destruct j as [k'|a']; cbn; auto. intros N X. apply N. unfold bonds in *; cbn in *. apply delete_bond_keys in X as [X _]; [exact X|apply I].
  - destruct (remove_on_site_out (AObj a) true (mkW st h)) as [(a' & _ & _ & E)|E]; rewrite E; auto.
    destruct j as [k'|a'']; cbn; auto. intros N X. apply N. unfold sites in *; cbn in *. apply dkeys_ddel in X as [_ X]; [exact X|apply I].
Qed.
Lemma delitem_removes i (w w' : world) : Inv w -> delitem i w = (w', Ret tt) -> absent w' i.
Proof.
  intros I. destruct w as [st h]. destruct i as [k|a]; cbn [delitem].
  - destruct (remove_bond_out st h k true) as [(_ & _ & E)|[_ E]]; [apply I|rewrite E; discriminate|]. rewrite E. intros [= <-].
    cbn. intros X. apply delete_bond_keys in X as (_ & X & _); [congruence|apply I].
  - cbn [remove_on_site]. rewrite bind_gets. destruct (dmem _ a); [|discriminate]. intros [= <-]. cbn. intros X. apply dkeys_ddel in X as [X _]; [congruence|apply I].
Qed.
Lemma delete_all_absent items : forall w w' : world, Inv w -> for_each items delitem w = (w', Ret tt) ->
  Inv w' /\ (forall i, absent w i -> absent w' i) /\ (forall i, In i items -> absent w' i).
Proof.
  induction items as [|i items IH]; intros w w' I H; cbn [for_each] in H.
  - injection H as <-. splits; auto. intros i [].
  - apply bind_inv in H as (w1 & [] & E1 & E2).
    assert (I1 : Inv w1) by (replace w1 with (fst (delitem i w)) by (rewrite E1; reflexivity); apply Inv_delitem, I).
    destruct (IH w1 w' I1 E2) as (I' & Hs & Hr). splits; auto.
    + intros j Aj. apply Hs. replace w1 with (fst (delitem i w)) by (rewrite E1; reflexivity). apply delitem_shrinks; auto.
    + intros j [<-|J]; [|auto]. apply Hs. exact (delitem_removes i w w1 I E1).
Qed.
Lemma In_remove_first a x l : x <> a -> In x l -> In x (remove_first a l).
Proof.
  intros N. induction l as [|y l IH]; cbn; [auto|]. intros [->|I].
  - destruct (eq_dec a x); [congruence|left; reflexivity].
  - destruct (eq_dec a y); [exact I|right; auto].
Qed.
Lemma touches_iff a k : touches a k = true <-> b_from k = a \/ b_to k = a.
Proof. unfold touches. destruct (eq_dec (b_from k) a), (eq_dec (b_to k) a); cbn; intuition congruence. Qed.

Definition removal_list (w : world) a : list item :=
  map IBond (filter (touches a) (bonds w)) ++ (if dmem (h_ons (w_ham w)) a then [IAtom a] else []).

Lemma delitem_bonds_subset items : forall w w' : world, Inv w -> for_each items delitem w = (w', Ret tt) ->
  (forall k, In k (bonds w') -> In k (bonds w)) /\ (forall a, In a (sites w') -> In a (sites w)).
Proof.
  intros w w' I H. destruct (delete_all_absent items w w' I H) as (_ & Hs & _). split.
  - intros k Ik. destruct (in_dec eq_dec k (bonds w)) as [i|n]; [exact i|]. exfalso. exact (Hs (IBond k) n Ik).
  - intros a Ia. destruct (in_dec eq_dec a (sites w)) as [i|n]; [exact i|]. exfalso. exact (Hs (IAtom a) n Ia).
Qed.

Lemma removal_clears (w w' : world) a : Inv w -> for_each (removal_list w a) delitem w = (w', Ret tt) ->
  Inv w' /\ (forall k, In k (bonds w') -> b_from k <> a /\ b_to k <> a) /\ ~ In a (sites w').
Proof.
  intros I H. destruct (delete_all_absent _ _ _ I H) as (I' & Hs & Hr). destruct (delitem_bonds_subset _ _ _ I H) as [Sb Ss].
  splits; [exact I'| |].
  - intros k Ik. assert (T : touches a k <> true).
    { intros T. apply (Hr (IBond k)); [|exact Ik]. apply in_or_app; left. apply in_map, filter_In. auto. }
    rewrite touches_iff in T. tauto.
  - intros Ia. assert (Ia' := Ss a Ia). apply (Hr (IAtom a)); [|exact Ia]. apply in_or_app; right.
    rewrite (proj2 (dmem_key _ _) Ia'). left; reflexivity.
Qed.

Lemma Inv_remove_atom r (w : world) : Inv w -> Inv (fst (remove_atom r w)).
Proof.
  intros I. unfold remove_atom. destruct (resolve_out r w) as [(a & E & _)|E]; [|rewrite (bind_exn _ _ _ _ _ E); exact I].
  rewrite (bind_val _ _ _ _ _ E), !bind_gets. fold (bonds w). fold (removal_list w a).
  assert (Inv (fst (for_each (removal_list w a) delitem w))) as I1 by (apply for_each_inv; [apply Inv_delitem|exact I]).
  unfold bind at 1. destruct (for_each (removal_list w a) delitem w) as [w1 [[]|e]] eqn:El; cbn [fst] in I1; [|exact I1].
  destruct (removal_clears w w1 a I El) as (_ & Hb & Hs). unfold crystal_remove_atom. rewrite bind_gets.
  destruct (mem_atom a (h_atoms (w_ham w1))); [|exact I1].
  destruct w1 as [st1 h1]. destruct I1 as [(A & B & C & D & E1 & G) Cl]. unfold Inv, wf, bonds, sites, mirror_closed in *; cbn in *.
  splits; auto.
  - intros k Ik. destruct (Hb k Ik). destruct (E1 k Ik). split; apply In_remove_first; auto.
  - intros a' Ia. apply In_remove_first; [intros ->; contradiction|auto].
Qed.

(** *** Setters *)
Lemma Inv_dc_flag (w : world) b : wf w -> wf (mkW (w_store w) (with_dc (w_ham w) b)).
Proof. intros W. exact W. Qed.
Lemma dc_bonds (w : world) new : bonds (dc_scaled w new) = bonds w. Proof. reflexivity. Qed.

Lemma mirrored_keys (w w' : world) : wf w -> wf w' -> (forall k, bond_value w' k = mirrored_value w k) ->
  forall k, In k (bonds w') <-> In k (bonds w) \/ In (mirror k) (bonds w).
Proof.
  intros W W' V. apply (mirrored_bonds w w' 1 W W'). intros k. rewrite V. symmetry. apply option_map_mscale_1.
Qed.

Lemma Inv_set_dc b (w : world) : Inv w -> Inv (fst (set_double_counting b w)).
Proof.
  intros [W Cl]. rewrite (set_dc_split w b W). assert (W0 := dc_scaled_wf w b W). destruct b.
  - destruct (ensure_dc_ok _ W0 eq_refl) as (w' & E & W' & _ & R & D & V). rewrite E. split; [exact W'|].
    intros _ k I. apply (mirrored_keys _ _ W0 W' V) in I. apply (mirrored_keys _ _ W0 W' V). rewrite mirror_invol. tauto.
  - destruct (all_or_witness (dc_scaled w false)) as [H|(k & I & C & N)].
    + destruct (ensure_no_dc_ok _ W0 eq_refl H) as (w' & E & W' & _ & R & D & V). rewrite E. split; [exact W'|]. cbn [fst]. congruence.
    + rewrite (ensure_no_dc_fail _ k I C N). split; [exact W0|]. discriminate.
Qed.
Lemma Inv_set_sn b (w : world) : Inv w -> Inv (fst (set_spin_normalized b w)).
Proof.
  intros I. destruct (set_sn_outcome w b) as (st & L & [E|[e E]]); rewrite E; eapply (Inv_store w); eauto.
Qed.
Lemma Inv_set_ef b (w : world) : Inv w -> Inv (fst (set_exchange_factor b w)).
Proof.
  intros I. destruct (set_ef_outcome w b) as (st & L & [E|[e E]]); rewrite E; eapply (Inv_store w); eauto.
Qed.
Lemma Inv_set_of b (w : world) : Inv w -> Inv (fst (set_on_site_factor b w)).
Proof.
  intros I. destruct (set_of_outcome w b) as (st & L & [E|[e E]]); rewrite E; eapply (Inv_store w); eauto.
Qed.
Lemma bind_inv_state {A B} (P : world -> Prop) (m : M A) (k : A -> M B) (w : world) :
  P (fst (m w)) -> (forall a w1, P w1 -> P (fst (k a w1))) -> P (fst (bind m k w)).
Proof. intros H1 H2. unfold bind. destruct (m w) as [w1 [a|e]]; cbn [fst] in *; auto. Qed.
Lemma Inv_set_notation n (w : world) : Inv w -> Inv (fst (set_notation n w)).
Proof.
  intros I. unfold set_notation. destruct (parse_notation n) as [[[[dc sn] fe] fo]|]; [|exact I].
  apply bind_inv_state; [apply Inv_set_dc, I|]. intros _ w1 I1.
  apply bind_inv_state; [apply Inv_set_sn, I1|]. intros _ w2 I2.
  apply bind_inv_state; [apply Inv_set_ef, I2|]. intros _ w3 I3. apply Inv_set_of, I3.
Qed.

Lemma Inv_exec o (w : world) : Inv w -> Inv (fst (exec o w)).
Proof.
  intros I. destruct o; cbn [exec].
  - apply (Inv_alloc w m I).
  - eapply (Inv_store w); eauto. cbn. apply length_list_set.
  - unfold valid_loc. destruct (Nat.ltb_spec l (List.length (w_store w))); [apply Inv_add_exchange; auto|exact I].
  - apply Inv_add_exchange_new, I.
  - apply Inv_remove_exchange, I.
  - unfold valid_loc. destruct (Nat.ltb_spec l (List.length (w_store w))); [apply Inv_add_on_site; auto|exact I].
  - apply Inv_add_on_site_new, I.
  - apply Inv_remove_on_site, I.
  - apply Inv_delitem, I.
  - apply Inv_filter, I.
  - eapply (Inv_grown w); [|exact I]. split; [reflexivity|]. exists [a]. reflexivity.
  - apply Inv_remove_atom, I.
  - apply Inv_set_dc, I.
  - apply Inv_set_sn, I.
  - apply Inv_set_ef, I.
  - apply Inv_set_of, I.
  - apply Inv_set_notation, I.
Qed.
Lemma Inv_run ops : forall w : world, Inv w -> Inv (run ops w).
Proof. induction ops; intros w I; cbn [run]; [exact I|]. apply IHops, Inv_exec, I. Qed.
Lemma Inv_fresh st atoms (spins : dict atom F) : Inv (fresh st atoms spins).
Proof.
  unfold Inv, wf, mirror_closed, bonds, sites; cbn. splits; try constructor; intros; try contradiction; discriminate.
Qed.
Lemma reachable_Inv (w : world) : reachable w -> Inv w.
Proof. intros (st & atoms & spins & ops & ->). apply Inv_run, Inv_fresh. Qed.

Lemma history_closed st atoms (spins : dict atom F) ops : h_dc (w_ham (run ops (fresh st atoms spins))) = Some true ->
  forall k, In k (bonds (run ops (fresh st atoms spins))) <-> In (mirror k) (bonds (run ops (fresh st atoms spins))).
Proof.
  intros D k. destruct (Inv_run ops _ (Inv_fresh st atoms spins)) as [_ Cl]. specialize (Cl D).
  split; intros I; [apply Cl, I|]. rewrite <- (mirror_invol k). apply Cl, I.
Qed.

End HistoryProofs.
