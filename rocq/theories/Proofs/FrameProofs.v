(** Proofs for C18: copies share no parameter object, and calls on one Hamiltonian write only objects of its own. *)
From Coq Require Import List Bool ZArith String Lia Permutation.
From Coq Require Import Ring Field Field_theory Ring_theory.
From Verif.Base Require Import Scalar Linear3 PyDict.
From Verif.Model Require Import MatrixParam Hamiltonian History.
From Verif.Spec Require Import HamSpec HistorySpec NotationSpec.
From Verif.Proofs Require Import DictProofs HamBasics HamSetters HamDouble HamDcEnergy NotationProofs HistoryProofs CallProofs FilterProofs.
Import ListNotations.
Local Open Scope fld_scope.
Local Open Scope py_scope.

Section FrameProofs.
Context {F : Type} {SF : Scalar F}.
Notation ham := (@ham F).
Notation world := (@world F).
Notation M := (@M F).

Section Frame.
(** Protected objects. *)
Variable P : list loc.

Definition apart (w : world) : Prop := forall l, In l P -> (l < List.length (w_store w))%nat /\ ~ In l (in_use w).
Definition same_at (w w' : world) : Prop := forall l, In l P -> nth_error (w_store w') l = nth_error (w_store w) l.

(** [m] keeps the protected objects and its result satisfies [Q]. *)
Definition frames {A} (m : M A) (Q : A -> Prop) : Prop :=
  forall w, apart w -> apart (fst (m w)) /\ same_at w (fst (m w)) /\ forall a, snd (m w) = Ret a -> Q a.

Lemma same_at_refl w : same_at w w. Proof. intros l _. reflexivity. Qed.
Lemma fr_weaken {A} (m : M A) (Q Q' : A -> Prop) : frames m Q -> (forall a, Q a -> Q' a) -> frames m Q'.
Proof. intros H I w S. destruct (H w S) as (A1 & A2 & A3). splits; auto. Qed.
Lemma fr_ret {A} (a : A) (Q : A -> Prop) : Q a -> frames (ret a) Q.
Proof. intros q w S. cbn. splits; auto using same_at_refl. intros ? [= <-]. exact q. Qed.
Lemma fr_raise {A} e (Q : A -> Prop) : frames (@raise F A e) Q.
Proof. intros w S. cbn. splits; auto using same_at_refl. discriminate. Qed.
Lemma fr_bind {A B} (m : M A) (k : A -> M B) Q Q' : frames m Q -> (forall a, Q a -> frames (k a) Q') -> frames (bind m k) Q'.
Proof.
  intros Hm Hk w S. destruct (Hm w S) as (A1 & A2 & A3). unfold bind. destruct (m w) as [w1 [a|e]]; cbn [fst snd] in *.
  - destruct (Hk a (A3 a eq_refl) w1 A1) as (B1 & B2 & B3). splits; auto. intros l I. rewrite (B2 l I). apply A2, I.
  - splits; auto. discriminate.
Qed.
Lemma fr_try {A} (m : M A) is (h : M A) Q : frames m Q -> frames h Q -> frames (try_catch m is h) Q.
Proof.
  intros Hm Hh w S. destruct (Hm w S) as (A1 & A2 & A3). unfold try_catch. destruct (m w) as [w1 [a|e]]; cbn [fst snd] in *; [splits; auto|].
  destruct (is e); [|cbn [fst snd]; splits; auto]. destruct (Hh w1 A1) as (B1 & B2 & B3). splits; auto. intros l I. rewrite (B2 l I). apply A2, I.
Qed.
Definition clear_of (ls : list loc) : Prop := forall l, In l ls -> ~ In l P.
Lemma fr_gets {A} (f : ham -> A) : frames (gets f) (fun _ => True).
Proof. intros w S. cbn. splits; auto using same_at_refl. Qed.
Lemma fr_gets_exch : frames (gets (@h_exch F)) (fun d => clear_of (map snd d)).
Proof. intros w S. cbn. splits; auto using same_at_refl. intros d [= <-] l J I. apply (S l I). apply in_or_app; left; exact J. Qed.
Lemma fr_gets_ons : frames (gets (@h_ons F)) (fun d => clear_of (map snd d)).
Proof. intros w S. cbn. splits; auto using same_at_refl. intros d [= <-] l J I. apply (S l I). apply in_or_app; right; exact J. Qed.
Lemma fr_modify (f : ham -> ham) : (forall h, h_exch (f h) = h_exch h /\ h_ons (f h) = h_ons h) -> frames (modify f) (fun _ => True).
Proof.
  intros H w S. unfold modify. cbn [fst snd]. splits; [|intros l _; reflexivity|auto]. intros l I. unfold in_use; cbn. destruct (H (w_ham w)) as [-> ->]. exact (S l I).
Qed.
Lemma fr_set_exch d : clear_of (map snd d) -> frames (set_exch d) (fun _ => True).
Proof.
  intros C w S. unfold set_exch, modify. cbn [fst snd]. splits; [|intros l _; reflexivity|auto]. intros l I. split; [apply S, I|]. unfold in_use; cbn.
  intros J. apply in_app_or in J as [J|J]; [exact (C l J I)|]. apply (S l I). apply in_or_app; right; exact J.
Qed.
Lemma fr_set_ons d : clear_of (map snd d) -> frames (set_ons d) (fun _ => True).
Proof.
  intros C w S. unfold set_ons, modify. cbn [fst snd]. splits; [|intros l _; reflexivity|auto]. intros l I. split; [apply S, I|]. unfold in_use; cbn.
  intros J. apply in_app_or in J as [J|J]; [|exact (C l J I)]. apply (S l I). apply in_or_app; left; exact J.
Qed.
Lemma fr_alloc m : frames (alloc m) (fun l => ~ In l P).
Proof.
  intros w S. unfold alloc. cbn [fst snd]. splits.
  - intros l I. cbn. rewrite app_length; cbn. destruct (S l I) as [A B]. split; [lia|exact B].
  - intros l I. cbn. apply nth_error_app1, S, I.
  - intros l [= <-] I. destruct (S _ I) as [A _]. lia.
Qed.
Lemma fr_read l : frames (read l) (fun _ => True).
Proof. intros w S. unfold read. destruct (nth_error _ _); cbn; splits; auto using same_at_refl. Qed.
Lemma fr_write l m : ~ In l P -> frames (write l m) (fun _ => True).
Proof.
  intros N w S. unfold write. cbn [fst snd]. splits; auto.
  - intros l' I. cbn. rewrite length_list_set. exact (S l' I).
  - intros l' I. cbn. rewrite nth_list_set. destruct (Nat.eqb_spec l' l) as [->|]; [contradiction|reflexivity].
Qed.
Lemma fr_for_each {A} (l : list A) (body : A -> M unit) : (forall x, In x l -> frames (body x) (fun _ => True)) -> frames (for_each l body) (fun _ => True).
Proof.
  intros H. induction l as [|x t IH]; cbn [for_each]; [apply fr_ret; exact I|].
  eapply fr_bind; [apply H; left; reflexivity|]. intros _ _. apply IH. intros; apply H; right; assumption.
Qed.
Lemma clear_dget {K} `{EqDec K} (d : dict K loc) k l : clear_of (map snd d) -> dget d k = Some l -> ~ In l P.
Proof. intros C E. apply C. apply in_map_iff. exists (k, l). split; [reflexivity|apply dget_In, E]. Qed.
Lemma fr_get_bond k : frames (get_bond k) (fun l => ~ In l P).
Proof.
  unfold get_bond. eapply fr_bind; [apply fr_gets_exch|]. intros d C. destruct (dget d k) as [l|] eqn:E; [apply fr_ret; exact (clear_dget d k l C E)|apply fr_raise].
Qed.
Lemma fr_get_onsite k : frames (get_onsite k) (fun l => ~ In l P).
Proof.
  unfold get_onsite. eapply fr_bind; [apply fr_gets_ons|]. intros d C. destruct (dget d k) as [l|] eqn:E; [apply fr_ret; exact (clear_dget d k l C E)|apply fr_raise].
Qed.
Lemma fr_spin a : frames (spin a) (fun _ => True).
Proof. unfold spin. eapply fr_bind; [apply fr_gets|]. intros d _. destruct (dget d a); [apply fr_ret; exact I|apply fr_raise]. Qed.
Lemma fr_py_div a b : frames (py_div a b) (fun _ => True).
Proof. unfold py_div. destruct (feq_dec b 0); [apply fr_raise|apply fr_ret; exact I]. Qed.
Lemma fr_scale l c : ~ In l P -> frames (scale_loc l c) (fun _ => True).
Proof. intros N. unfold scale_loc. eapply fr_bind; [apply fr_read|]. intros; apply fr_write, N. Qed.
Lemma fr_div l c : ~ In l P -> frames (div_loc l c) (fun _ => True).
Proof. intros N. unfold div_loc. eapply fr_bind; [apply fr_read|]. intros m _. destruct (p_div m c); [apply fr_write, N|apply fr_raise]. Qed.
Lemma fr_get_atom s : frames (get_atom s) (fun _ => True).
Proof. unfold get_atom. eapply fr_bind; [apply fr_gets|]. intros l _. destruct (filter _ l) as [|a [|b t]]; [apply fr_raise|apply fr_ret; exact I|apply fr_raise]. Qed.
Lemma fr_set_atoms l : frames (set_atoms l) (fun _ => True).
Proof. apply fr_modify. intros; split; reflexivity. Qed.
Lemma fr_add_atom a : frames (add_atom a) (fun _ => True).
Proof. unfold add_atom. eapply fr_bind; [apply fr_gets|]. intros; apply fr_set_atoms. Qed.
Lemma fr_resolve_add r : frames (resolve_add r) (fun _ => True).
Proof.
  destruct r as [a|s]; cbn [resolve_add]; [|apply fr_get_atom]. eapply fr_bind; [apply fr_gets|]. intros l _.
  eapply fr_bind with (Q := fun _ => True); [destruct (mem_atom a l); [apply fr_ret; exact I|apply fr_add_atom]|]. intros; apply fr_ret; exact I.
Qed.
Lemma fr_resolve r : frames (resolve r) (fun _ => True).
Proof. destruct r; cbn [resolve]; [apply fr_ret; exact I|apply fr_get_atom]. Qed.
Lemma fr_get_dc : frames (@get_dc F) (fun _ => True).
Proof. unfold get_dc. eapply fr_bind; [apply fr_gets|]. intros x _. destruct x; [apply fr_ret; exact I|apply fr_raise]. Qed.
Lemma clear_dset {K} `{EqDec K} (d : dict K loc) k l : clear_of (map snd d) -> ~ In l P -> clear_of (map snd (dset d k l)).
Proof.
  intros C N x J. assert (X : x = l \/ In x (map snd d)).
  { revert J. clear. induction d as [|[k0 l0] d IH]; cbn; [intuition|]. destruct (eq_dec k k0); cbn; intuition. }
  destruct X as [->|X]; [exact N|exact (C x X)].
Qed.
Lemma clear_ddel {K} `{EqDec K} (d : dict K loc) k : clear_of (map snd d) -> clear_of (map snd (ddel d k)).
Proof. intros C x J. apply C. eapply ddel_snd_incl; eauto. Qed.
Lemma fr_store_exchange k l : ~ In l P -> frames (store_exchange k l) (fun _ => True).
Proof.
  intros N. unfold store_exchange. eapply fr_bind; [apply fr_gets_exch|]. intros d C.
  eapply fr_bind; [apply fr_set_exch, clear_dset; auto|]. intros _ _. apply fr_try; [|apply fr_ret; exact I].
  eapply fr_bind; [apply fr_get_dc|]. intros dc _. eapply fr_bind; [apply fr_gets_exch|]. intros d' C'. destruct (_ && _)%bool; [|apply fr_ret; exact I].
  eapply fr_bind; [apply fr_read|]. intros m _. eapply fr_bind; [apply fr_alloc|]. intros l' N'. apply fr_set_exch, clear_dset; auto.
Qed.
Lemma fr_add_exchange r1 r2 ijk l : ~ In l P -> frames (add_exchange r1 r2 ijk l) (fun _ => True).
Proof.
  intros N. unfold add_exchange. eapply fr_bind; [apply fr_resolve_add|]. intros a1 _. eapply fr_bind; [apply fr_resolve_add|]. intros a2 _. apply fr_store_exchange, N.
Qed.
Lemma fr_construct m : frames (construct m) (fun l => ~ In l P).
Proof. destruct m; cbn [construct]; [apply fr_alloc|apply fr_raise]. Qed.
Lemma fr_remove_bond k b : frames (@remove_bond F k b) (fun _ => True).
Proof.
  unfold remove_bond. eapply fr_bind; [apply fr_gets_exch|]. intros d C.
  eapply fr_bind with (Q := fun _ => True).
  - destruct (dmem d k); [apply fr_set_exch, clear_ddel, C|]. destruct b; [apply fr_raise|apply fr_ret; exact I].
  - intros _ _. apply fr_try; [|apply fr_ret; exact I]. eapply fr_bind; [apply fr_get_dc|]. intros dc _. eapply fr_bind; [apply fr_gets_exch|]. intros d' C'.
    destruct (_ && _)%bool; [apply fr_set_exch, clear_ddel, C'|apply fr_ret; exact I].
Qed.
Lemma fr_remove_on_site r b : frames (@remove_on_site F r b) (fun _ => True).
Proof.
  destruct r as [a|s]; cbn [remove_on_site].
  - eapply fr_bind; [apply fr_gets_ons|]. intros d C. destruct (dmem d a); [apply fr_set_ons, clear_ddel, C|]. destruct b; [apply fr_raise|apply fr_ret; exact I].
  - eapply fr_bind; [apply fr_get_atom|]. intros _ _. destruct b; [apply fr_raise|apply fr_ret; exact I].
Qed.
Lemma fr_delitem i : frames (@delitem F i) (fun _ => True).
Proof. destruct i; cbn [delitem]; [apply fr_remove_bond|apply fr_remove_on_site]. Qed.
Lemma fr_scale_bonds c : frames (scale_bonds c) (fun _ => True).
Proof.
  unfold scale_bonds. eapply fr_bind; [apply fr_gets|]. intros d _. apply fr_for_each. intros k _. eapply fr_bind; [apply fr_get_bond|]. intros l N. apply fr_scale, N.
Qed.
Lemma fr_mirror_all items : frames (mirror_all items) (fun r => forall k l, In (k, l) r -> ~ In l P).
Proof.
  induction items as [|[k l] t IH]; cbn [mirror_all]; [apply fr_ret; intros k l []|].
  eapply fr_bind; [apply fr_read|]. intros m _. eapply fr_bind; [apply fr_alloc|]. intros l' N. eapply fr_bind; [apply IH|]. intros r Hr.
  apply fr_ret. intros k' l0 [[= <- <-]|J]; [exact N|eauto].
Qed.
Lemma fr_ensure_dc : frames ensure_dc (fun _ => True).
Proof.
  unfold ensure_dc. eapply fr_bind; [apply fr_gets|]. intros d _. eapply fr_bind; [apply fr_mirror_all|]. intros r Hr.
  apply fr_for_each. intros [k l] J. apply fr_add_exchange. exact (Hr _ _ J).
Qed.
Lemma fr_collect_removal items : frames (@collect_removal F items) (fun _ => True).
Proof.
  induction items as [|[k l] t IH]; cbn [collect_removal]; [apply fr_ret; exact I|].
  eapply fr_bind; [apply fr_gets|]. intros d _. destruct (canonical k); [|destruct (dmem d (mirror k)); [|apply fr_raise]];
  (eapply fr_bind; [apply IH|]; intros; apply fr_ret; exact I).
Qed.
Lemma fr_ensure_no_dc : frames (@ensure_no_dc F) (fun _ => True).
Proof.
  unfold ensure_no_dc. eapply fr_bind; [apply fr_gets|]. intros d _. eapply fr_bind; [apply fr_collect_removal|]. intros r _.
  apply fr_for_each. intros; apply fr_remove_bond.
Qed.
Lemma fr_put (f : ham -> ham) : (forall h, h_exch (f h) = h_exch h /\ h_ons (f h) = h_ons h) -> frames (modify f) (fun _ => True).
Proof. apply fr_modify. Qed.
Lemma fr_set_dc b : frames (set_double_counting b) (fun _ => True).
Proof.
  unfold set_double_counting. eapply fr_bind; [apply fr_gets|]. intros old _. eapply fr_bind; [apply fr_modify; intros; split; reflexivity|]. intros _ _.
  eapply fr_bind with (Q := fun _ => True).
  - destruct old as [[]|]; destruct b; first [apply fr_ret; exact I|apply fr_scale_bonds].
  - intros _ _. destruct b; [apply fr_ensure_dc|apply fr_ensure_no_dc].
Qed.
Lemma fr_set_sn b : frames (set_spin_normalized b) (fun _ => True).
Proof.
  unfold set_spin_normalized. eapply fr_bind; [apply fr_gets|]. intros old _.
  eapply fr_bind with (Q := fun _ => True); [|intros; apply fr_modify; intros; split; reflexivity].
  destruct old as [[]|]; destruct b; try (apply fr_ret; exact I).
  - eapply fr_bind; [apply fr_gets|]. intros d _. eapply fr_bind.
    + apply fr_for_each. intros k _. eapply fr_bind; [apply fr_get_bond|]. intros l N. eapply fr_bind; [apply fr_spin|]. intros s1 _.
      eapply fr_bind; [apply fr_spin|]. intros s2 _. apply fr_div, N.
    + intros _ _. eapply fr_bind; [apply fr_gets|]. intros e _. apply fr_for_each. intros k _. eapply fr_bind; [apply fr_get_onsite|]. intros l N.
      eapply fr_bind; [apply fr_spin|]. intros s _. apply fr_div, N.
  - eapply fr_bind; [apply fr_gets|]. intros d _. eapply fr_bind.
    + apply fr_for_each. intros k _. eapply fr_bind; [apply fr_get_bond|]. intros l N. eapply fr_bind; [apply fr_spin|]. intros s1 _.
      eapply fr_bind; [apply fr_spin|]. intros s2 _. apply fr_scale, N.
    + intros _ _. eapply fr_bind; [apply fr_gets|]. intros e _. apply fr_for_each. intros k _. eapply fr_bind; [apply fr_get_onsite|]. intros l N.
      eapply fr_bind; [apply fr_spin|]. intros s _. apply fr_scale, N.
Qed.
Lemma fr_set_ef x : frames (set_exchange_factor x) (fun _ => True).
Proof.
  unfold set_exchange_factor. eapply fr_bind; [apply fr_gets|]. intros old _.
  eapply fr_bind with (Q := fun _ => True); [|intros; apply fr_modify; intros; split; reflexivity].
  destruct old as [o|]; [|apply fr_ret; exact I]. destruct (feq_dec o x); [apply fr_ret; exact I|].
  eapply fr_bind; [apply fr_gets|]. intros d _. apply fr_for_each. intros k _. eapply fr_bind; [apply fr_get_bond|]. intros l N.
  eapply fr_bind; [apply fr_py_div|]. intros c _. apply fr_scale, N.
Qed.
Lemma fr_set_of x : frames (set_on_site_factor x) (fun _ => True).
Proof.
  unfold set_on_site_factor. eapply fr_bind; [apply fr_gets|]. intros old _.
  eapply fr_bind with (Q := fun _ => True); [|intros; apply fr_modify; intros; split; reflexivity].
  destruct old as [o|]; [|apply fr_ret; exact I]. destruct (feq_dec o x); [apply fr_ret; exact I|].
  eapply fr_bind; [apply fr_gets|]. intros d _. apply fr_for_each. intros k _. eapply fr_bind; [apply fr_get_onsite|]. intros l N.
  eapply fr_bind; [apply fr_py_div|]. intros c _. apply fr_scale, N.
Qed.
Lemma fr_set_notation n : frames (set_notation n) (fun _ => True).
Proof.
  unfold set_notation. destruct (parse_notation n) as [[[[dc sn] fe] fo]|]; [|apply fr_raise].
  eapply fr_bind; [apply fr_set_dc|]. intros _ _. eapply fr_bind; [apply fr_set_sn|]. intros _ _. eapply fr_bind; [apply fr_set_ef|]. intros _ _. apply fr_set_of.
Qed.
Lemma fr_filter dist order maxd mind custom : frames (h_filter dist order maxd mind custom) (fun _ => True).
Proof.
  unfold h_filter. eapply fr_bind; [apply fr_gets|]. intros d _.
  eapply fr_bind with (Q := fun _ => True).
  { induction d as [|[k l] t IH]; cbn [collect_filter_bonds]; [apply fr_ret; exact I|]. eapply fr_bind; [apply fr_read|]. intros m _.
    eapply fr_bind; [apply IH|]. intros; apply fr_ret; exact I. }
  intros r1 _. eapply fr_bind; [apply fr_gets|]. intros e _.
  eapply fr_bind with (Q := fun _ => True).
  { induction e as [|[k l] t IH]; cbn [collect_filter_onsite]; [apply fr_ret; exact I|]. eapply fr_bind; [apply fr_read|]. intros m _.
    eapply fr_bind; [apply IH|]. intros; apply fr_ret; exact I. }
  intros r2 _. apply fr_for_each. intros i _. apply fr_try; [apply fr_delitem|apply fr_ret; exact I].
Qed.
Lemma fr_remove_atom r : frames (@remove_atom F r) (fun _ => True).
Proof.
  unfold remove_atom. eapply fr_bind; [apply fr_resolve|]. intros a _. eapply fr_bind; [apply fr_gets|]. intros d _. eapply fr_bind; [apply fr_gets|]. intros e _.
  eapply fr_bind; [apply fr_for_each; intros; apply fr_delitem|]. intros _ _. unfold crystal_remove_atom. eapply fr_bind; [apply fr_gets|]. intros l _.
  destruct (mem_atom a l); [apply fr_set_atoms|apply fr_raise].
Qed.
Lemma fr_exec o : (forall l, In l (mentions o) -> ~ In l P) -> frames (exec o) (fun _ => True).
Proof.
  intros Hm. destruct o; cbn [exec mentions] in *.
  - eapply fr_bind; [apply fr_alloc|]. intros; apply fr_ret; exact I.
  - apply fr_write, Hm; left; reflexivity.
  - intros w S. destruct (valid_loc w l); [apply (fr_add_exchange r1 r2 ijk l); auto; apply Hm; left; reflexivity|apply (fr_ret tt (fun _ => True)); auto].
  - unfold add_exchange_new. eapply fr_bind; [apply fr_resolve_add|]. intros a1 _. eapply fr_bind; [apply fr_resolve_add|]. intros a2 _.
    eapply fr_bind; [apply fr_construct|]. intros l N. apply fr_store_exchange, N.
  - unfold remove_exchange. eapply fr_bind; [apply fr_resolve|]. intros a1 _. eapply fr_bind; [apply fr_resolve|]. intros a2 _. apply fr_remove_bond.
  - intros w S. destruct (valid_loc w l); [|apply (fr_ret tt (fun _ => True)); auto].
    assert (N : ~ In l P) by (apply Hm; left; reflexivity).
    revert w S. change (frames (add_on_site r l) (fun _ => True)). unfold add_on_site. eapply fr_bind; [apply fr_resolve_add|]. intros a _.
    eapply fr_bind; [apply fr_gets_ons|]. intros d C. apply fr_set_ons, clear_dset; auto.
  - unfold add_on_site_new. eapply fr_bind; [apply fr_resolve_add|]. intros a _. eapply fr_bind; [apply fr_construct|]. intros l N.
    eapply fr_bind; [apply fr_gets_ons|]. intros d C. apply fr_set_ons, clear_dset; auto.
  - apply fr_remove_on_site.
  - apply fr_delitem.
  - apply fr_filter.
  - apply fr_add_atom.
  - apply fr_remove_atom.
  - apply fr_set_dc.
  - apply fr_set_sn.
  - apply fr_set_ef.
  - apply fr_set_of.
  - apply fr_set_notation.
Qed.
Lemma fr_run ops : (forall o l, In o ops -> In l (mentions o) -> ~ In l P) -> forall w, apart w -> apart (run ops w) /\ same_at w (run ops w).
Proof.
  induction ops as [|o t IH]; intros Hm w S; cbn [run]; [split; [exact S|apply same_at_refl]|].
  destruct (fr_exec o (fun l => Hm o l (or_introl eq_refl)) w S) as (A1 & A2 & _).
  destruct (IH (fun o' l J => Hm o' l (or_intror J)) _ A1) as (B1 & B2). split; [exact B1|]. intros l I. rewrite (B2 l I). apply A2, I.
Qed.
End Frame.

(** ** copy *)
Lemma assign_fresh_ok (ls : list loc) : forall (seen : list (loc * loc)) (st : list (M3 F)) (n : nat),
  (forall l, In l ls -> (l < n)%nat) -> (n <= List.length st)%nat ->
  (forall a b, In (a, b) seen -> (a < n)%nat /\ (n <= b < List.length st)%nat /\ nth_error st b = nth_error st a) ->
  NoDup (map snd seen) ->
  let '(seen', st') := assign_fresh seen ls st in
  (exists ms, st' = st ++ ms) /\
  (forall a b, In (a, b) seen' -> (a < n)%nat /\ (n <= b < List.length st')%nat /\ nth_error st' b = nth_error st' a) /\
  NoDup (map snd seen') /\ (forall p, In p seen -> In p seen') /\
  (forall l, In l ls -> exists p, find (fun p => Nat.eqb (fst p) l) seen' = Some p) /\
  (forall l p, find (fun p => Nat.eqb (fst p) l) seen = Some p -> find (fun p => Nat.eqb (fst p) l) seen' = Some p).
Proof.
  induction ls as [|l t IH]; intros seen st n Hl Hn Hs Nd; cbn [assign_fresh].
  - splits; auto. exists []. symmetry; apply app_nil_r. intros l [].
  - assert (Hl' : forall x, In x t -> (x < n)%nat) by (intros; apply Hl; right; assumption).
    destruct (find (fun p => Nat.eqb (fst p) l) seen) as [p|] eqn:Ef.
    + specialize (IH seen st n Hl' Hn Hs Nd). destruct (assign_fresh seen t st) as [seen' st'].
      destruct IH as (A & B & C & D & E & G). splits; auto. intros l' [<-|J]; [exists p; apply G, Ef|auto].
    + assert (Ll : (l < List.length st)%nat) by (specialize (Hl l (or_introl eq_refl)); lia).
      destruct (nth_error_lt st l Ll) as [m Em]. rewrite Em.
      specialize (IH ((l, List.length st) :: seen) (st ++ [m]) n Hl').
      assert (X : forall a, (a < List.length st)%nat -> nth_error (st ++ [m]) a = nth_error st a) by (intros; apply nth_error_app1; assumption).
      destruct (assign_fresh ((l, List.length st) :: seen) t (st ++ [m])) as [seen' st'].
      destruct IH as (A & B & C & D & E & G).
      * rewrite app_length; lia.
      * intros a b [[= <- <-]|J].
        -- rewrite app_length; cbn. splits; [apply Hl; left; reflexivity|lia|lia|]. rewrite nth_error_app2, Nat.sub_diag, X by lia. cbn. congruence.
        -- destruct (Hs a b J) as (P1 & P2 & P3). rewrite app_length; cbn. splits; auto; try lia. rewrite !X by lia. exact P3.
      * cbn. constructor; [|exact Nd]. intros J. apply in_map_iff in J as ([a b] & E0 & J). cbn in E0. subst. destruct (Hs _ _ J) as (_ & P2 & _). lia.
      * destruct A as [ms A]. splits; auto.
        -- exists (m :: ms). rewrite A, <- app_assoc. reflexivity.
        -- intros p J. apply D. right; exact J.
        -- intros l' [<-|J]; [|auto]. eexists. apply G. cbn. rewrite Nat.eqb_refl. reflexivity.
        -- intros l' p Hp. apply G. cbn. destruct (Nat.eqb_spec l l') as [->|]; [congruence|exact Hp].
Qed.

Lemma dget_map {K} `{EqDec K} (f : loc -> loc) (d : dict K loc) k :
  dget (map (fun kl => (fst kl, f (snd kl))) d) k = option_map f (dget d k).
Proof. induction d as [|[k' l] d IH]; cbn; [reflexivity|]. destruct (eq_dec k k'); [reflexivity|exact IH]. Qed.
Lemma dkeys_map {K} (f : loc -> loc) (d : dict K loc) : dkeys (map (fun kl => (fst kl, f (snd kl))) d) = dkeys d.
Proof. unfold dkeys. rewrite map_map. reflexivity. Qed.

Lemma copy_ok st (h : ham) : wf (mkW st h) ->
  let '(st', h') := copy_ham st h in
  (exists ms, st' = st ++ ms) /\ wf (mkW st' h') /\
  h_dc h' = h_dc h /\ h_sn h' = h_sn h /\ h_ef h' = h_ef h /\ h_of h' = h_of h /\ h_spins h' = h_spins h /\ h_atoms h' = h_atoms h /\
  bonds (mkW st' h') = bonds (mkW st h) /\ sites (mkW st' h') = sites (mkW st h) /\
  same_parameters (mkW st h) (mkW st' h') /\ (unshared (mkW st h) -> unshared (mkW st' h')) /\
  (forall l, In l (in_use (mkW st' h')) -> (List.length st <= l < List.length st')%nat).
Proof.
  intros (W1 & W2 & W3 & W4 & W5 & W6). unfold copy_ham. cbn [w_ham w_store] in *.
  assert (Hu : forall l, In l (map snd (h_exch h) ++ map snd (h_ons h)) -> (l < List.length st)%nat).
  { intros l J. apply in_app_or in J as [J|J]; apply in_map_iff in J as ([k l'] & E & J); cbn in E; subst; [eapply W3|eapply W4]; eauto. }
  assert (A := assign_fresh_ok (map snd (h_exch h) ++ map snd (h_ons h)) [] st (List.length st) Hu (le_n _)).
  destruct (assign_fresh [] (map snd (h_exch h) ++ map snd (h_ons h)) st) as [seen st'].
  destruct A as ((ms & Est) & B & C & _ & E & _); [intros ? ? []|constructor|].
  assert (R : forall l, In l (map snd (h_exch h) ++ map snd (h_ons h)) ->
     (List.length st <= relocate seen l < List.length st')%nat /\ nth_error st' (relocate seen l) = nth_error st l /\ In (l, relocate seen l) seen).
  { intros l J. destruct (E l J) as [[a b] Hp]. unfold relocate. rewrite Hp. cbn [snd]. assert (Hf := find_some _ _ Hp). destruct Hf as [Ip Ea].
    cbn in Ea. apply Nat.eqb_eq in Ea. subst a. destruct (B _ _ Ip) as (B1 & B2 & B3). splits; try lia; [|exact Ip].
    rewrite B3, Est. apply nth_error_app1. exact B1. }
  assert (Rinj : forall l l', In l (map snd (h_exch h) ++ map snd (h_ons h)) -> In l' (map snd (h_exch h) ++ map snd (h_ons h)) -> relocate seen l = relocate seen l' -> l = l').
  { intros l l' J J' Er. destruct (R l J) as (_ & _ & I1). destruct (R l' J') as (_ & _ & I2). rewrite Er in I1.
    revert I1 I2. generalize (relocate seen l'). clear - C. intros r. induction seen as [|[a b] t IH]; [intros []|]. cbn in C. inversion C as [|? ? N1 N2]; subst.
    intros [E1|I1] [E2|I2]; [congruence| | |auto].
    - injection E1 as Ea Eb. subst. exfalso. apply N1. apply in_map_iff. exists (l', r). split; [reflexivity|exact I2].
    - injection E2 as Ea Eb. subst. exfalso. apply N1. apply in_map_iff. exists (l, r). split; [reflexivity|exact I1]. }
  assert (Iu : map snd (map (fun kl : bkey * loc => (fst kl, relocate seen (snd kl))) (h_exch h)) ++ map snd (map (fun kl : atom * loc => (fst kl, relocate seen (snd kl))) (h_ons h))
             = map (relocate seen) (map snd (h_exch h) ++ map snd (h_ons h))).
  { rewrite map_app, !map_map. reflexivity. }
  cbn. splits; auto.
  - exists ms; exact Est.
  - unfold wf, bonds, sites. cbn [w_ham w_store h_exch h_ons h_atoms]. rewrite !dkeys_map. splits; auto.
    + intros k l J. apply in_map_iff in J as ([k' l'] & [= <- <-] & J). apply R. apply in_or_app; left. apply in_map_iff. exists (k', l'); auto.
    + intros k l J. apply in_map_iff in J as ([k' l'] & [= <- <-] & J). apply R. apply in_or_app; right. apply in_map_iff. exists (k', l'); auto.
  - unfold bonds; cbn. apply dkeys_map.
  - unfold sites; cbn. apply dkeys_map.
  - split.
    + intros k. unfold bond_value; cbn. rewrite dget_map. destruct (dget (h_exch h) k) as [l|] eqn:Ed; [|reflexivity]. cbn.
      apply R. apply in_or_app; left. apply in_map_iff. exists (k, l). split; [reflexivity|apply dget_In, Ed].
    + intros k. unfold onsite_value; cbn. rewrite dget_map. destruct (dget (h_ons h) k) as [l|] eqn:Ed; [|reflexivity]. cbn.
      apply R. apply in_or_app; right. apply in_map_iff. exists (k, l). split; [reflexivity|apply dget_In, Ed].
  - unfold unshared; cbn. rewrite Iu. intros U. clear - U Rinj. set (ls := map snd (h_exch h) ++ map snd (h_ons h)) in *.
    assert (X : forall t, incl t ls -> NoDup t -> NoDup (map (relocate seen) t)).
    { induction t as [|l t IH]; intros Hi N; cbn; [constructor|]. inversion N; subst. constructor; [|apply IH; auto; intros x J; apply Hi; right; exact J].
      intros J. apply in_map_iff in J as (l' & El & J). apply Rinj in El; [subst; contradiction|apply Hi; right; exact J|apply Hi; left; reflexivity]. }
    apply X; [apply incl_refl|exact U].
  - intros l. unfold in_use; cbn. rewrite Iu. intros J. apply in_map_iff in J as (l' & <- & J). apply R, J.
Qed.

Lemma values_at (w w' : world) : w_ham w' = w_ham w -> (forall l, In l (in_use w) -> nth_error (w_store w') l = nth_error (w_store w) l) -> same_parameters w w'.
Proof.
  intros Eh H. split; intros k; unfold bond_value, onsite_value; rewrite Eh.
  - destruct (dget (h_exch (w_ham w)) k) as [l|] eqn:E; [|reflexivity]. apply H. apply in_or_app; left. apply in_map_iff. exists (k, l). split; [reflexivity|apply dget_In, E].
  - destruct (dget (h_ons (w_ham w)) k) as [l|] eqn:E; [|reflexivity]. apply H. apply in_or_app; right. apply in_map_iff. exists (k, l). split; [reflexivity|apply dget_In, E].
Qed.

Lemma wf_in_use (w : world) l : wf w -> In l (in_use w) -> (l < List.length (w_store w))%nat.
Proof.
  intros (_ & _ & W3 & W4 & _) J. apply in_app_or in J as [J|J]; apply in_map_iff in J as ([k l'] & E & J); cbn in E; subst; [eapply W3|eapply W4]; eauto.
Qed.

(** ** filtered *)
Lemma filtered_ok dist order maxd mind custom (w : world) : (forall l, Permutation (order l) l) -> Inv w ->
  exists st h2, filtered dist order maxd mind custom w = (st, w_ham w, (h2, Ret tt)) /\
    same_parameters w (mkW st (w_ham w)) /\
    (forall k, In k (bonds (mkW st h2)) <-> In k (bonds w) /\ meets dist maxd mind custom w k /\
                 (h_dc (w_ham w) = Some true -> meets dist maxd mind custom w (mirror k))) /\
    (forall a, In a (sites (mkW st h2)) <-> In a (sites w) /\ meets_onsite mind custom w a) /\
    (forall k, In k (bonds (mkW st h2)) -> bond_value (mkW st h2) k = bond_value w k) /\
    (forall a, In a (sites (mkW st h2)) -> onsite_value (mkW st h2) a = onsite_value w a) /\
    (forall ops, (forall o l, In o ops -> In l (mentions o) -> ~ In l (in_use w)) ->
       same_parameters w (mkW (w_store (run ops (mkW st h2))) (w_ham w))) /\
    (forall ops, (forall o l, In o ops -> In l (mentions o) -> ~ In l (in_use (mkW st h2))) ->
       same_parameters (mkW st h2) (mkW (w_store (run ops (mkW st (w_ham w)))) h2)).
Proof.
  intros Hord I. unfold filtered. assert (C := copy_ok (w_store w) (w_ham w)). destruct w as [st0 h0]. cbn [w_store w_ham] in *. specialize (C (proj1 I)).
  destruct (copy_ham st0 h0) as [st1 h1]. destruct C as ((ms & Est) & W1 & D1 & _ & _ & _ & _ & _ & B1 & S1 & [V1 O1] & _ & L1).
  assert (I1 : Inv (mkW st1 h1)). { split; [exact W1|]. cbn [w_ham]. rewrite D1. intros Dc. unfold mirror_closed. rewrite B1. apply I, Dc. }
  destruct (filter_exact dist order maxd mind custom Hord (mkW st1 h1) I1) as (w2 & E2 & I2 & D2 & B2 & S2 & V2 & O2).
  rewrite E2. destruct w2 as [st2 h2]. exists st2, h2. cbn [w_store w_ham].
  assert (Hm : forall k, meets dist maxd mind custom (mkW st1 h1) k <-> meets dist maxd mind custom (mkW st0 h0) k).
  { intros k. unfold meets. rewrite V1. reflexivity. }
  assert (Hmo : forall a, meets_onsite mind custom (mkW st1 h1) a <-> meets_onsite mind custom (mkW st0 h0) a).
  { intros k. unfold meets_onsite. rewrite O1. reflexivity. }
  assert (U0 : forall l, In l (in_use (mkW st0 h0)) -> (l < List.length st0)%nat) by (intros l J; exact (wf_in_use (mkW st0 h0) l (proj1 I) J)).
  (* the original is kept by the filtering of the copy *)
  assert (Ap1 : apart (in_use (mkW st0 h0)) (mkW st1 h1)).
  { intros l J. specialize (U0 l J). cbn. rewrite Est, app_length. split; [lia|]. intros J'. specialize (L1 l J'). lia. }
  destruct (fr_filter (in_use (mkW st0 h0)) dist order maxd mind custom (mkW st1 h1) Ap1) as (Ap2 & Sa2 & _). rewrite E2 in Ap2, Sa2. cbn [fst] in *.
  assert (Sa : forall l, In l (in_use (mkW st0 h0)) -> nth_error st2 l = nth_error st0 l).
  { intros l J. etransitivity; [exact (Sa2 l J)|]. cbn. rewrite Est. apply nth_error_app1, U0, J. }
  splits; auto.
  - apply values_at; [reflexivity|exact Sa].
  - intros k. rewrite B2, B1, !Hm. cbn [w_ham]. rewrite D1. reflexivity.
  - intros a. rewrite S2, S1, Hmo. reflexivity.
  - intros k J. rewrite (V2 k J). apply V1.
  - intros k J. rewrite (O2 k J). apply O1.
  - intros ops Hops. apply values_at; [reflexivity|]. cbn [w_store w_ham]. intros l J.
    destruct (fr_run (in_use (mkW st0 h0)) ops Hops (mkW st2 h2) Ap2) as [_ X]. etransitivity; [exact (X l J)|]. apply Sa, J.
  - intros ops Hops. apply values_at; [reflexivity|]. cbn [w_store w_ham]. intros l J.
    assert (Ap3 : apart (in_use (mkW st2 h2)) (mkW st2 h0)).
    { intros l' J'. split; [exact (wf_in_use (mkW st2 h2) l' (proj1 I2) J')|]. intros J0. apply (Ap2 l' J0). exact J'. }
    destruct (fr_run (in_use (mkW st2 h2)) ops Hops (mkW st2 h0) Ap3) as [_ X]. exact (X l J).
Qed.
End FrameProofs.
