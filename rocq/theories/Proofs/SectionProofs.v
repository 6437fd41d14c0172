(** Sections: splitting at separators, independence of their order. *)
From Coq Require Import String Ascii List Bool ZArith Arith Lia Permutation.
From Verif.Base Require Import Scalar PyDict PyString PyText.
From Verif.Spec Require Import TxtSpec.
From Verif.Model Require Import Hamiltonian TxtVerify TxtRead.
From Verif.Proofs Require Import TextBasics.
Import ListNotations.
Local Open Scope string_scope.

Lemma starts_with_app p s : starts_with p (p ++ s) = true.
Proof.
  induction p as [|c p IH]; simpl; [apply starts_with_nil|].
  change (starts_with (String c p) (String c (p ++ s)) = true). rewrite starts_with_cons.
  destruct (ascii_dec c c); [exact IH|congruence].
Qed.
Lemma starts_with_inv p s : starts_with p s = true -> exists t, s = p ++ t.
Proof.
  revert s. induction p as [|c p IH]; intros s H; [exists s; reflexivity|].
  destruct s as [|d s]; [discriminate|]. rewrite starts_with_cons in H.
  destruct (ascii_dec c d) as [<-|]; [|discriminate]. destruct (IH s H) as [t ->]. exists t. reflexivity.
Qed.
Lemma repeat_char_add c n m : repeat_char c (n + m) = repeat_char c n ++ repeat_char c m.
Proof. induction n; simpl; congruence. Qed.

Lemma is_sep_spec l : is_sep l = true <-> separator l.
Proof.
  unfold is_sep, equals. split.
  - intros H. destruct (starts_with_inv _ _ H) as [t ->]. exists 10%nat, t. auto.
  - intros (n & s & Hn & ->). replace n with (10 + (n - 10))%nat by lia.
    rewrite repeat_char_add, app_assoc_s. apply starts_with_app.
Qed.
Lemma is_sep_false l : is_sep l = false <-> ~ separator l.
Proof. rewrite <- is_sep_spec. destruct (is_sep l); split; congruence. Qed.

Lemma runs_no_sep sep s t : Forall (fun l => sep l = false) s ->
  runs sep (s ++ t)%list = ((s ++ fst (runs sep t))%list, snd (runs sep t)).
Proof.
  induction s as [|l s IH]; simpl; intros H; [destruct (runs sep t); reflexivity|].
  inversion H; subst. rewrite (IH H3), H2. reflexivity.
Qed.
Lemma split_runs_sep sep l t : sep l = true -> split_runs sep (l :: t) = split_runs sep t.
Proof. intros H. unfold split_runs. simpl. rewrite H. destruct (runs sep t) as [cur rest]. destruct cur; reflexivity. Qed.
Lemma split_runs_cons sep s l t : s <> [] -> Forall (fun l => sep l = false) s -> sep l = true ->
  split_runs sep (s ++ l :: t)%list = s :: split_runs sep t.
Proof.
  intros Hn Hs Hl. unfold split_runs at 1. rewrite (runs_no_sep sep s (l :: t) Hs). simpl. rewrite Hl.
  unfold split_runs. destruct (runs sep t) as [cur rest]. simpl. rewrite app_nil_r.
  destruct s; [congruence|]. reflexivity.
Qed.
Lemma split_runs_last sep s : s <> [] -> Forall (fun l => sep l = false) s -> split_runs sep s = [s].
Proof.
  intros Hn Hs. unfold split_runs. replace s with (s ++ [])%list at 1 by apply app_nil_r.
  rewrite (runs_no_sep sep s [] Hs). simpl. rewrite app_nil_r. destruct s; [congruence|reflexivity].
Qed.

Lemma laid_out_runs secs ts : laid_out secs ts -> split_runs is_sep ts = secs.
Proof.
  assert (E : forall s, Forall (fun l => ~ separator l) s -> Forall (fun l => is_sep l = false) s).
  { intros s H. eapply Forall_impl; [|exact H]. intros l. apply is_sep_false. }
  induction 1.
  - reflexivity.
  - rewrite split_runs_sep; [assumption|apply is_sep_spec; assumption].
  - apply split_runs_last; auto.
  - rewrite split_runs_cons; [f_equal; assumption|auto|auto|apply is_sep_spec; assumption].
Qed.

(** A long separator is not a short one. *)
Lemma py_count_app c a b : py_count c (a ++ b) = (py_count c a + py_count c b)%nat.
Proof. induction a; simpl; [reflexivity|]. rewrite IHa. lia. Qed.
Lemma length_app_s a b : String.length (a ++ b) = (String.length a + String.length b)%nat.
Proof. induction a; simpl; congruence. Qed.
Lemma rstrip_head_nonspace c s : is_space c = false -> py_rstrip (String c s) = String c (py_rstrip s).
Proof. intros H. simpl. rewrite H, andb_false_r. reflexivity. Qed.
Lemma strip_repeat n s : (String.length (py_strip (repeat_char "=" n ++ s)) >= n)%nat.
Proof.
  unfold py_strip. destruct n as [|n]; [lia|].
  assert (E : py_lstrip (repeat_char "=" (S n) ++ s) = repeat_char "=" (S n) ++ s) by reflexivity.
  rewrite E. generalize (S n). clear. induction n as [|n IH]; [lia|].
  change (repeat_char "=" (S n) ++ s) with (String "=" (repeat_char "=" n ++ s)).
  rewrite rstrip_head_nonspace by reflexivity. simpl. lia.
Qed.
Lemma separator_not_short l : separator l -> short_equal l = false.
Proof.
  intros (n & s & Hn & ->). unfold short_equal, verify_short_separator.
  pose proof (strip_repeat n s). destruct (Nat.ltb_spec (String.length (py_strip (repeat_char "=" n ++ s))) 10); [lia|reflexivity].
Qed.

Lemma laid_out_short secs ts : laid_out secs ts -> existsb short_equal ts = existsb short_equal (concat secs).
Proof.
  induction 1; simpl.
  - reflexivity.
  - rewrite (separator_not_short l H). assumption.
  - rewrite app_nil_r. reflexivity.
  - rewrite existsb_app. simpl. rewrite (separator_not_short l H1). simpl. rewrite IHlaid_out, existsb_app. reflexivity.
Qed.

Lemma existsb_perm {A} (p : A -> bool) l1 l2 : Permutation l1 l2 -> existsb p l1 = existsb p l2.
Proof.
  induction 1; simpl; try congruence.
  destruct (p x), (p y); reflexivity.
Qed.
Lemma concat_perm {A} (l1 l2 : list (list A)) : Permutation l1 l2 -> Permutation (concat l1) (concat l2).
Proof.
  induction 1; simpl; auto.
  - apply Permutation_app_head. assumption.
  - rewrite !app_assoc. apply Permutation_app_tail. apply Permutation_app_comm.
  - eapply Permutation_trans; eauto.
Qed.
Lemma filter_perm {A} (p : A -> bool) l1 l2 : Permutation l1 l2 -> Permutation (filter p l1) (filter p l2).
Proof.
  induction 1; simpl; auto.
  - destruct (p x); auto.
  - destruct (p x), (p y); auto. apply perm_swap.
  - eapply Permutation_trans; eauto.
Qed.

(** ** Dictionaries with distinct keys *)
Section Dicts.
Context {K V : Type} `{EqDec K}.
Lemma dset_fresh (d : dict K V) k v : ~ In k (map fst d) -> dset d k v = (d ++ [(k, v)])%list.
Proof.
  induction d as [|[k' v'] d IH]; simpl; intros Hn; [reflexivity|].
  destruct (eq_dec k k') as [->|]; [exfalso; apply Hn; left; reflexivity|]. rewrite IH; [reflexivity|tauto].
Qed.
Lemma fold_dset {A} (key : A -> K) (val : A -> V) (l : list A) (d : dict K V) :
  NoDup (map fst d ++ map key l) ->
  fold_left (fun d s => dset d (key s) (val s)) l d = (d ++ map (fun s => (key s, val s)) l)%list.
Proof.
  revert d. induction l as [|s l IH]; intros d Hnd; simpl; [rewrite app_nil_r; reflexivity|].
  simpl in Hnd.
  assert (Hf : ~ In (key s) (map fst d)).
  { intros Hin. apply NoDup_remove_2 in Hnd. apply Hnd. apply in_or_app. left. exact Hin. }
  rewrite (dset_fresh d (key s) (val s) Hf). rewrite IH.
  - rewrite <- app_assoc. reflexivity.
  - rewrite map_app. simpl. rewrite <- app_assoc. exact Hnd.
Qed.
Lemma dget_In (d : dict K V) k v : NoDup (map fst d) -> In (k, v) d -> dget d k = Some v.
Proof.
  induction d as [|[k' v'] d IH]; simpl; [intros _ []|]. intros Hnd Hin. inversion Hnd; subst.
  destruct (eq_dec k k') as [->|Hne].
  - destruct Hin as [E|Hin]; [congruence|]. exfalso. apply H2. apply in_map_iff. exists (k', v). auto.
  - destruct Hin as [E|Hin]; [congruence|auto].
Qed.
Lemma dget_None (d : dict K V) k : ~ In k (map fst d) -> dget d k = None.
Proof.
  induction d as [|[k' v'] d IH]; simpl; [reflexivity|]. intros Hn.
  destruct (eq_dec k k') as [->|]; [exfalso; tauto|]. apply IH. tauto.
Qed.
Lemma dget_Some_In (d : dict K V) k v : dget d k = Some v -> In (k, v) d.
Proof.
  induction d as [|[k' v'] d IH]; simpl; [discriminate|].
  destruct (eq_dec k k') as [->|]; [intros E; inversion E; auto|auto].
Qed.
Lemma dget_perm (d1 d2 : dict K V) : Permutation d1 d2 -> NoDup (map fst d1) -> forall k, dget d1 k = dget d2 k.
Proof.
  intros P Hnd k. assert (Hnd2 : NoDup (map fst d2)) by (eapply Permutation_NoDup; [apply Permutation_map; exact P|exact Hnd]).
  destruct (dget d1 k) as [v|] eqn:E1.
  - symmetry. apply dget_In; [exact Hnd2|]. eapply Permutation_in; [exact P|]. apply dget_Some_In. exact E1.
  - destruct (dget d2 k) as [v|] eqn:E2; [|reflexivity].
    rewrite (dget_In d1 k v Hnd) in E1; [discriminate|].
    eapply Permutation_in; [apply Permutation_sym; exact P|]. apply dget_Some_In. exact E2.
Qed.
End Dicts.

Lemma map_drop_id secs : Forall (fun s => short_equal (hd "" s) = false) secs -> Forall (fun s => s <> []) secs ->
  filter nonempty (map (drop_while short_equal) secs) = secs.
Proof.
  induction secs as [|s secs IH]; simpl; [reflexivity|]. intros H1 H2. inversion H1; inversion H2; subst.
  destruct s as [|l s]; [congruence|]. simpl in H3. simpl. rewrite H3. simpl. f_equal. apply IH; assumption.
Qed.
Lemma laid_out_nonempty secs ts : laid_out secs ts -> Forall (fun s => s <> []) secs.
Proof. induction 1; auto. Qed.

(** The sections found are those laid out. *)
Lemma found_laid_out secs ts : laid_out secs ts -> Forall (fun s => short_equal (hd "" s) = false) secs ->
  NoDup (map section_name secs) ->
  found_sections ts = map (fun s => (section_name s, s)) secs.
Proof.
  intros L Hs Hnd. unfold found_sections, section_blocks. rewrite (laid_out_runs secs ts L).
  rewrite (map_drop_id secs Hs (laid_out_nonempty secs ts L)).
  apply (fold_dset section_keyword (fun s => s) secs []). exact Hnd.
Qed.

Section Order.
Context {F : Type} {SF : Scalar F}.
Variable X : externals F.
Notation ver := (verify_model_file (isfloat X) (isint X) (x_float X)).

Lemma load_sections_ext d1 d2 : (forall k, dget d1 k = dget d2 k) -> load_sections X d1 = load_sections X d2.
Proof. intros H. unfold load_sections, dmem. rewrite !H. reflexivity. Qed.

Lemma verify_section_ext d1 d2 al n l : (forall k, dget d1 k = dget d2 k) ->
  verify_section (isfloat X) (isint X) (x_float X) d1 al n l = verify_section (isfloat X) (isint X) (x_float X) d2 al n l.
Proof. intros H. unfold verify_section, dmem. rewrite !H. reflexivity. Qed.

Lemma existsb_ext' {A} (p q : A -> bool) l : (forall x, p x = q x) -> existsb p l = existsb q l.
Proof. intros H. induction l; simpl; [reflexivity|]. rewrite H, IHl. reflexivity. Qed.

(** Verification does not depend on the order; the sections handed to the readers are the same. *)
Lemma verify_perm b secs1 secs2 t1 t2 : laid_out secs1 t1 -> laid_out secs2 t2 -> Permutation secs1 secs2 ->
  Forall (fun s => short_equal (hd "" s) = false) secs1 -> NoDup (map section_name secs1) ->
  match ver b t1, ver b t2 with
  | Ret d1, Ret d2 => forall k, dget d1 k = dget d2 k
  | Raise e1, Raise e2 => e1 = e2
  | _, _ => False
  end.
Proof.
  intros L1 L2 P Hs Hnd.
  assert (Hs2 : Forall (fun s => short_equal (hd "" s) = false) secs2) by (eapply Permutation_Forall; eauto).
  assert (Hnd2 : NoDup (map section_name secs2)) by (eapply Permutation_NoDup; [apply Permutation_map; exact P|exact Hnd]).
  set (d1 := map (fun s => (section_name s, s)) secs1). set (d2 := map (fun s => (section_name s, s)) secs2).
  assert (E1 : found_sections t1 = d1) by (apply found_laid_out; assumption).
  assert (E2 : found_sections t2 = d2) by (apply found_laid_out; assumption).
  assert (Pd : Permutation d1 d2) by (apply Permutation_map; exact P).
  assert (Hk : NoDup (map fst d1)) by (unfold d1; rewrite map_map; exact Hnd).
  pose proof (dget_perm d1 d2 Pd Hk) as G.
  assert (Es : existsb short_equal t1 = existsb short_equal t2).
  { rewrite (laid_out_short _ _ L1), (laid_out_short _ _ L2). apply existsb_perm. apply concat_perm. exact P. }
  unfold verify_model_file, verify_file. rewrite E1, E2, Es.
  replace (dmem d2 "cell") with (dmem d1 "cell") by (unfold dmem; rewrite G; reflexivity).
  replace (dmem d2 "atoms") with (dmem d1 "atoms") by (unfold dmem; rewrite G; reflexivity).
  rewrite <- (G "atoms").
  destruct (match dget d1 "atoms" with Some a => verify_atoms (isfloat X) a | None => Ret ([], false) end) as [[al e3]|e]; [|reflexivity].
  assert (Ee : existsb (fun p => if string_dec (fst p) "atoms" then false
                  else verify_section (isfloat X) (isint X) (x_float X) d1 al (fst p) (snd p)) d1
             = existsb (fun p => if string_dec (fst p) "atoms" then false
                  else verify_section (isfloat X) (isint X) (x_float X) d2 al (fst p) (snd p)) d2).
  { rewrite (existsb_perm _ _ _ Pd). apply existsb_ext'. intros x. destruct (string_dec (fst x) "atoms"); [reflexivity|].
    apply verify_section_ext. exact G. }
  rewrite Ee.
  match goal with |- match (if ?c then _ else _) with _ => _ end => destruct c end; [reflexivity|exact G].
Qed.

Lemma load_perm secs1 secs2 t1 t2 f1 f2 : file_shows f1 t1 -> file_shows f2 t2 ->
  laid_out secs1 t1 -> laid_out secs2 t2 -> Permutation secs1 secs2 ->
  Forall (fun s => short_equal (hd "" s) = false) secs1 -> NoDup (map section_name secs1) ->
  load_txt X f1 = load_txt X f2.
Proof.
  intros S1 S2 L1 L2 P Hs Hnd. unfold load_txt, filter_txt_file. simpl.
  rewrite (filter_of f1 t1 S1), (filter_of f2 t2 S2).
  pose proof (verify_perm true secs1 secs2 t1 t2 L1 L2 P Hs Hnd) as V.
  destruct (ver true t1) as [d1|e1], (ver true t2) as [d2|e2]; try contradiction; simpl.
  - apply load_sections_ext. exact V.
  - congruence.
Qed.

Lemma load_cosmetic f g : cosmetic f g -> load_txt X f = load_txt X g.
Proof. intros H. unfold load_txt, filter_txt_file. simpl. rewrite (cosmetic_filter f g 0 0 H). reflexivity. Qed.
Lemma verify_cosmetic b f g : cosmetic f g -> ver b (fst (filter_lines 0 f)) = ver b (fst (filter_lines 0 g)).
Proof. intros H. rewrite (cosmetic_filter f g 0 0 H). reflexivity. Qed.
End Order.
