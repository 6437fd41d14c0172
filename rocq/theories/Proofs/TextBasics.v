(** Lemmas on strings, words, stripping and the comment filter. *)
From Coq Require Import String Ascii List Bool ZArith Arith Lia NArith Permutation Sorted.
From Verif.Base Require Import PyString PyText.
From Verif.Spec Require Import TxtSpec.
From Verif.Model Require Import TxtVerify.
Import ListNotations.
Local Open Scope string_scope.

Lemma app_nil_r_s (s : string) : s ++ "" = s.
Proof. induction s; simpl; congruence. Qed.
Lemma app_assoc_s (a b c : string) : (a ++ b) ++ c = a ++ (b ++ c).
Proof. induction a; simpl; congruence. Qed.
Lemma app_eq_nil_s (a b : string) : a ++ b = "" -> a = "" /\ b = "".
Proof. destruct a; simpl; [auto|discriminate]. Qed.
Lemma emptyb_spec s : emptyb s = true <-> s = "".
Proof. destruct s; simpl; split; congruence. Qed.
Lemma emptyb_false s : emptyb s = false <-> s <> "".
Proof. destruct s; simpl; split; congruence. Qed.

(** ** Case *)
Lemma ascii_lower_cases c : ascii_lower c = c \/
  (65 <= N_of_ascii c <= 90 /\ N_of_ascii (ascii_lower c) = N_of_ascii c + 32)%N.
Proof.
  unfold ascii_lower. destruct (N.leb 65 (N_of_ascii c) && N.leb (N_of_ascii c) 90)%bool eqn:E; [|auto].
  apply andb_prop in E. destruct E as [E1 E2]. apply N.leb_le in E1. apply N.leb_le in E2. right. split; [lia|].
  rewrite N_ascii_embedding; lia.
Qed.
Lemma is_space_lower c : is_space (ascii_lower c) = is_space c.
Proof.
  destruct (ascii_lower_cases c) as [E|[H E]]; [rewrite E; reflexivity|].
  unfold is_space. rewrite E.
  repeat match goal with |- context [N.leb ?a ?b] => destruct (N.leb_spec a b) end; simpl; try reflexivity; lia.
Qed.
Lemma ascii_lower_idem c : ascii_lower (ascii_lower c) = ascii_lower c.
Proof.
  destruct (ascii_lower_cases c) as [E|[H E]]; [rewrite E; exact E|].
  unfold ascii_lower at 1. rewrite E.
  destruct (N.leb_spec (N_of_ascii c + 32) 90); [lia|]. rewrite andb_false_r. reflexivity.
Qed.
Lemma str_lower_idem s : str_lower (str_lower s) = str_lower s.
Proof. induction s; simpl; [reflexivity|]. rewrite ascii_lower_idem. congruence. Qed.
Lemma emptyb_lower s : emptyb (str_lower s) = emptyb s.
Proof. destruct s; reflexivity. Qed.

(** ** Words *)
Lemma toks_lower s : toks (str_lower s) = (str_lower (fst (toks s)), map str_lower (snd (toks s))).
Proof.
  induction s as [|c s IH]; simpl; [reflexivity|]. rewrite IH. destruct (toks s) as [w ws]. simpl.
  rewrite is_space_lower. destruct (is_space c); simpl; [|reflexivity].
  rewrite emptyb_lower. destruct (emptyb w); reflexivity.
Qed.
Lemma py_split_lower s : py_split (str_lower s) = map str_lower (py_split s).
Proof.
  unfold py_split. rewrite toks_lower. destruct (toks s) as [w ws]. simpl.
  rewrite emptyb_lower. destruct (emptyb w); reflexivity.
Qed.

Definition word (w : string) : Prop := w <> "" /\ all_chars (fun c => is_space c = false) w.
Lemma toks_words s : all_chars (fun c => is_space c = false) (fst (toks s)) /\ Forall word (snd (toks s)).
Proof.
  induction s as [|c s IH]; simpl; [split; [exact I|constructor]|].
  destruct (toks s) as [w ws]. simpl in *. destruct IH as [H1 H2]. destruct (is_space c) eqn:E; simpl.
  - split; [exact I|]. destruct (emptyb w) eqn:Ew; [exact H2|]. constructor; [|exact H2].
    split; [apply emptyb_false; exact Ew|exact H1].
  - auto.
Qed.
Lemma py_split_words s : Forall word (py_split s).
Proof.
  unfold py_split. pose proof (toks_words s) as H. destruct (toks s) as [w ws]. simpl in H. destruct H as [H1 H2].
  destruct (emptyb w) eqn:Ew; [exact H2|]. constructor; [|exact H2]. split; [apply emptyb_false; exact Ew|exact H1].
Qed.

Lemma toks_app_space a c b : is_space c = true ->
  toks (a ++ String c b) = (fst (toks a), (snd (toks a) ++ py_split b)%list).
Proof.
  intros Hc. induction a as [|x a IH]; simpl.
  - rewrite Hc. unfold py_split. destruct (toks b) as [w ws]. reflexivity.
  - rewrite IH. destruct (toks a) as [w ws]. simpl. destruct (is_space x); [|reflexivity].
    destruct (emptyb w); reflexivity.
Qed.
Lemma py_split_app_space a c b : is_space c = true -> py_split (a ++ String c b) = (py_split a ++ py_split b)%list.
Proof.
  intros Hc. unfold py_split at 1. rewrite (toks_app_space a c b Hc).
  assert (E : py_split a = if emptyb (fst (toks a)) then snd (toks a) else fst (toks a) :: snd (toks a)).
  { unfold py_split. destruct (toks a); reflexivity. }
  rewrite E. destruct (emptyb (fst (toks a))); reflexivity.
Qed.
Lemma py_split_word w : word w -> py_split w = [w].
Proof.
  intros [Hn Hw]. assert (E : toks w = (w, [])).
  { clear Hn. induction w as [|c w IH]; simpl; [reflexivity|]. destruct Hw as [Hc Hw]. rewrite (IH Hw), Hc. reflexivity. }
  unfold py_split. rewrite E. destruct w; [congruence|reflexivity].
Qed.
Lemma py_split_blank_app a b : blank a -> py_split (a ++ b) = py_split b.
Proof.
  induction a as [|c a IH]; simpl; [reflexivity|]. intros [Hc Ha]. rewrite <- (IH Ha).
  change (String c (a ++ b)) with ("" ++ String c (a ++ b)). rewrite (py_split_app_space "" c (a ++ b) Hc). reflexivity.
Qed.
Lemma py_split_app_blank a b : blank b -> py_split (a ++ b) = py_split a.
Proof.
  destruct b as [|c b]; [intros _; now rewrite app_nil_r_s|]. intros [Hc Hb].
  rewrite (py_split_app_space a c b Hc). replace b with (b ++ "") by apply app_nil_r_s.
  rewrite (py_split_blank_app b "" Hb). apply app_nil_r.
Qed.
Lemma py_split_nil_blank s : py_split s = [] -> blank s.
Proof.
  induction s as [|c s IH]; [intros _; exact I|]. intros E.
  destruct (is_space c) eqn:Ec.
  - split; [exact Ec|]. apply IH.
    change (String c s) with ("" ++ String c s) in E. rewrite (py_split_app_space "" c s Ec) in E. exact E.
  - exfalso. unfold py_split in E. simpl in E. destruct (toks s) as [w ws]. rewrite Ec in E. discriminate.
Qed.

(** ** Stripping *)
Lemma blank_app a b : blank (a ++ b) <-> blank a /\ blank b.
Proof. unfold blank. induction a; simpl; tauto. Qed.
Lemma no_hash_app a b : no_hash (a ++ b) <-> no_hash a /\ no_hash b.
Proof. unfold no_hash. induction a; simpl; tauto. Qed.

Lemma lstrip_blank_app a b : blank a -> py_lstrip (a ++ b) = py_lstrip b.
Proof. induction a as [|c a IH]; simpl; [reflexivity|]. intros [Hc Ha]. rewrite Hc. auto. Qed.
Lemma rstrip_app_blank a b : blank b -> py_rstrip (a ++ b) = py_rstrip a.
Proof.
  intros Hb. induction a as [|c a IH]; simpl.
  - induction b as [|c b IH]; [reflexivity|]. destruct Hb as [Hc Hb]. simpl. rewrite (IH Hb), Hc. reflexivity.
  - rewrite IH. reflexivity.
Qed.
Lemma lstrip_tight t : tight t -> py_lstrip t = t.
Proof. intros [H _]. destruct t as [|c t]; [reflexivity|]. simpl. rewrite (H c t eq_refl). reflexivity. Qed.
Lemma tight_tail c t : t <> "" -> (forall x s', String c t = s' ++ String x "" -> is_space x = false) ->
  (forall x s', t = s' ++ String x "" -> is_space x = false).
Proof. intros _ H x s' E. apply (H x (String c s')). simpl. congruence. Qed.
Lemma rstrip_id t : (forall c s', t = s' ++ String c "" -> is_space c = false) -> py_rstrip t = t.
Proof.
  induction t as [|c t IH]; [reflexivity|]. intros H. simpl.
  destruct t as [|d t].
  - simpl. rewrite (H c "" eq_refl). reflexivity.
  - rewrite IH by (intros x s' E; apply (H x (String c s')); simpl; congruence). reflexivity.
Qed.
Lemma lstrip_spec s : exists lead, s = lead ++ py_lstrip s /\ blank lead
  /\ (forall c s', py_lstrip s = String c s' -> is_space c = false).
Proof.
  induction s as [|c s IH]; simpl; [exists ""; repeat split; congruence|].
  destruct (is_space c) eqn:E.
  - destruct IH as [l [E1 [E2 E3]]]. exists (String c l). simpl. rewrite <- E1. repeat split; auto.
  - exists "". repeat split. congruence.
Qed.
Lemma rstrip_spec s : exists trail, s = py_rstrip s ++ trail /\ blank trail
  /\ (forall c s', py_rstrip s = s' ++ String c "" -> is_space c = false)
  /\ (forall c s', py_rstrip s = String c s' -> exists s'', s = String c s'').
Proof.
  induction s as [|c s IH]; simpl.
  - exists "". repeat split.
    + intros c s' E. destruct s'; discriminate.
    + intros c s' E. discriminate.
  - destruct IH as [tr [E1 [E2 [E3 E4]]]]. destruct (emptyb (py_rstrip s)) eqn:Er.
    + apply emptyb_spec in Er. destruct (is_space c) eqn:Ec; simpl.
      * exists (String c s). rewrite Er in E1. simpl in E1. subst tr. simpl. repeat split; auto.
        -- intros x s' E. destruct s'; discriminate.
        -- intros x s' E. discriminate.
      * exists s. rewrite Er in *. simpl in E1. subst tr. simpl. repeat split; auto.
        -- intros x s' E. destruct s' as [|y s']; simpl in E; [congruence|]. destruct s'; discriminate.
        -- intros x s' E. exists s. congruence.
    + simpl. exists tr. simpl. rewrite <- E1. repeat split; auto.
      * intros x s' E. destruct s' as [|y s']; simpl in E.
        -- exfalso. inversion E. rewrite H1 in Er. discriminate.
        -- inversion E. eapply E3; eauto.
      * intros x s' E. exists s. congruence.
Qed.
Lemma strip_spec s : exists lead trail, s = lead ++ py_strip s ++ trail /\ blank lead /\ blank trail /\ tight (py_strip s).
Proof.
  destruct (lstrip_spec s) as [lead [E1 [H1 N1]]].
  destruct (rstrip_spec (py_lstrip s)) as [trail [E2 [H2 [N2 N3]]]].
  exists lead, trail. unfold py_strip. rewrite <- E2. repeat split; auto.
  intros c s' E. destruct (N3 _ _ E) as [s'' E']. eauto.
Qed.
Lemma strip_of lead t trail : blank lead -> blank trail -> tight t -> py_strip (lead ++ t ++ trail) = t.
Proof.
  intros Hl Ht [T1 T2]. unfold py_strip. rewrite (lstrip_blank_app _ _ Hl).
  destruct t as [|c t].
  - simpl. replace (py_lstrip trail) with "" by
      (replace trail with (trail ++ "") by apply app_nil_r_s; rewrite (lstrip_blank_app _ _ Ht); reflexivity).
    reflexivity.
  - assert (E : py_lstrip (String c t ++ trail) = String c t ++ trail) by (simpl; rewrite (T1 c t eq_refl); reflexivity).
    rewrite E, (rstrip_app_blank _ _ Ht). apply rstrip_id. exact T2.
Qed.

(** ** Comments *)
Lemma before_spec s : exists com, s = before "#" s ++ com /\ comment com /\ no_hash (before "#" s).
Proof.
  induction s as [|c s IH]; simpl.
  - exists "". repeat split. left. reflexivity.
  - destruct (Ascii.eqb c "#") eqn:E.
    + exists (String c s). repeat split. right. apply Ascii.eqb_eq in E. subst c. eauto.
    + destruct IH as [com [E1 [E2 E3]]]. exists com. simpl. rewrite <- E1. repeat split; auto.
      apply Ascii.eqb_neq in E. exact E.
Qed.
Lemma before_of s com : no_hash s -> comment com -> before "#" (s ++ com) = s.
Proof.
  intros H [->|[c ->]].
  - rewrite app_nil_r_s. induction s as [|x s IH]; [reflexivity|]. simpl. destruct H as [Hx H].
    apply Ascii.eqb_neq in Hx. rewrite Hx, (IH H). reflexivity.
  - induction s as [|x s IH]; [reflexivity|]. simpl. destruct H as [Hx H].
    apply Ascii.eqb_neq in Hx. rewrite Hx, (IH H). reflexivity.
Qed.
Lemma blank_no_hash s : blank s -> no_hash s.
Proof.
  induction s as [|c s IH]; [auto|]. intros [Hc H]. split; [|apply IH; exact H].
  intros ->. discriminate.
Qed.

Lemma shows_iff line t : shows line t <-> py_strip (before "#" line) = t.
Proof.
  split.
  - intros (lead & trail & com & -> & Hl & Ht & Hc & Hh & Htight).
    replace (lead ++ t ++ trail ++ com) with ((lead ++ t ++ trail) ++ com) by (rewrite !app_assoc_s; reflexivity).
    rewrite before_of; [|rewrite !no_hash_app; auto using blank_no_hash|exact Hc].
    apply strip_of; assumption.
  - intros <-. destruct (before_spec line) as [com [E1 [E2 E3]]].
    destruct (strip_spec (before "#" line)) as [lead [trail [S1 [S2 [S3 S4]]]]].
    exists lead, trail, com. repeat split; auto; try apply S4.
    + rewrite E1 at 1. rewrite S1 at 1. rewrite !app_assoc_s. reflexivity.
    + rewrite S1 in E3. rewrite !no_hash_app in E3. tauto.
Qed.
Lemma shows_hash s : shows (String "#" s) "".
Proof. apply shows_iff. reflexivity. Qed.

Lemma starts_with_cons a p c s :
  starts_with (String a p) (String c s) = if ascii_dec a c then starts_with p s else false.
Proof. reflexivity. Qed.
Lemma starts_with_nil s : starts_with "" s = true.
Proof. destruct s; reflexivity. Qed.
Lemma starts_hash l : starts_with "#" l = true -> exists s, l = String "#" s.
Proof.
  destruct l as [|c l]; [discriminate|]. rewrite starts_with_cons.
  destruct (ascii_dec "#" c) as [<-|]; [eauto|discriminate].
Qed.

Lemma filter_shows n ls : file_shows ls (fst (filter_lines n ls)).
Proof.
  revert n. induction ls as [|l ls IH]; intros n; simpl; [constructor|].
  specialize (IH (S n)). destruct (filter_lines (S n) ls) as [fs is] eqn:E. simpl in IH.
  destruct (starts_with "#" l) eqn:Eh; simpl.
  - destruct (starts_hash l Eh) as [s ->]. constructor; [apply shows_hash|exact IH].
  - destruct (emptyb (py_strip (before "#" l))) eqn:Ee; simpl.
    + apply emptyb_spec in Ee. constructor; [apply shows_iff; exact Ee|exact IH].
    + apply emptyb_false in Ee. apply fs_line; [apply shows_iff; reflexivity|exact Ee|exact IH].
Qed.
Lemma file_shows_fun ls t1 t2 : file_shows ls t1 -> file_shows ls t2 -> t1 = t2.
Proof.
  intros H. revert t2. induction H; intros t2 H2; inversion H2; subst; try reflexivity.
  - apply IHfile_shows; assumption.
  - exfalso. apply shows_iff in H. apply shows_iff in H4. congruence.
  - exfalso. apply shows_iff in H. apply shows_iff in H5. congruence.
  - apply shows_iff in H. apply shows_iff in H5. f_equal; [congruence|apply IHfile_shows; assumption].
Qed.
Lemma filter_of ls ts : file_shows ls ts -> forall n, fst (filter_lines n ls) = ts.
Proof. intros H n. eapply file_shows_fun; [apply filter_shows|exact H]. Qed.

Lemma file_shows_app f g s : file_shows (f ++ g)%list s <->
  exists s1 s2, s = (s1 ++ s2)%list /\ file_shows f s1 /\ file_shows g s2.
Proof.
  split.
  - revert s. induction f as [|l f IH]; simpl; intros s H; [exists [], s; repeat split; [constructor|exact H]|].
    inversion H; subst.
    + destruct (IH _ H4) as (s1 & s2 & -> & A & B). exists s1, s2. repeat split; auto. constructor; auto.
    + destruct (IH _ H5) as (s1 & s2 & -> & A & B). exists (t :: s1), s2. repeat split; auto. apply fs_line; auto.
  - intros (s1 & s2 & -> & A & B). induction A; simpl; [exact B|apply fs_silent; auto|apply fs_line; auto].
Qed.
Lemma cosmetic_shows f g : cosmetic f g -> forall s, file_shows f s <-> file_shows g s.
Proof.
  induction 1; intros s0; try tauto.
  - symmetry. apply IHcosmetic.
  - rewrite IHcosmetic1. apply IHcosmetic2.
  - rewrite !file_shows_app. split.
    + intros (s1 & s2 & -> & A & B). exists s1, s2. repeat split; auto. constructor; auto.
    + intros (s1 & s2 & -> & A & B). exists s1, s2. repeat split; auto. inversion B; subst; auto.
      exfalso. apply shows_iff in H. apply shows_iff in H2. congruence.
  - rewrite !file_shows_app. split.
    + intros (s1 & s2 & -> & A & B). exists s1, s2. repeat split; auto.
      apply shows_iff in H. inversion B; subst.
      * apply shows_iff in H3. apply fs_silent; [|assumption]. rewrite H3 in H0. exact H0.
      * apply shows_iff in H3. apply fs_line; try assumption. rewrite H3 in H0. exact H0.
    + intros (s1 & s2 & -> & A & B). exists s1, s2. repeat split; auto.
      apply shows_iff in H0. inversion B; subst.
      * apply shows_iff in H3. apply fs_silent; [|assumption]. rewrite H3 in H. exact H.
      * apply shows_iff in H3. apply fs_line; try assumption. rewrite H3 in H. exact H.
Qed.
Lemma cosmetic_filter f g n m : cosmetic f g -> fst (filter_lines n f) = fst (filter_lines m g).
Proof.
  intros H. symmetry. apply filter_of. apply (cosmetic_shows f g H). apply filter_shows.
Qed.

(** Line numbers: the i-th kept line is line [is[i]] of the file. *)
Lemma filter_numbers ls : forall n fs is, filter_lines n ls = (fs, is) ->
  List.length fs = List.length is
  /\ StronglySorted lt is /\ Forall (fun i => (n < i)%nat) is
  /\ (forall i t, In (i, t) (combine is fs) <->
        (n < i)%nat /\ exists l, nth_error ls (i - n - 1) = Some l /\ shows l t /\ t <> "").
Proof.
  induction ls as [|l ls IH]; intros n fs is E; simpl in E.
  - inversion E; subst. split; [reflexivity|]. split; [constructor|]. split; [constructor|].
    intros i t. simpl. split; [intros []|]. intros [_ [l [El _]]]. destruct (i - n - 1)%nat; discriminate.
  - destruct (filter_lines (S n) ls) as [fs' is'] eqn:E'. destruct (IH (S n) fs' is' E') as [L [S1 [B I]]].
    assert (Step : forall i t, (S n < i)%nat -> (exists l0, nth_error (l :: ls) (i - n - 1) = Some l0 /\ shows l0 t /\ t <> "")
              <-> In (i, t) (combine is' fs')).
    { intros i t Hi. rewrite I. replace (i - n - 1)%nat with (S (i - S n - 1))%nat by lia. simpl. tauto. }
    assert (B' : Forall (fun i => (n < i)%nat) is') by (eapply Forall_impl; [|exact B]; simpl; intros; lia).
    assert (Skip : py_strip (before "#" l) = "" -> forall i t, In (i, t) (combine is' fs') <->
        (n < i)%nat /\ (exists l0, nth_error (l :: ls) (i - n - 1) = Some l0 /\ shows l0 t /\ t <> "")).
    { intros He i t. split.
      - intros Hin. assert (Hi : (S n < i)%nat) by (apply I in Hin; tauto).
        split; [lia|]. apply Step; assumption.
      - intros [Hi [l0 [E0 [Hs Hn]]]]. destruct (Nat.eq_dec i (S n)) as [->|Hne].
        + replace (S n - n - 1)%nat with 0%nat in E0 by lia. simpl in E0. inversion E0; subst l0.
          exfalso. apply shows_iff in Hs. congruence.
        + apply Step; [lia|]. eauto. }
    destruct (starts_with "#" l) eqn:Eh.
    + inversion E; subst. destruct (starts_hash l Eh) as [s ->].
      split; [exact L|]. split; [exact S1|]. split; [exact B'|]. apply Skip. reflexivity.
    + destruct (emptyb (py_strip (before "#" l))) eqn:Ee.
      * inversion E; subst. split; [exact L|]. split; [exact S1|]. split; [exact B'|]. apply Skip. now apply emptyb_spec.
      * inversion E; subst. clear E. apply emptyb_false in Ee.
        split; [simpl; congruence|]. split; [constructor; [exact S1|]|].
        { eapply Forall_impl; [|exact B]; simpl; intros; lia. }
        split; [constructor; [lia|exact B']|].
        intros i t. cbn [combine In]. split.
        -- intros [E0|Hin].
           ++ inversion E0; subst. split; [lia|]. replace (n + 1 - n - 1)%nat with 0%nat by lia. simpl.
              exists l. repeat split; auto. apply shows_iff. reflexivity.
           ++ assert (Hi : (S n < i)%nat) by (apply I in Hin; tauto). split; [lia|]. apply Step; assumption.
        -- intros [Hi [l0 [E0 [Hs Hn]]]]. destruct (Nat.eq_dec i (S n)) as [->|Hne].
           ++ replace (S n - n - 1)%nat with 0%nat in E0 by lia. simpl in E0. inversion E0; subst l0.
              left. apply shows_iff in Hs. f_equal; [lia|exact Hs].
           ++ right. apply Step; [lia|]. eauto.
Qed.
