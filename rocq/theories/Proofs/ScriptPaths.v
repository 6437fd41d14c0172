(** Paths of files: splitting and joining. *)
From Coq Require Import String Ascii List Bool Lia.
From Verif.Base Require Import PyString PyText.
From Verif.Spec Require Import TxtSpec ScriptSpec.
From Verif.Model Require Import DispersionScript.
From Verif.Proofs Require Import TextBasics DumpText.
Import ListNotations.
Local Open Scope string_scope.

Definition no_slash (s : string) : Prop := all_chars (fun c => c <> "/"%char) s.

Lemma cut_spec p : forall h t, cut_slash p = (h, t) -> p = h ++ t /\ no_slash t /\ (h = "" \/ exists h', h = h' ++ "/").
Proof.
  induction p as [|c p IH]; cbn [cut_slash]; intros h t E.
  - injection E as <- <-. repeat split; auto.
  - destruct (cut_slash p) as [h0 t0]. destruct (IH _ _ eq_refl) as (E0 & N & H). destruct (emptyb h0) eqn:Eh.
    + apply emptyb_spec in Eh. subst h0. cbn in E0. destruct (Ascii.eqb c slash) eqn:Ec; injection E as <- <-.
      * apply Ascii.eqb_eq in Ec. subst. repeat split; auto. right. exists "". reflexivity.
      * apply Ascii.eqb_neq in Ec. subst. repeat split; auto.
    + injection E as <- <-. apply emptyb_false in Eh. subst p. repeat split; auto. right. destruct H as [->|[h' ->]]; [congruence|]. exists (String c h'). reflexivity.
Qed.
Lemma rstrip_slash_spec s : exists r, s = rstrip_slash s ++ r /\ slashes r /\
  (rstrip_slash s = "" \/ exists h' c, rstrip_slash s = h' ++ String c "" /\ c <> "/"%char).
Proof.
  induction s as [|c s (r & E & Hr & HE)]; [exists ""; cbn; repeat split; auto|].
  cbn [rstrip_slash]. set (u := rstrip_slash s) in *. destruct (emptyb u) eqn:Eu; cbn [andb].
  - apply emptyb_spec in Eu. rewrite Eu in E. destruct (Ascii.eqb c slash) eqn:Ec.
    + apply Ascii.eqb_eq in Ec. exists (String c r). cbn in E. subst s. repeat split; auto.
    + apply Ascii.eqb_neq in Ec. exists r. rewrite E at 1. rewrite Eu. repeat split; auto. right. exists "", c. auto.
  - apply emptyb_false in Eu. exists r. rewrite E at 1. repeat split; auto. right. destruct HE as [?|(h' & d & E' & Hd)]; [contradiction|].
    exists (String c h'), d. rewrite E'. auto.
Qed.
Lemma slashes_repeat s : slashes s -> s = repeat_char slash (String.length s).
Proof. induction s as [|c s IH]; [reflexivity|]. intros [E H]. cbn. rewrite <- IH by exact H. rewrite E. reflexivity. Qed.
Lemma repeat_slashes n : slashes (repeat_char slash n).
Proof. apply all_repeat. reflexivity. Qed.

Lemma split_parts p h t : path_split p = (h, t) -> path_parts p h t.
Proof.
  unfold path_split. destruct (cut_slash p) as [h0 t0] eqn:Ec. destruct (cut_spec _ _ _ Ec) as (-> & N & H).
  destruct (emptyb h0) eqn:E0; cbn [negb andb].
  - apply emptyb_spec in E0. intros E; injection E as <- <-. subst h0. split; [exact N|]. exists "". repeat split; auto.
  - apply emptyb_false in E0. destruct (String.eqb h0 (repeat_char slash (String.length h0))) eqn:Er; cbn [negb andb]; intros E; injection E as <- <-.
    + apply String.eqb_eq in Er. split; [exact N|]. exists "". repeat split; auto. right; left. repeat split; auto. rewrite Er. apply repeat_slashes.
    + apply String.eqb_neq in Er. destruct (rstrip_slash_spec h0) as (r & Eh & Hr & HE). split; [exact N|]. exists r.
      rewrite <- app_assoc_s, <- Eh. repeat split; auto. right; right.
      assert (Hs : rstrip_slash h0 <> ""). { intros X. rewrite X in Eh. cbn in Eh. subst r. apply Er, slashes_repeat, Hr. }
      destruct HE as [?|(h' & c & E & Hc)]; [contradiction|]. split; [|exists h', c; auto].
      intros ->. destruct H as [->|[h2 H]]; [congruence|]. rewrite app_nil_r_s, E in Eh. rewrite H in Eh.
      assert (X : c = "/"%char); [|congruence].
      clear -Eh. revert h' Eh. induction h2 as [|d h2 IH]; intros h' Eh.
      * destruct h' as [|e h']; cbn in Eh; [injection Eh; auto|]. injection Eh as _ Eh. destruct h'; discriminate.
      * destruct h' as [|e h']; cbn in Eh; [injection Eh as _ Eh; destruct h2; discriminate|]. injection Eh as _ Eh. apply (IH _ Eh).
Qed.

(** ** The parts are unique *)
Lemma no_slash_prefix a b t t' : no_slash t -> no_slash t' -> (a = "" \/ exists a', a = a' ++ "/") -> (b = "" \/ exists b', b = b' ++ "/") ->
  a ++ t = b ++ t' -> a = b /\ t = t'.
Proof.
  revert b. induction a as [|c a IH]; intros b Nt Nt' Ha Hb E.
  - destruct b as [|d b]; [auto|]. exfalso. cbn in E. subst t. destruct Hb as [?|[b' Hb]]; [discriminate|]. change (String d (b ++ t')) with (String d b ++ t') in Nt. rewrite Hb in Nt.
    rewrite app_assoc_s in Nt. apply all_app in Nt. destruct Nt as [_ [X _]]. congruence.
  - destruct b as [|d b].
    + exfalso. cbn in E. subst t'. destruct Ha as [?|[a' Ha]]; [discriminate|]. change (String c (a ++ t)) with (String c a ++ t) in Nt'. rewrite Ha in Nt'.
      rewrite app_assoc_s in Nt'. apply all_app in Nt'. destruct Nt' as [_ [X _]]. congruence.
    + cbn in E. injection E as -> E.
      assert (Q : forall x, (exists y, String d x = y ++ "/") -> x = "" \/ exists y, x = y ++ "/").
      { intros x [y Hy]. destruct y as [|e y]; cbn in Hy; injection Hy; intros; subst; [left; reflexivity|right; exists y; reflexivity]. }
      destruct (IH b Nt Nt') as [-> ->]; auto.
      * destruct Ha as [?|Ha]; [discriminate|]. apply Q, Ha.
      * destruct Hb as [?|Hb]; [discriminate|]. apply Q, Hb.
Qed.
Lemma slashes_end s : slashes s -> s = "" \/ exists s', s = s' ++ "/".
Proof.
  induction s as [|c s IH]; [auto|]. intros [-> H]. right. destruct (IH H) as [->|[s' ->]]; [exists ""|exists (String "/" s')]; reflexivity.
Qed.
Lemma app_cases_s (a b c d : string) : a ++ b = c ++ d -> (exists m, c = a ++ m /\ b = m ++ d) \/ (exists m, a = c ++ m /\ d = m ++ b).
Proof.
  revert c. induction a as [|x a IH]; intros c E; [left; exists c; auto|].
  destruct c as [|y c]; [right; exists (String x a); auto|]. cbn in E. injection E as -> E.
  destruct (IH _ E) as [(m & -> & ->)|(m & -> & ->)]; [left|right]; exists m; auto.
Qed.
Lemma last_slash h c m s : slashes m -> m <> "" -> h ++ String c "" = s ++ m -> c = "/"%char.
Proof.
  intros Hm Nm E. destruct (slashes_end m Hm) as [?|[m' ->]]; [contradiction|]. rewrite <- app_assoc_s in E.
  revert E. generalize (s ++ m') as u. induction h as [|d h IH]; intros u E.
  - destruct u as [|e u]; cbn in E; [injection E; auto|]. injection E as _ E. destruct u; discriminate.
  - destruct u as [|e u]; cbn in E; [injection E as _ E; destruct h; discriminate|]. injection E as _ E. apply (IH _ E).
Qed.
Lemma slashes_app a b : slashes (a ++ b) <-> slashes a /\ slashes b.
Proof. apply all_app. Qed.
Lemma head_unique h s h2 s2 :
  slashes s -> slashes s2 ->
  (h = "" /\ s = "" \/ h <> "" /\ slashes h /\ s = "" \/ s <> "" /\ exists h' c, h = h' ++ String c "" /\ c <> "/"%char) ->
  (h2 = "" /\ s2 = "" \/ h2 <> "" /\ slashes h2 /\ s2 = "" \/ s2 <> "" /\ exists h' c, h2 = h' ++ String c "" /\ c <> "/"%char) ->
  h ++ s = h2 ++ s2 -> h = h2 /\ s = s2.
Proof.
  intros Hs Hs2 C1 C2 E.
  assert (K : forall h' c, c <> "/"%char -> slashes (h' ++ String c "") -> False).
  { intros h' c Hc X. apply slashes_app in X. destruct X as [_ [X _]]. contradiction. }
  destruct C1 as [[-> ->]|[(N1 & S1 & ->)|(N1 & h' & c & -> & Hc)]]; destruct C2 as [[-> ->]|[(N2 & S2 & ->)|(N2 & h2' & c2 & -> & Hc2)]];
    rewrite ?app_nil_r_s in E; cbn [append] in E; subst; auto; try (exfalso; congruence).
  - exfalso. symmetry in E. apply app_eq_nil_s in E. tauto.
  - exfalso. apply slashes_app in S1. destruct S1 as [S1 _]. exact (K _ _ Hc2 S1).
  - exfalso. apply app_eq_nil_s in E. tauto.
  - exfalso. apply slashes_app in S2. destruct S2 as [S2 _]. exact (K _ _ Hc S2).
  - destruct (app_cases_s _ _ _ _ E) as [(m & E1 & E2)|(m & E1 & E2)].
    + destruct (string_dec m "") as [->|Nm]; [rewrite app_nil_r_s in E1; auto|]. exfalso. apply Hc2. rewrite E2 in Hs. apply slashes_app in Hs. exact (last_slash _ _ _ _ (proj1 Hs) Nm E1).
    + destruct (string_dec m "") as [->|Nm]; [rewrite app_nil_r_s in E1; auto|]. exfalso. apply Hc. rewrite E2 in Hs2. apply slashes_app in Hs2. exact (last_slash _ _ _ _ (proj1 Hs2) Nm E1).
Qed.
Lemma parts_end h s : slashes s -> (h = "" /\ s = "" \/ h <> "" /\ slashes h /\ s = "" \/ s <> "" /\ exists h' c, h = h' ++ String c "" /\ c <> "/"%char) ->
  h ++ s = "" \/ exists a, h ++ s = a ++ "/".
Proof.
  intros Hs [[-> ->]|[(N & S1 & ->)|(N & _)]]; [auto|rewrite app_nil_r_s; apply slashes_end, S1|].
  destruct (slashes_end s Hs) as [?|[s' ->]]; [contradiction|]. right. exists (h ++ s'). rewrite app_assoc_s. reflexivity.
Qed.
Lemma parts_unique p h t h2 t2 : path_parts p h t -> path_parts p h2 t2 -> h = h2 /\ t = t2.
Proof.
  intros (N & s & -> & Hs & C1) (N2 & s2 & E & Hs2 & C2). rewrite <- !app_assoc_s in E.
  destruct (no_slash_prefix _ _ _ _ N N2 (parts_end _ _ Hs C1) (parts_end _ _ Hs2 C2) E) as [E1 ->].
  destruct (head_unique _ _ _ _ Hs Hs2 C1 C2 E1) as [-> _]. auto.
Qed.
Lemma parts_split p h t : path_parts p h t -> path_split p = (h, t).
Proof.
  intros H. destruct (path_split p) as [h2 t2] eqn:E. apply split_parts in E. destruct (parts_unique _ _ _ _ _ H E) as [-> ->]. reflexivity.
Qed.

(** ** The name of the output *)
Lemma ends_with_last a : ends_with "/" a = true <-> exists a', a = a' ++ "/".
Proof.
  split.
  - induction a as [|c a IH]; cbn [ends_with]; [destruct (string_dec "/" ""); discriminate|].
    destruct (string_dec "/" (String c a)) as [E|_]; [intros _; exists ""; rewrite <- E; reflexivity|].
    intros H. destruct (IH H) as [a' ->]. exists (String c a'). reflexivity.
  - intros [a' ->]. induction a' as [|c a' IH]; [reflexivity|]. cbn [append ends_with]. destruct (string_dec "/" (String c (a' ++ "/"))); [reflexivity|exact IH].
Qed.
Lemma join_parts h t q r : path_parts q h r -> no_slash t -> t <> "" -> path_parts (path_join h t) h t.
Proof.
  intros (_ & s & _ & Hs & C1) N Nt. unfold path_join.
  assert (E : starts_with "/" t = false).
  { destruct t as [|c t]; [congruence|]. destruct N as [X _]. unfold starts_with. cbn [prefix]. destruct (ascii_dec "/" c); [congruence|reflexivity]. }
  rewrite E. split; [exact N|]. destruct C1 as [[-> _]|[(N1 & S1 & _)|(_ & h' & c & -> & Hc)]].
  - exists "". cbn. repeat split; auto.
  - exists "". destruct (slashes_end h S1) as [?|[h' ->]]; [contradiction|].
    rewrite (proj2 (ends_with_last (h' ++ "/")) (ex_intro _ h' eq_refl)), orb_true_r. repeat split; auto.
  - exists "/". assert (E1 : ends_with "/" (h' ++ String c "") = false).
    { destruct (ends_with "/" (h' ++ String c "")) eqn:X; [|reflexivity]. apply ends_with_last in X. destruct X as [a' X]. exfalso. apply Hc.
      apply (last_slash h' c "/" a'); [split; [reflexivity|exact I]|discriminate|exact X]. }
    assert (E2 : emptyb (h' ++ String c "") = false) by (destruct h'; reflexivity).
    rewrite E1, E2. cbn [orb]. repeat split; auto. right; right. split; [discriminate|]. exists h', c. auto.
Qed.
Lemma output_parts spinham seedname h t0 h' t' : path_parts spinham h t0 -> path_parts seedname h' t' ->
  path_parts (output_name spinham seedname) (if string_dec h' "" then h else h') (if string_dec t' "" then "dispersion" else t').
Proof.
  intros H1 H2. unfold output_name, out_head, out_tail. rewrite (parts_split _ _ _ H1), (parts_split _ _ _ H2). cbn [fst snd].
  assert (Et : (if emptyb t' then "dispersion" else t') = (if string_dec t' "" then "dispersion" else t')).
  { destruct (string_dec t' "") as [->|X]; [reflexivity|]. apply emptyb_false in X. rewrite X. reflexivity. }
  assert (Eh : (if emptyb h' then h else h') = (if string_dec h' "" then h else h')).
  { destruct (string_dec h' "") as [->|X]; [reflexivity|]. apply emptyb_false in X. rewrite X. reflexivity. }
  rewrite Et, Eh.
  assert (A : no_slash (if string_dec t' "" then "dispersion" else t') /\ (if string_dec t' "" then "dispersion" else t') <> "").
  { destruct (string_dec t' "") as [_|X]; [repeat split; discriminate|]. split; [apply H2|exact X]. }
  destruct (string_dec h' ""); [apply (join_parts _ _ _ _ H1)|apply (join_parts _ _ _ _ H2)]; tauto.
Qed.
Lemma directory_parts spinham seedname h t0 h' t' : path_parts spinham h t0 -> path_parts seedname h' t' ->
  made_directory spinham seedname = (if string_dec (if string_dec h' "" then h else h') "" then None else Some (if string_dec h' "" then h else h')).
Proof.
  intros H1 H2. unfold made_directory, out_head. rewrite (parts_split _ _ _ H1), (parts_split _ _ _ H2). cbn [fst snd].
  assert (Eh : (if emptyb h' then h else h') = (if string_dec h' "" then h else h')).
  { destruct (string_dec h' "") as [->|X]; [reflexivity|]. apply emptyb_false in X. rewrite X. reflexivity. }
  rewrite Eh. set (u := if string_dec h' "" then h else h'). destruct (string_dec u "") as [->|X]; [reflexivity|]. apply String.eqb_neq in X. rewrite X. reflexivity.
Qed.
Lemma parts_exist p : exists h t, path_parts p h t.
Proof. destruct (path_split p) as [h t] eqn:E. exists h, t. apply split_parts, E. Qed.

Lemma parts_exact p : exists h t, path_parts p h t /\ forall h' t', path_parts p h' t' -> h' = h /\ t' = t.
Proof. destruct (parts_exist p) as (h & t & H). exists h, t. split; [exact H|]. intros h' t' H'. exact (parts_unique _ _ _ _ _ H' H). Qed.
Lemma names_case : path_parts "models/NiO.txt" "models" "NiO.txt" /\ path_parts "out" "" "out" /\ output_name "models/NiO.txt" "out" = "models/out".
Proof. split; [apply split_parts; reflexivity|]. split; [apply split_parts; reflexivity|reflexivity]. Qed.
