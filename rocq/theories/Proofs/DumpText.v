(** Writing lines: joining, padding, line feeds, and the words one reads back. *)
From Coq Require Import String Ascii List Bool ZArith Arith Lia.
From Verif.Base Require Import Scalar Linear3 PyDict PyString PyText.
From Verif.Spec Require Import TxtSpec TxtFormat TxtDumpSpec.
From Verif.Model Require Import MatrixParam Hamiltonian TxtVerify TxtRead TxtDump.
From Verif.Proofs Require Import TextBasics SectionProofs TxtReadProofs TextGlue.
Import ListNotations.
Local Open Scope string_scope.

Notation nl := (String line_feed "").

(** ** Characters *)
Lemma all_app p a b : all_chars p (a ++ b) <-> all_chars p a /\ all_chars p b.
Proof. induction a as [|c a IH]; simpl; tauto. Qed.
Lemma all_impl (p q : ascii -> Prop) s : (forall c, p c -> q c) -> all_chars p s -> all_chars q s.
Proof. intros H. induction s as [|c s IH]; simpl; [auto|]. intros [A B]. auto. Qed.
Lemma all_repeat (p : ascii -> Prop) c n : p c -> all_chars p (repeat_char c n).
Proof. intros H. induction n; simpl; auto. Qed.
Lemma all_concat p sep l : all_chars p sep -> Forall (all_chars p) l -> all_chars p (String.concat sep l).
Proof.
  intros Hs H. induction H as [|x l H1 H2 IH]; [exact I|]. destruct l as [|y l]; [exact H1|].
  change (String.concat sep (x :: y :: l)) with (x ++ sep ++ String.concat sep (y :: l)). rewrite !all_app. auto.
Qed.

(** No line feed, no "#". *)
Definition okc (c : ascii) : Prop := c <> line_feed /\ c <> "#"%char.
Definition ok (s : string) : Prop := all_chars okc s.
Definition no_lf (s : string) : Prop := all_chars (fun c => c <> line_feed) s.
Lemma ok_no_lf s : ok s -> no_lf s.
Proof. apply all_impl. intros c [H _]. exact H. Qed.
Lemma ok_no_hash s : ok s -> no_hash s.
Proof. apply all_impl. intros c [_ H]. exact H. Qed.
Lemma one_word_ok w : one_word w -> ok w.
Proof. intros [_ H]. revert H. apply all_impl. intros c [H1 H2]. split; [intros ->; discriminate|exact H2]. Qed.
Lemma one_word_word w : one_word w -> word w.
Proof. intros [H1 H2]. split; [exact H1|]. revert H2. apply all_impl. tauto. Qed.
Lemma ok_spaces n : ok (repeat_char " " n).
Proof. apply all_repeat. split; discriminate. Qed.
Lemma blank_spaces n : blank (repeat_char " " n).
Proof. apply all_repeat. reflexivity. Qed.

(** ** Reading lines *)
Lemma readlines_nonempty s : s <> "" -> readlines s <> [].
Proof. destruct s as [|c s]; [congruence|]. intros _. simpl. destruct (Ascii.eqb c line_feed); [discriminate|]. destruct (readlines s); discriminate. Qed.
Lemma readlines_app a b : readlines (a ++ String line_feed b) = (readlines (a ++ nl) ++ readlines b)%list.
Proof.
  induction a as [|c a IH]; [reflexivity|]. cbn [append readlines]. destruct (Ascii.eqb c line_feed); [rewrite IH; reflexivity|]. rewrite IH.
  assert (N : readlines (a ++ nl) <> []) by (apply readlines_nonempty; destruct a; discriminate).
  destruct (readlines (a ++ nl)) as [|l t]; [congruence|reflexivity].
Qed.
Lemma readlines_one a : no_lf a -> a <> "" -> readlines a = [a].
Proof.
  induction a as [|c a IH]; [congruence|]. intros [H1 H2] _. cbn [readlines]. apply Ascii.eqb_neq in H1. rewrite H1.
  destruct a as [|d a]; [reflexivity|]. rewrite IH; [reflexivity|exact H2|discriminate].
Qed.
Lemma readlines_line a : no_lf a -> readlines (a ++ nl) = [a ++ nl].
Proof.
  induction a as [|c a IH]; [reflexivity|]. intros [H1 H2]. cbn [append readlines]. apply Ascii.eqb_neq in H1. rewrite H1. rewrite (IH H2). reflexivity.
Qed.
Lemma first_line s : no_lf s \/ exists a b, s = a ++ String line_feed b /\ no_lf a.
Proof.
  induction s as [|c s IH]; [left; exact I|]. destruct (ascii_dec c line_feed) as [->|H]; [right; exists "", s; split; [reflexivity|exact I]|].
  destruct IH as [IH|(a & b & -> & IH)]; [left; split; assumption|right; exists (String c a), b; repeat split; assumption].
Qed.

Lemma shows_more e t b : shows e t -> blank b -> shows (e ++ b) t.
Proof.
  intros (lead & trail & com & -> & Hl & Ht & Hc & Hh & Tt) Hb. destruct Hc as [->|[c ->]].
  - exists lead, (trail ++ b), "". rewrite !app_nil_r_s, !app_assoc_s. repeat split; auto; [apply blank_app; auto|left; reflexivity|apply Tt|apply Tt].
  - exists lead, trail, (String "#" c ++ b). rewrite !app_assoc_s. repeat split; auto; [right; exists (c ++ b); reflexivity|apply Tt|apply Tt].
Qed.
Lemma shows_fun l t t' : shows l t -> shows l t' -> t = t'.
Proof. rewrite !shows_iff. congruence. Qed.
Lemma blank_nl : blank nl.
Proof. split; [reflexivity|exact I]. Qed.

Lemma shows_same_fs a b ts : (forall t, shows a t -> shows b t) -> file_shows [a] ts -> file_shows [b] ts.
Proof.
  intros H F. inversion F as [|l ls ts' A B|l t ls ts' A N B]; subst; inversion B; subst; [apply fs_silent; [apply H, A|constructor]|apply fs_line; [apply H, A|exact N|constructor]].
Qed.
(** A line feed at the end of a file makes no difference. *)
Lemma end_of_file s : forall ts, file_shows (readlines (s ++ nl)) ts -> file_shows (readlines s) ts.
Proof.
  remember (String.length s) as n. assert (Hn : (String.length s <= n)%nat) by lia. clear Heqn. revert s Hn.
  induction n as [|n IH]; intros s Hn ts H.
  - destruct s; [|simpl in Hn; lia]. cbn in H. inversion H as [|l ls ts' A B|l t ls ts' A N B]; subst; [exact B|].
    assert (E : shows nl "") by (exists nl, "", ""; repeat split; try (left; reflexivity); try discriminate; intros c s' X; destruct s'; discriminate).
    rewrite (shows_fun _ _ _ A E) in N. congruence.
  - destruct (first_line s) as [F|(a & b & -> & F)].
    + rewrite (readlines_line s F) in H. destruct (string_dec s "") as [->|Ne]; [apply (IH ""); [simpl; lia|exact H]|].
      rewrite (readlines_one s F Ne). revert H. apply shows_same_fs. intros t A. apply shows_iff in A. apply shows_iff. rewrite <- A.
      symmetry. apply shows_iff. apply shows_more; [apply shows_iff; reflexivity|exact blank_nl].
    + rewrite app_assoc_s in H. cbn [append] in H. rewrite readlines_app in H |- *. apply file_shows_app in H. destruct H as (s1 & s2 & -> & H1 & H2).
      apply file_shows_app. exists s1, s2. split; [reflexivity|]. split; [exact H1|]. apply IH; [|exact H2].
      rewrite length_app_s in Hn. simpl in Hn. lia.
Qed.

(** ** The words of the lines of an entry *)
Definition entry (e : string) (wss : list (list string)) : Prop :=
  exists ts, file_shows (readlines (e ++ nl)) ts /\ map py_split ts = wss.
Lemma entry_join es wsss : Forall2 entry es wsss -> es <> [] -> entry (join nl es) (concat wsss).
Proof.
  induction 1 as [|e wss es wsss H1 H2 IH]; [congruence|]. intros _. destruct es as [|e' es].
  - inversion H2; subst. cbn [concat]. rewrite app_nil_r. exact H1.
  - destruct IH as (ts2 & A2 & B2); [discriminate|]. destruct H1 as (ts1 & A1 & B1). exists (ts1 ++ ts2)%list. split.
    + change (join nl (e :: e' :: es)) with (e ++ nl ++ join nl (e' :: es)). rewrite !app_assoc_s. cbn [append]. rewrite readlines_app.
      apply file_shows_app. exists ts1, ts2. auto.
    + rewrite map_app, B1, B2. reflexivity.
Qed.
Lemma entry_line body com ws : no_lf (body ++ com) -> no_hash body -> comment com -> py_split body = ws -> ws <> [] -> entry (body ++ com) [ws].
Proof.
  intros L H C E N. destruct (strip_spec body) as (lead & trail & Eb & Bl & Bt & T).
  assert (Hs : no_hash (py_strip body)). { rewrite Eb in H. apply no_hash_app in H. destruct H as [_ H]. apply no_hash_app in H. tauto. }
  assert (S : shows (body ++ com) (py_strip body)).
  { exists lead, trail, com. rewrite Eb at 1. rewrite !app_assoc_s. repeat split; auto; apply T. }
  assert (Es : py_split (py_strip body) = ws).
  { rewrite Eb in E at 1. rewrite (py_split_blank_app lead _ Bl), (py_split_app_blank _ trail Bt) in E. exact E. }
  exists [py_strip body]. split; [|cbn [map]; rewrite Es; reflexivity]. rewrite (readlines_line _ L). apply fs_line; [|intros X; rewrite X in Es; cbn in Es; congruence|constructor].
  apply shows_more; [exact S|exact blank_nl].
Qed.
Lemma entry_words body ws : ok body -> py_split body = ws -> ws <> [] -> entry body [ws].
Proof. intros O E N. rewrite <- (app_nil_r_s body). apply entry_line; [rewrite app_nil_r_s; apply ok_no_lf, O|apply ok_no_hash, O|left; reflexivity|exact E|exact N]. Qed.
Lemma entry_comment t : no_lf t -> entry (String "#" t) [].
Proof.
  intros L. exists []. split; [|reflexivity]. rewrite (readlines_line (String "#" t)) by (split; [discriminate|exact L]).
  apply fs_silent; [|constructor]. apply (shows_hash (t ++ nl)).
Qed.

(** ** Items of a line *)
Definition item_of (e w : string) : Prop := py_split e = [w] /\ ok e.
Lemma item_word w : one_word w -> item_of w w.
Proof. intros H. split; [apply py_split_word, one_word_word, H|apply one_word_ok, H]. Qed.
Lemma item_left n w : one_word w -> item_of (pad_left n w) w.
Proof.
  intros H. unfold pad_left. split; [rewrite py_split_blank_app by apply blank_spaces; apply item_word, H|].
  apply all_app. split; [apply ok_spaces|apply one_word_ok, H].
Qed.
Lemma item_right n w : one_word w -> item_of (pad_right n w) w.
Proof.
  intros H. unfold pad_right. split; [rewrite py_split_app_blank by apply blank_spaces; apply item_word, H|].
  apply all_app. split; [apply one_word_ok, H|apply ok_spaces].
Qed.
Lemma split_join l : py_split (join " " l) = flat_map py_split l.
Proof.
  induction l as [|x l IH]; [reflexivity|]. destruct l as [|y l]; [cbn; rewrite app_nil_r; reflexivity|].
  change (join " " (x :: y :: l)) with (x ++ String " " (join " " (y :: l))). rewrite py_split_app_space by reflexivity. rewrite IH. reflexivity.
Qed.
Lemma items_split es ws : Forall2 item_of es ws -> py_split (join " " es) = ws /\ ok (join " " es).
Proof.
  intros H. split.
  - rewrite split_join. induction H as [|e w es ws [E _] _ IH]; [reflexivity|]. cbn [flat_map]. rewrite E, IH. reflexivity.
  - apply all_concat; [repeat split; discriminate|]. clear -H. induction H as [|e w es ws [_ O] _ IH]; constructor; auto.
Qed.
Lemma entry_items es ws : Forall2 item_of es ws -> ws <> [] -> entry (join " " es) [ws].
Proof. intros H N. destruct (items_split es ws H) as [E O]. apply entry_words; assumption. Qed.
Lemma join_snoc es x : es <> [] -> join " " (es ++ [x]) = join " " es ++ String " " x.
Proof.
  induction es as [|e es IH]; [congruence|]. intros _. destruct es as [|e' es]; [reflexivity|].
  change (join " " ((e :: e' :: es) ++ [x])) with (e ++ String " " (join " " ((e' :: es) ++ [x]))). rewrite IH by discriminate.
  change (join " " (e :: e' :: es)) with (e ++ String " " (join " " (e' :: es))). rewrite app_assoc_s. reflexivity.
Qed.
Lemma entry_items_comment es ws t : Forall2 item_of es ws -> ws <> [] -> no_lf t -> entry (join " " (es ++ [String "#" t])) [ws].
Proof.
  intros H N L. destruct (items_split es ws H) as [E O]. assert (Ne : es <> []) by (destruct H; [congruence|discriminate]).
  rewrite (join_snoc es _ Ne). change (String " " (String "#" t)) with (" " ++ String "#" t). rewrite <- app_assoc_s.
  apply entry_line; [| |right; exists t; reflexivity| |exact N].
  - apply all_app. split; [apply all_app; split; [apply ok_no_lf, O|repeat split; discriminate]|split; [discriminate|exact L]].
  - apply no_hash_app. split; [apply ok_no_hash, O|repeat split; discriminate].
  - rewrite py_split_app_blank; [exact E|repeat split].
Qed.

(** ** Words that begin a line *)
(** Neither a separator nor a part of one. *)
Definition solid (w : string) : Prop :=
  match w with
  | String c t => c <> "="%char /\ (c <> "-"%char \/ match t with String d _ => d <> "-"%char | EmptyString => False end)
  | EmptyString => False
  end.
Lemma begins l w ws : tight l -> py_split l = w :: ws -> exists r, l = w ++ r /\ match r with String c _ => is_space c = true | EmptyString => True end.
Proof.
  intros T E. unfold py_split in E. assert (Hn : l <> "") by (intros ->; discriminate).
  assert (G : forall s, exists r, s = fst (toks s) ++ r /\ match r with String c _ => is_space c = true | EmptyString => True end).
  { induction s as [|c s IH]; [exists ""; auto|]. cbn [toks]. destruct (toks s) as [u us] eqn:Et. cbn [fst] in IH. destruct (is_space c) eqn:Ec; cbn [fst].
    - exists (String c s). split; [reflexivity|exact Ec].
    - destruct IH as (r & E1 & E2). exists r. split; [simpl; rewrite <- E1; reflexivity|exact E2]. }
  destruct (G l) as (r & E1 & E2). destruct (toks l) as [u us] eqn:Et. cbn [fst] in E1. destruct (emptyb u) eqn:Eu.
  - apply emptyb_spec in Eu. subst u. exfalso. destruct l as [|c l]; [congruence|]. cbn [toks] in Et. destruct (toks l) as [u' us'] eqn:Et'.
    destruct (is_space c) eqn:Ec; [|inversion Et]. destruct T as [T _]. rewrite (T c l eq_refl) in Ec. discriminate.
  - inversion E; subst. eauto.
Qed.
Lemma count_lt c d s : In d (list_ascii_of_string s) -> d <> c -> (py_count c s < String.length s)%nat.
Proof.
  induction s as [|x s IH]; [contradiction|]. intros [->|I] N; cbn [py_count String.length].
  - apply Ascii.eqb_neq in N. rewrite N. pose proof (count_le c s). lia.
  - specialize (IH I N). destruct (Ascii.eqb x c); lia.
Qed.
Lemma not_short l c d : tight l -> In d (list_ascii_of_string l) -> d <> c -> verify_short_separator l c = false.
Proof.
  intros T I N. unfold verify_short_separator. rewrite (strip_tight l T). pose proof (count_lt c d l I N).
  replace (String.length l =? py_count c l)%nat with false by (symmetry; apply Nat.eqb_neq; lia). apply andb_false_r.
Qed.
Lemma solid_line l w ws : tight l -> py_split l = w :: ws -> solid w ->
  ~ separator l /\ ~ dash_separator l /\ short_equal l = false /\ short_dash l = false.
Proof.
  intros T E S. destruct (begins l w ws T E) as (r & -> & Hr). destruct w as [|c t]; [contradiction|]. destruct S as [S1 S2].
  split; [|split; [|split]].
  - intros (n & s & Hn & X). destruct n; [lia|]. cbn in X. injection X as X _. congruence.
  - intros (n & s & Hn & X). destruct n as [|[|n]]; [lia|lia|]. cbn in X. injection X as X1 X2. destruct S2 as [S2|S2]; [congruence|].
    destruct t as [|d t]; [contradiction|]. cbn in X2. injection X2 as X2 _. congruence.
  - apply (not_short _ _ c T); [left; reflexivity|exact S1].
  - destruct S2 as [S2|S2]; [apply (not_short _ _ c T); [left; reflexivity|exact S2]|]. destruct t as [|d t]; [contradiction|].
    apply (not_short _ _ d T); [right; left; reflexivity|exact S2].
Qed.

(** ** Sections *)
Definition sep_words : list string := [SEPARATOR].
Definition sub_words : list string := [SUBSEPARATOR].
Lemma sep_line l : tight l -> py_split l = sep_words -> separator l.
Proof. intros T E. rewrite (single_word l _ T E). exists 80%nat, "". split; [lia|]. rewrite app_nil_r_s. reflexivity. Qed.
Lemma sub_line l : tight l -> py_split l = sub_words -> l = SUBSEPARATOR.
Proof. intros T E. apply (single_word l _ T E). Qed.
Lemma sub_is_dash : dash_separator SUBSEPARATOR.
Proof. exists 80%nat, "". split; [lia|]. rewrite app_nil_r_s. reflexivity. Qed.
Definition headed (ws : list string) : Prop := match ws with w :: _ => solid w \/ ws = sub_words | [] => False end.
Lemma headed_line l ws : tight l -> py_split l = ws -> headed ws -> ~ separator l /\ short_equal l = false.
Proof.
  intros T E H. destruct ws as [|w ws]; [contradiction|]. destruct H as [H|H].
  - destruct (solid_line l w ws T E H) as (A & _ & B & _). auto.
  - rewrite H in E. rewrite (sub_line l T E). split; [|reflexivity]. intros (n & s & Hn & X). destruct n; [lia|]. cbn in X. discriminate.
Qed.
Lemma laid_out_words wsecs : Forall (fun s => s <> [] /\ Forall headed s) wsecs -> forall ts, Forall clean ts ->
  map py_split ts = flat_map (fun s => s ++ [sep_words])%list wsecs ->
  exists secs, laid_out secs ts /\ map (map py_split) secs = wsecs.
Proof.
  induction 1 as [|s wsecs [N H] Hs IH]; intros ts C E.
  - cbn in E. apply map_eq_nil in E. subst. exists []. split; [constructor|reflexivity].
  - cbn [flat_map] in E. apply map_eq_app in E. destruct E as (t1 & t2 & -> & E1 & E2). apply map_eq_app in E1. destruct E1 as (s1 & l1 & -> & Es & El).
    destruct l1 as [|l [|]]; try discriminate. inversion El as [El']. apply Forall_app in C. destruct C as [C1 C2]. apply Forall_app in C1. destruct C1 as [C1 Cl].
    destruct (IH t2 C2 E2) as (secs & L & M). exists (s1 :: secs). split; [|cbn; rewrite Es, M; reflexivity].
    rewrite <- app_assoc. cbn [app]. apply lo_cons; [intros ->; cbn in Es; congruence| | |exact L].
    + rewrite Forall_forall in *. intros x I. specialize (C1 x I). destruct (headed_line x (py_split x) (proj1 C1) eq_refl) as [A _]; [|exact A].
      apply H. rewrite <- Es. apply in_map. exact I.
    + inversion Cl as [|? ? [T _] _]; subst. apply sep_line; [exact T|exact El'].
Qed.
