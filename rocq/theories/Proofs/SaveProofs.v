(** The filtered copy shows the same texts as the file. *)
From Coq Require Import String Ascii List Bool Arith Lia.
From Verif.Base Require Import Scalar PyDict PyString PyText.
From Verif.Model Require Import Hamiltonian TxtVerify TxtRead SaveFiltered.
From Verif.Spec Require Import TxtSpec SaveFilteredSpec.
From Verif.Proofs Require Import TextBasics VerifyProofs LogSays.
Import ListNotations.
Local Open Scope string_scope.

Definition free (c : ascii) (s : string) : Prop := all_chars (fun a => a <> c) s.
Lemma free_app c a b : free c (a ++ b) <-> free c a /\ free c b.
Proof. unfold free. induction a; simpl; tauto. Qed.
Lemma universal_free s : free CR (universal s).
Proof.
  assert (G : forall n s, (String.length s <= n)%nat -> free CR (universal s)).
  { induction n; intros [|c t] H; try exact I; [cbn in H; lia|]. cbn [universal]. cbn in H. destruct (Ascii.eqb_spec c CR) as [->|N].
    - split; [discriminate|]. destruct t as [|d t']; [exact I|]. cbn in H. destruct (Ascii.eqb d LF); apply IHn; cbn; lia.
    - split; [exact N|]. apply IHn. lia. }
  apply (G (String.length s)). lia.
Qed.
(** A line has a line break at most at its end. *)
Definition one_break (l : string) : Prop := forall a b, l = a ++ String LF b -> b = "".
Lemma lines_break s : Forall one_break (lines_of s).
Proof.
  induction s as [|c t IH]; cbn [lines_of]; [constructor|]. destruct (Ascii.eqb_spec c LF) as [->|N].
  - constructor; [|exact IH]. intros [|x a] b H; [inversion H; reflexivity|]. inversion H. destruct a; discriminate.
  - destruct (lines_of t) as [|l ls]; (constructor; [|try constructor]).
    + intros [|x a] b H; [inversion H; congruence|]. inversion H. destruct a; discriminate.
    + inversion IH as [|? ? Hl _]; subst. intros [|x a] b H; [inversion H; congruence|]. inversion H; subst. eapply Hl. reflexivity.
    + inversion IH; assumption.
Qed.
Lemma lines_free s : free CR s -> Forall (free CR) (lines_of s).
Proof.
  induction s as [|c t IH]; cbn [lines_of]; [constructor|]. intros [Hc Ht]. specialize (IH Ht). destruct (Ascii.eqb c LF); [constructor; [split; [discriminate|exact I]|exact IH]|].
  destruct (lines_of t) as [|l ls]; [constructor; [split; [exact Hc|exact I]|constructor]|]. inversion IH; subst. constructor; [split; assumption|assumption].
Qed.
Lemma split_char c s : free c s \/ exists a b, s = a ++ String c b.
Proof.
  induction s as [|d t [IH|(a & b & ->)]]; [left; exact I| |right; exists (String d a), b; reflexivity].
  destruct (ascii_dec d c) as [->|N]; [right; exists "", t; reflexivity|left; split; assumption].
Qed.
Lemma app_empty a b : a ++ b = "" -> a = "" /\ b = "".
Proof. destruct a; [auto|discriminate]. Qed.
Lemma shown_free l t : one_break l -> shows l t -> free LF t.
Proof.
  intros Hb (lead & trail & com & -> & _ & _ & _ & _ & Ht). destruct (split_char LF t) as [H|(a & b & ->)]; [exact H|exfalso].
  assert (E : b ++ trail ++ com = "") by (apply (Hb (lead ++ a)); rewrite !app_assoc_s; reflexivity).
  apply app_empty in E. destruct E as [-> _]. pose proof (proj2 Ht LF a eq_refl) as S. discriminate.
Qed.
Lemma shown_free_cr l t : free CR l -> shows l t -> free CR t.
Proof. intros Hf (lead & trail & com & -> & _ & _ & _ & _ & _). apply free_app in Hf. destruct Hf as [_ Hf]. apply free_app in Hf. tauto. Qed.
(** What the lines of a file show. *)
Definition good (t : string) : Prop := t <> "" /\ free LF t /\ free CR t /\ no_hash t /\ tight t.
Lemma shown_good ls ts : Forall one_break ls -> Forall (free CR) ls -> file_shows ls ts -> Forall good ts.
Proof.
  intros Hb Hf H. induction H as [|l ls ts Hs H IH|l t ls ts Hs Hn H IH]; [constructor| |]; inversion Hb; subst; inversion Hf; subst; auto.
  constructor; [|auto]. split; [exact Hn|]. split; [eapply shown_free; eassumption|]. split; [eapply shown_free_cr; eassumption|].
  destruct Hs as (? & ? & ? & _ & _ & _ & _ & N1 & N2). auto.
Qed.
(** ** Reading the copy *)
Lemma lines_one t : free LF t -> t <> "" -> lines_of t = [t].
Proof.
  induction t as [|c t IH]; [congruence|]. intros [Hc Ht] _. cbn [lines_of]. destruct (Ascii.eqb_spec c LF); [contradiction|].
  destruct t as [|d t]; [reflexivity|]. rewrite IH by (auto || discriminate). reflexivity.
Qed.
Lemma lines_first t s : free LF t -> lines_of (t ++ String LF s) = (t ++ String LF "") :: lines_of s.
Proof.
  induction t as [|c t IH]; [intros _; reflexivity|]. intros [Hc Ht]. cbn [append lines_of]. destruct (Ascii.eqb_spec c LF); [contradiction|]. rewrite IH by exact Ht. reflexivity.
Qed.
Lemma good_shows t : good t -> shows t t /\ shows (t ++ String LF "") t.
Proof.
  intros (_ & _ & _ & H1 & H2). split.
  - exists "", "", "". rewrite app_nil_s. repeat split; try exact I; auto; [left; reflexivity|apply H2|apply H2].
  - exists "", (String LF ""), "". repeat split; auto; try exact I; [left; reflexivity|apply H2|apply H2].
Qed.
Lemma copy_shows ts : Forall good ts -> file_shows (lines_of (copy_text ts)) ts.
Proof.
  unfold copy_text. induction ts as [|t ts IH]; intros H; [constructor|]. inversion H as [|? ? Ht Hts]; subst. specialize (IH Hts). destruct (good_shows t Ht) as [S1 S2]. pose proof Ht as (N & NL & _).
  destruct ts as [|u ts].
  - cbn [String.concat]. rewrite lines_one by assumption. constructor; [exact S1|exact N|constructor].
  - change (String.concat (String LF "") (t :: u :: ts)) with (t ++ String LF (String.concat (String LF "") (u :: ts))). rewrite lines_first by exact NL. constructor; assumption.
Qed.
Lemma copy_free ts : Forall good ts -> free CR (copy_text ts).
Proof.
  unfold copy_text. induction ts as [|t ts IH]; intros H; [exact I|]. inversion H as [|? ? Ht Hts]; subst. specialize (IH Hts). destruct Ht as (_ & _ & Hc & _).
  destruct ts as [|u ts]; [exact Hc|]. change (String.concat (String LF "") (t :: u :: ts)) with (t ++ String LF (String.concat (String LF "") (u :: ts))). apply free_app. split; [exact Hc|]. split; [discriminate|exact IH].
Qed.
Lemma universal_same s : free CR s -> universal s = s.
Proof. induction s as [|c t IH]; [reflexivity|]. intros [Hc Ht]. cbn [universal]. destruct (Ascii.eqb_spec c CR); [contradiction|]. rewrite IH by exact Ht. reflexivity. Qed.
Lemma read_back b s : line_break b -> free CR s -> universal (written b s) = s.
Proof.
  intros [-> | ->]; induction s as [|c t IH]; try reflexivity; intros [Hc Ht]; cbn [written]; destruct (Ascii.eqb_spec c LF) as [->|N]; cbn [append universal].
  - change (Ascii.eqb "010" CR) with false. cbv iota. rewrite IH by exact Ht. reflexivity.
  - destruct (Ascii.eqb_spec c CR); [contradiction|]. rewrite IH by exact Ht. reflexivity.
  - change (Ascii.eqb "013" CR) with true. change (Ascii.eqb "010" LF) with true. cbv iota. rewrite IH by exact Ht. reflexivity.
  - destruct (Ascii.eqb_spec c CR); [contradiction|]. rewrite IH by exact Ht. reflexivity.
Qed.
Lemma text_good text ts : file_shows (readlines text) ts -> Forall good ts.
Proof. intros H. eapply shown_good; [apply lines_break|apply lines_free, universal_free|exact H]. Qed.
Lemma copy_read b text ts : line_break b -> file_shows (readlines text) ts -> file_shows (readlines (written b (copy_text ts))) ts.
Proof. intros Hb H. apply text_good in H. unfold readlines. rewrite read_back; [apply copy_shows; exact H|exact Hb|apply copy_free; exact H]. Qed.
Lemma written_app b x y : written b (x ++ y) = written b x ++ written b y.
Proof. induction x as [|c x IH]; [reflexivity|]. cbn [append written]. rewrite IH. destruct (Ascii.eqb c LF); [rewrite app_assoc_s|]; reflexivity. Qed.
Lemma written_free b t : free LF t -> written b t = t.
Proof. induction t as [|c t IH]; [reflexivity|]. intros [Hc Ht]. cbn [written]. destruct (Ascii.eqb_spec c LF); [contradiction|]. rewrite IH by exact Ht. reflexivity. Qed.
Lemma copy_lines b ts : Forall good ts -> one_per_line b ts (written b (copy_text ts)).
Proof.
  unfold copy_text. induction ts as [|t ts IH]; intros H; [constructor|]. inversion H as [|? ? Ht Hts]; subst. specialize (IH Hts). destruct Ht as (_ & Hl & _).
  destruct ts as [|u ts]; [cbn [String.concat]; rewrite written_free by exact Hl; constructor|].
  change (String.concat (String LF "") (t :: u :: ts)) with (t ++ String LF (String.concat (String LF "") (u :: ts))). rewrite written_app, written_free by exact Hl. cbn [written]. rewrite Ascii.eqb_refl. constructor. exact IH.
Qed.
(** ** Paths *)
Lemma dir_app a p : dir_of (a ++ p) = match dir_of p with Some d => Some (a ++ d) | None => dir_of a end.
Proof. induction a as [|c a IH]; cbn [append dir_of]; [destruct (dir_of p); reflexivity|]. rewrite IH. destruct (dir_of p); reflexivity. Qed.
Lemma copy_dir f : dir_of (copy_name f) = option_map (fun d => "filtered_" ++ d) (dir_of f).
Proof. unfold copy_name. rewrite dir_app. destruct (dir_of f); reflexivity. Qed.
Lemma longer a (x : string) : String.length (a ++ x) = (String.length a + String.length x)%nat.
Proof. induction a; simpl; auto. Qed.
Lemma copy_other f : copy_name f <> f.
Proof. intros H. apply (f_equal String.length) in H. unfold copy_name in H. rewrite longer in H. cbn in H. lia. Qed.

(** ** The loader *)
Section Load.
Context {F : Type} {SF : Scalar F}.
Variable X : externals F.
Variable b : string.
Hypothesis Hb : line_break b.
Lemma load_plain d f text : dget (files d) f = Some text -> load_on X b d f false = (d, load_txt X (readlines text)).
Proof. intros H. unfold load_on, filter_file_on. rewrite H. reflexivity. Qed.
Lemma load_missing d f s : dget (files d) f = None -> load_on X b d f s = (d, Raise OSError).
Proof. intros H. unfold load_on. rewrite H. reflexivity. Qed.
Lemma same_shown c c' ts : file_shows c ts -> file_shows c' ts -> load_txt X c = load_txt X c'.
Proof.
  intros H H'. unfold load_txt, filter_txt_file. cbn [obind]. rewrite (filter_of _ _ H 0), (filter_of _ _ H' 0). reflexivity.
Qed.
Theorem saved d f text ts : dget (files d) f = Some text -> can_write d (copy_name f) = true -> file_shows (readlines text) ts ->
  exists d' copy, load_on X b d f true = (d', load_txt X (readlines text)) /\ dget (files d') (copy_name f) = Some copy /\ one_per_line b ts copy
    /\ load_on X b d' (copy_name f) false = (d', load_txt X (readlines text))
    /\ (forall p, p <> copy_name f -> dget (files d') p = dget (files d) p) /\ (forall p, is_dir d' p = is_dir d p).
Proof.
  intros H Hw Hs. eexists. exists (written b (copy_text ts)). split; [|split; [|split; [|split; [|split]]]].
  - unfold load_on, filter_file_on. rewrite H. cbn [filter_txt_file]. rewrite Hw. cbn [obind]. reflexivity.
  - cbn [files]. rewrite dget_dset_same, (filter_of _ _ Hs 0). reflexivity.
  - apply copy_lines. eapply text_good. exact Hs.
  - erewrite load_plain; [|cbn [files]; apply dget_dset_same]. f_equal. rewrite (filter_of _ _ Hs 0). eapply same_shown; [eapply copy_read; eassumption|exact Hs].
  - intros p Hp. cbn [files]. apply dget_dset_other. exact Hp.
  - reflexivity.
Qed.
Theorem unsaved d f text : dget (files d) f = Some text -> can_write d (copy_name f) = false -> load_on X b d f true = (d, Raise OSError).
Proof. intros H Hw. unfold load_on, filter_file_on. rewrite H. cbn [filter_txt_file]. rewrite Hw. reflexivity. Qed.
End Load.
