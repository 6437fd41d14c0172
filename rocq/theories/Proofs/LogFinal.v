(** Messages of the verifier: the file is accepted when there are none, each tells the truth and names a line. *)
From Coq Require Import String Ascii List Bool ZArith Arith Lia Sorted.
From Verif.Base Require Import Scalar Linear3 PyDict PyString PyText.
From Verif.Spec Require Import TxtSpec TxtFormat VerifyLogSpec.
From Verif.Model Require Import MatrixParam Hamiltonian TxtVerify TxtRead VerifyLog.
From Verif.Proofs Require Import TextBasics SectionProofs TxtReadProofs TextGlue VerifyProofs TotalProofs LogAdequate LogCut LogTruth LogTruth2.
Import ListNotations.
Local Open Scope string_scope.

Section Final.
Context {F : Type} {SF : Scalar F}.
Variable X : externals F.
Notation logged content := (messages (isfloat X) (isint X) (x_float X) content).

Lemma messages_kept content : logged content = map text (fst (log_file (isfloat X) (isint X) (x_float X) (kept content))).
Proof. unfold messages, kept. destruct (filter_lines 0 content). reflexivity. Qed.
Lemma kept_sections content : sections (kept content) (line_blocks is_sep short_equal (kept content)).
Proof.
  destruct (kept_numbered content) as (_ & _ & Hc). apply (blocks_cut is_sep short_equal separator (just "=") (List.length (kept content))); [apply Nat.le_refl|].
  intros [t n] Hl. cbn [fst]. split; [apply is_sep_spec|]. apply just_spec; [|reflexivity]. apply (Hc t n). exact Hl.
Qed.
Lemma kept_truth content log r : log_file (isfloat X) (isint X) (x_float X) (kept content) = (log, r) ->
  Forall (tells_truth X (kept content) (line_blocks is_sep short_equal (kept content))) log
  /\ match r with Ret e => e = nonempty log | Raise _ => nonempty log = true end.
Proof.
  destruct (kept_numbered content) as (_ & _ & Hc). intros H. eapply file_true; [exact Hc|apply kept_sections|reflexivity|exact H].
Qed.
Theorem reported content : accepts X content <-> logged content = [].
Proof.
  rewrite messages_kept. pose proof (snd_file (isfloat X) (isint X) (x_float X) (kept content)) as S. destruct (kept_numbered content) as (_ & Hf & _). rewrite Hf in S.
  destruct (log_file _ _ _ (kept content)) as [log r] eqn:E. cbn [fst snd] in *. destruct (kept_truth content log r E) as [_ T].
  unfold accepts, verify_model_file. destruct (verify_file _ _ _ (fst (filter_lines 0 content))) as [[found e]|x]; subst r.
  - subst e. destruct log as [|c log]; cbn [nonempty andb map]; (split; [try reflexivity; intros [? H]; discriminate|]); [eauto|discriminate].
  - split; [intros [? H]; discriminate|]. destruct log; [discriminate T|discriminate].
Qed.
Theorem truth content : exists L secs, numbered content L /\ sections L secs
  /\ forall m, In m (logged content) -> exists c, m = text c /\ tells_truth X L secs c.
Proof.
  exists (kept content), (line_blocks is_sep short_equal (kept content)). split; [apply kept_numbered|]. split; [apply kept_sections|].
  intros m. rewrite messages_kept. destruct (log_file _ _ _ (kept content)) as [log r] eqn:E. cbn [fst]. destruct (kept_truth content log r E) as [T _].
  rewrite in_map_iff. intros (c & <- & I). exists c. split; [reflexivity|]. rewrite Forall_forall in T. apply T. exact I.
Qed.

(** ** The line named *)
Lemma at_names n s : names_line (at_line n s) n.
Proof. exists ":"%char, (" " ++ s). split; [reflexivity|simpl; tauto]. Qed.
Lemma block_names n b s : names_line (at_block n b s) n.
Proof. exists ","%char, (" block " ++ dec b ++ ": " ++ s). split; [reflexivity|simpl; tauto]. Qed.
Lemma truth_line L secs c : sections L secs -> tells_truth X L secs c -> nameless (text c) \/ exists t n, names_line (text c) n /\ In (t, n) L.
Proof.
  intros Hs.
  assert (On : forall n P, on L n P -> names_line (text c) n -> exists t n, names_line (text c) n /\ In (t, n) L) by (intros n P (t & I & _) N; eauto).
  assert (Sec : forall s n, In s secs -> first_number s n -> exists t, In (t, n) L).
  { intros s n I (t & r & ->). exists t. apply (cut_incl _ _ _ _ Hs _ (t, n) I). left. reflexivity. }
  assert (Bond : forall b n, bond_block secs b -> first_number b n -> exists t, In (t, n) L).
  { intros b n Hb (t & r & ->). exists t. apply (proj1 (bond_incl L secs Hs _ Hb)). left. reflexivity. }
  assert (Heads : forall n P, heads secs n P -> exists t, In (t, n) L) by (intros n P (t & r & I & _); apply (Sec _ n I); exists t, r; reflexivity).
  destruct c; cbn [tells_truth text]; intros H; try (right; first [destruct H as [H _]; eapply On; [exact H|first [apply at_names|apply block_names]]
    |eapply On; [exact H|first [apply at_names|apply block_names]]
    |destruct H as [H _]; destruct (Heads _ _ H) as (t & I); exists t, n; split; [first [apply at_names|apply block_names]|exact I]]; fail).
  - destruct H.
  - right. destruct keyword; destruct H as [(t & I & _) _]; exists t, n; (split; [apply at_names|exact I]).
  - right. destruct H as (_ & _ & [H|H]); (eapply On; [exact H|apply block_names]).
  - right. destruct H as (_ & s & [I _] & Hf & _). destruct (Sec s n I Hf) as (t & J). exists t, n. split; [apply at_names|exact J].
  - right. destruct H as (_ & s & [I _] & Hf & _). destruct (Sec s n I Hf) as (t & J). exists t, n. split; [apply at_names|exact J].
  - right. destruct H as (_ & _ & H). eapply On; [exact H|apply at_names].
  - left. left. simpl. tauto.
  - left. right. eexists. reflexivity.
  - right. destruct H as (_ & _ & _ & H). eapply On; [exact H|apply block_names].
  - right. destruct H as (h & d & s & [I _] & (t & r & ->) & _). exists t, first. split; [|apply (cut_incl _ _ _ _ Hs _ (t, first) I); right; right; left; reflexivity].
    eexists "-"%char, _. split; [reflexivity|simpl; tauto].
  - right. destruct H as (s & p & t & v & q & t' & n' & k' & v' & c & [I _] & -> & _). exists t, n. split; [apply at_names|]. apply (cut_incl _ _ _ _ Hs _ (t, n) I). apply in_or_app. right. left. reflexivity.
  - right. destruct H as (s & [I _] & Hf & _). destruct (Sec s n I Hf) as (t & J). exists t, n. split; [apply at_names|exact J].
  - right. destruct H as (b & Hb & Hf & _). destruct (Bond b first Hb Hf) as (t & J). exists t, first. split; [apply at_names|exact J].
  - right. destruct H as (b & Hb & Hf & _). destruct (Bond b first Hb Hf) as (t & J). exists t, first. split; [apply at_names|exact J].
  - left. left. simpl. tauto.
  - right. destruct H as (s & [I _] & t & r & ->). exists t, n. split; [apply at_names|]. apply (cut_incl _ _ _ _ Hs _ (t, n) I). apply in_or_app. right. left. reflexivity.
  - left. left. simpl. tauto.
  - left. left. destruct H as [[-> | ->] _]; simpl; tauto.
Qed.
Theorem lines content m : In m (logged content) -> nameless m \/ exists n t, names_line m n /\ stands content n t.
Proof.
  destruct (truth content) as (L & secs & [_ Hn] & Hs & H). intros I. destruct (H m I) as (c & -> & T). destruct (truth_line L secs c Hs T) as [N|(t & n & N & J)]; [left; exact N|right].
  exists n, t. split; [exact N|]. apply Hn. exact J.
Qed.
End Final.
