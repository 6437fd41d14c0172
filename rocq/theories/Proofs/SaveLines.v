(** The lines of a text read in text mode. *)
From Coq Require Import String Ascii List Bool Arith Lia.
From Verif.Base Require Import PyString PyText.
From Verif.Model Require Import SaveFiltered.
From Verif.Spec Require Import TxtSpec SaveFilteredSpec.
Import ListNotations.
Local Open Scope string_scope.

Lemma universal_app l s : unbroken l -> universal (l ++ s) = l ++ universal s.
Proof.
  induction l as [|c l IH]; [reflexivity|]. intros [[_ N] H]. cbn [append universal]. destruct (Ascii.eqb_spec c CR) as [->|_]; [destruct N; reflexivity|]. f_equal. apply IH, H.
Qed.
Lemma lines_app l s : unbroken l -> lines_of (l ++ String LF s) = (l ++ String LF "") :: lines_of s.
Proof.
  induction l as [|c l IH]; [reflexivity|]. intros [[N _] H]. cbn [append lines_of]. destruct (Ascii.eqb_spec c LF) as [->|_]; [destruct N; reflexivity|]. rewrite (IH H). reflexivity.
Qed.
Lemma lines_one l : unbroken l -> l <> "" -> lines_of l = [l].
Proof.
  induction l as [|c l IH]; [congruence|]. intros [[N _] H] _. cbn [lines_of]. destruct (Ascii.eqb_spec c LF) as [->|_]; [destruct N; reflexivity|].
  destruct l as [|d l]; [reflexivity|]. rewrite IH; [reflexivity|exact H|discriminate].
Qed.
Lemma app_nil s : s ++ "" = s.
Proof. induction s as [|c s IH]; cbn; [reflexivity|now rewrite IH]. Qed.

Lemma lines_unique text ls : text_lines text ls -> readlines text = ls.
Proof.
  unfold readlines. induction 1 as [|l N H|l rest ls H T IH|l rest ls H T IH|l rest ls H F T IH].
  - reflexivity.
  - rewrite <- (app_nil l) at 1. rewrite universal_app by exact H. cbn [universal]. rewrite app_nil. apply lines_one; assumption.
  - rewrite universal_app by exact H. change (universal (String "010" rest)) with (String LF (universal rest)). rewrite lines_app, IH by exact H. reflexivity.
  - rewrite universal_app by exact H. change (universal (String "013" (String "010" rest))) with (String LF (universal rest)). rewrite lines_app, IH by exact H. reflexivity.
  - rewrite universal_app by exact H. replace (universal (String "013" rest)) with (String LF (universal rest)).
    + rewrite lines_app, IH by exact H. reflexivity.
    + destruct rest as [|d t]; [reflexivity|]. change (universal (String "013" (String d t))) with (String LF (if Ascii.eqb d LF then universal t else universal (String d t))).
      destruct (Ascii.eqb_spec d LF) as [->|_]; [destruct (F t eq_refl)|reflexivity].
Qed.

Lemma first_break t : unbroken t \/ exists l c rest, t = l ++ String c rest /\ unbroken l /\ (c = "010"%char \/ c = "013"%char).
Proof.
  induction t as [|c t IH]; [left; exact I|]. destruct (ascii_dec c "010") as [->|N1]; [right; exists "", "010"%char, t; repeat split; auto|].
  destruct (ascii_dec c "013") as [->|N2]; [right; exists "", "013"%char, t; repeat split; auto|].
  destruct IH as [U|(l & d & rest & -> & U & D)]; [left; split; auto|]. right. exists (String c l), d, rest. repeat split; auto.
Qed.
Lemma length_break l c rest : (String.length rest < String.length (l ++ String c rest))%nat.
Proof. induction l; cbn; lia. Qed.
Lemma lines_exist text : text_lines text (readlines text).
Proof.
  enough (G : exists ls, text_lines text ls) by (destruct G as [ls G]; rewrite (lines_unique _ _ G); exact G).
  remember (String.length text) as n eqn:E. revert text E. induction n as [n IH] using lt_wf_ind. intros text ->.
  destruct (first_break text) as [U|(l & c & rest & -> & U & D)].
  - destruct text as [|c t]; [exists []; constructor|]. eexists. apply tl_last; [discriminate|exact U].
  - assert (L := length_break l c rest). destruct D as [->| ->].
    + destruct (IH _ L rest eq_refl) as [ls T]. eexists. apply tl_lf; eassumption.
    + assert (X : (exists t, rest = String "010" t) \/ forall t, rest <> String "010" t).
      { destruct rest as [|d t]; [right; discriminate|]. destruct (ascii_dec d "010") as [->|N]; [left; eauto|right; congruence]. }
      destruct X as [[t ->]|F].
      * assert (L2 : (String.length t < String.length (l ++ String "013" (String "010" t)))%nat) by (cbn in L; lia). destruct (IH _ L2 t eq_refl) as [ls T]. eexists. apply tl_crlf; eassumption.
      * destruct (IH _ L rest eq_refl) as [ls T]. eexists. apply tl_cr; eassumption.
Qed.
Lemma lines_spec : forall text ls, text_lines text ls <-> readlines text = ls.
Proof. intros text ls. split; [apply lines_unique|intros <-; apply lines_exist]. Qed.

Lemma dir_some p d : dir_of p = Some d -> directory p d.
Proof.
  revert d. induction p as [|c p IH]; [discriminate|]. intros d. cbn [dir_of]. destruct (dir_of p) as [e|] eqn:E.
  - intros H. injection H as <-. destruct (IH e eq_refl) as (name & -> & N). exists name. auto.
  - destruct (Ascii.eqb_spec c "/") as [->|_]; [|discriminate]. intros H. injection H as <-. exists p. split; [reflexivity|].
    clear IH. induction p as [|c p IH]; [exact I|]. cbn [dir_of] in E. destruct (dir_of p); [discriminate|]. destruct (Ascii.eqb_spec c "/"); [discriminate|]. split; auto.
Qed.
Lemma dir_none p : dir_of p = None <-> all_chars (fun c => c <> "/"%char) p.
Proof.
  induction p as [|c p IH]; [split; [intros; exact I|reflexivity]|]. cbn [dir_of all_chars]. destruct (dir_of p) as [e|].
  - split; [discriminate|]. intros [_ H]. apply IH in H. discriminate.
  - destruct (Ascii.eqb_spec c "/") as [->|N]; split; intros H; try discriminate; [destruct H as [H _]; congruence|split; [exact N|apply IH; reflexivity]|reflexivity].
Qed.
Lemma dir_last d name : all_chars (fun c => c <> "/"%char) name -> dir_of (d ++ String "/" name) = Some d.
Proof.
  intros H. induction d as [|c d IH]; cbn [append dir_of].
  - apply dir_none in H. rewrite H. reflexivity.
  - rewrite IH. reflexivity.
Qed.
Lemma dir_spec : forall p d, dir_of p = Some d <-> directory p d.
Proof. intros p d. split; [apply dir_some|]. intros (name & -> & H). apply dir_last, H. Qed.

(** Where a file can be written, without reference to [dir_of]. *)
Lemma writable_spec (d : disk) (p : string) : can_write d p = true <-> is_dir d p = false /\ forall r, directory p r -> r = "" \/ is_dir d r = true.
Proof.
  unfold can_write, dir_exists. rewrite andb_true_iff, negb_true_iff. split.
  - intros [A B]. split; [exact B|]. intros r D. apply dir_spec in D. rewrite D in A. destruct r; [left; reflexivity|right; exact A].
  - intros [B A]. split; [|exact B]. destruct (dir_of p) as [r|] eqn:D; [|reflexivity]. apply dir_spec in D. destruct (A r D) as [->|H]; [reflexivity|]. destruct r; [reflexivity|exact H].
Qed.
