(** Blocks between separators; the lines of a file with their numbers. *)
From Coq Require Import String Ascii List Bool ZArith Arith Lia Sorted.
From Verif.Base Require Import Scalar Linear3 PyDict PyString PyText.
From Verif.Spec Require Import TxtSpec TxtFormat VerifyLogSpec.
From Verif.Model Require Import MatrixParam Hamiltonian TxtVerify TxtRead VerifyLog.
From Verif.Proofs Require Import TextBasics SectionProofs TxtReadProofs TextGlue LogAdequate.
Import ListNotations.
Local Open Scope string_scope.

Lemma cut_incl sep short ls bs : cut sep short ls bs -> forall b l, In b bs -> In l b -> In l ls.
Proof.
  induction 1; intros b l' Hb Hl.
  - destruct Hb.
  - right. eauto.
  - destruct Hb as [<-|[]]. exact Hl.
  - apply in_or_app. destruct Hb as [<-|Hb]; [left; exact Hl|right; right; eauto].
Qed.
Lemma cut_nonempty sep short ls bs : cut sep short ls bs -> forall b, In b bs -> exists l r, b = l :: r.
Proof.
  induction 1; intros b Hb; eauto.
  - destruct Hb.
  - destruct Hb as [<-|[]]; eauto.
  - destruct Hb as [<-|Hb]; eauto.
Qed.

Section Blocks.
Variable sepb shortb : string -> bool.
Variable sep short : string -> Prop.
Definition B (L : list (list line)) := filter nonempty (map (drop_while (fun l : line => shortb (fst l))) L).
Lemma runs_split ls : forall cur rest, line_runs sepb ls = (cur, rest) ->
  Forall (fun l => sepb (fst l) = false) cur /\
  ((ls = cur /\ rest = []) \/ exists x ls', ls = (cur ++ x :: ls')%list /\ sepb (fst x) = true /\ B rest = line_blocks sepb shortb ls').
Proof.
  induction ls as [|l t IH]; intros cur rest H; cbn [line_runs] in H.
  - inversion H; subst. split; [constructor|]. left. auto.
  - destruct (line_runs sepb t) as [cur' rest'] eqn:E. specialize (IH _ _ eq_refl). destruct (sepb (fst l)) eqn:Es; inversion H; subst.
    + split; [constructor|]. right. exists l, t. split; [reflexivity|]. split; [exact Es|]. unfold line_blocks. rewrite E. reflexivity.
    + destruct IH as [Hc [[-> ->]|(x & ls' & -> & Hx & HB)]].
      * split; [constructor; assumption|]. left. auto.
      * split; [constructor; assumption|]. right. exists x, ls'. auto.
Qed.
Lemma blocks_cut n : forall ls, (List.length ls <= n)%nat ->
  (forall l, In l ls -> (sepb (fst l) = true <-> sep (fst l)) /\ (shortb (fst l) = true <-> short (fst l))) ->
  cut sep short ls (line_blocks sepb shortb ls).
Proof.
  induction n as [|n IH]; intros ls Hn Hd; [destruct ls; [constructor|simpl in Hn; lia]|].
  destruct ls as [|l t]; [constructor|]. simpl in Hn. assert (Ht : cut sep short t (line_blocks sepb shortb t)) by (apply IH; [lia|intros; apply Hd; right; assumption]).
  destruct (Hd l (or_introl eq_refl)) as [D1 D2]. unfold line_blocks in *. cbn [line_runs]. destruct (line_runs sepb t) as [cur rest] eqn:E.
  destruct (sepb (fst l)) eqn:Es.
  - apply cut_skip; [left; apply D1; reflexivity|]. exact Ht.
  - cbn [map drop_while]. destruct (shortb (fst l)) eqn:Eh.
    + apply cut_skip; [right; apply D2; reflexivity|]. destruct cur as [|c cur]; [|exact Ht]. cbn [drop_while map filter nonempty]. exact Ht.
    + cbn [filter nonempty]. destruct (runs_split t cur rest E) as [Hc [[Et ->]|(x & t' & Et & Hx & HB)]]; subst t.
      * apply cut_last; [intros H; apply D2 in H; discriminate|]. constructor; [intros H; apply D1 in H; discriminate|].
        rewrite Forall_forall in *. intros y Hy Hsy. specialize (Hc y Hy). destruct (Hd y (or_intror Hy)) as [Dy _]. apply Dy in Hsy. congruence.
      * change (l :: cur ++ x :: t')%list with ((l :: cur) ++ x :: t')%list. apply cut_cons; [intros H; apply D2 in H; discriminate| | |].
        -- constructor; [intros H; apply D1 in H; discriminate|]. rewrite Forall_forall in *. intros y Hy Hsy. specialize (Hc y Hy).
           destruct (Hd y (or_intror (in_or_app _ _ _ (or_introl Hy)))) as [Dy _]. apply Dy in Hsy. congruence.
        -- destruct (Hd x) as [Dx _]; [right; apply in_or_app; right; left; reflexivity|]. apply Dx. exact Hx.
        -- enough (H : cut sep short t' (B rest)) by exact H. rewrite HB. apply IH.
           ++ rewrite app_length in Hn. cbn [List.length] in Hn. unfold line in *. lia.
           ++ intros y Hy. apply Hd. right. apply in_or_app. right. right. exact Hy.
Qed.
End Blocks.

Lemma just_spec c l : tight l -> is_space c = false -> (verify_short_separator l c = true <-> just c l).
Proof.
  intros Ht Hc. unfold verify_short_separator. rewrite (strip_tight l Ht). split.
  - intros H. apply andb_prop in H. destruct H as [H1 H2]. apply Nat.ltb_lt in H1. apply Nat.eqb_eq in H2. exists (String.length l). split; [exact H1|]. apply count_all. exact H2.
  - intros (n & Hn & ->). assert (E : forall n, String.length (repeat_char c n) = n /\ py_count c (repeat_char c n) = n).
    { clear. induction n as [|n [IH1 IH2]]; [split; reflexivity|]. cbn [repeat_char String.length py_count]. rewrite Ascii.eqb_refl. lia. }
    destruct (E n) as [-> ->]. rewrite Nat.eqb_refl, andb_true_r. apply Nat.ltb_lt. exact Hn.
Qed.
Lemma just_count c l : tight l -> is_space c = false -> verify_short_separator l c = true ->
  (py_count c l < 10)%nat /\ l = repeat_char c (py_count c l).
Proof.
  intros Ht Hc H. unfold verify_short_separator in H. rewrite (strip_tight l Ht) in H. apply andb_prop in H. destruct H as [H1 H2]. apply Nat.ltb_lt in H1. apply Nat.eqb_eq in H2.
  split; [lia|]. rewrite <- H2. apply count_all. exact H2.
Qed.

(** The lines of a file. *)
Definition kept (content : list string) : list line := let '(ls, ns) := filter_lines 0 content in combine ls ns.
Lemma kept_numbered content : numbered content (kept content) /\ map fst (kept content) = fst (filter_lines 0 content)
  /\ (forall t n, In (t, n) (kept content) -> tight t /\ t <> "").
Proof.
  unfold kept. destruct (filter_lines 0 content) as [ls ns] eqn:E. destruct (filter_numbers content 0 ls ns E) as (Hl & Hs & _ & Hi).
  assert (C : forall (l : list string) (m : list nat) t n, In (t, n) (combine l m) <-> In (n, t) (combine m l)).
  { induction l as [|x l IH]; intros [|y m] t n; simpl; try tauto. rewrite IH. split; (intros [H|H]; [left; inversion H; reflexivity|right; exact H]). }
  assert (F1 : forall (l : list string) (m : list nat), List.length l = List.length m -> map fst (combine l m) = l /\ map snd (combine l m) = m).
  { induction l as [|x l IH]; intros [|y m] H; simpl in H; try discriminate; [split; reflexivity|]. injection H as H. destruct (IH m H) as [A1 A2]. simpl. rewrite A1, A2. auto. }
  destruct (F1 ls ns Hl) as [A1 A2]. split; [|split; [exact A1|]].
  - split; [rewrite A2; exact Hs|]. intros n t. rewrite C, Hi. unfold stands. replace (n - 0 - 1)%nat with (n - 1)%nat by lia. split; intros [H1 H2]; (split; [lia|exact H2]).
  - intros t n H. rewrite C, Hi in H. destruct H as (_ & l & _ & Hsh & Hn). split; [|exact Hn]. destruct Hsh as (a & b & c & _ & _ & _ & _ & _ & T). exact T.
Qed.
