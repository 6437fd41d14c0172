(** Format detection. *)
From Coq Require Import String Ascii List Arith Lia.
From Verif.Base Require Import PyString PyText.
From Verif.Model Require Import Hamiltonian Dispatch.
From Verif.Spec Require Import DispatchSpec.
Local Open Scope string_scope.

Lemma suffix_spec p s : ends_with p s = true <-> suffix p s.
Proof.
  split.
  - induction s as [|c s IH]; cbn [ends_with]; destruct (string_dec p _) as [->|N]; try discriminate.
    + intros _. exists "". reflexivity.
    + intros _. exists "". reflexivity.
    + intros H. destruct (IH H) as [q ->]. exists (String c q). reflexivity.
  - intros [q ->]. induction q as [|c q IH]; cbn [append].
    + destruct p; cbn [ends_with]; match goal with |- (if ?d then _ else _) = _ => destruct d; [reflexivity|congruence] end.
    + cbn [ends_with]. destruct (string_dec p _); [reflexivity|exact IH].
Qed.
Lemma suffixes_differ f : suffix ".hdf5" f -> ~ suffix "exchange.out" f.
Proof.
  assert (G : forall q (c : ascii), exists r, q ++ String c "" = r /\ forall q' c', r = q' ++ String c' "" -> c' = c).
  { induction q as [|a q IH]; intros c; eexists; (split; [reflexivity|]); intros q' c' H.
    - destruct q' as [|b q']; [inversion H; reflexivity|]. destruct q'; discriminate.
    - destruct q' as [|b q']; [destruct q; discriminate|]. cbn in H. inversion H. destruct (IH c) as (r & <- & Hr). eapply Hr; eauto. }
  intros [q Hq] [q' Hq']. subst f.
  assert (A : q ++ ".hdf5" = (q ++ ".hdf") ++ "5") by (clear; induction q; cbn; [reflexivity|f_equal; exact IHq]).
  assert (B : q' ++ "exchange.out" = (q' ++ "exchange.ou") ++ "t") by (clear; induction q'; cbn; [reflexivity|f_equal; exact IHq']).
  rewrite A, B in Hq'. destruct (G (q ++ ".hdf") "5"%char) as (r & Hr & U). rewrite <- Hr in U. pose proof (U _ _ Hq'). discriminate.
Qed.
Lemma keyword_inj f f' : keyword f = keyword f' -> f = f'.
Proof. destruct f, f'; auto; discriminate. Qed.
Lemma asks_fun n k f f' : asks_for n k f -> asks_for n k f' -> f = f'.
Proof.
  intros H H'; inversion H; subst; inversion H'; subst; auto; try contradiction; try (exfalso; eapply suffixes_differ; eauto; fail).
  apply keyword_inj. congruence.
Qed.

Section Dispatch.
Context {A : Type}.
Variables Ltxt Lhdf5 Ltb2j : string -> io A.
Definition loader (f : file_format) : string -> io A := match f with FTxt => Ltxt | FHdf5 => Lhdf5 | FTb2j => Ltb2j end.

Lemma dispatch n k f : asks_for n k f -> load_spinham Ltxt Lhdf5 Ltb2j n k = loader f n.
Proof.
  intros H; inversion H; subst; unfold load_spinham.
  - rewrite H0. destruct f; reflexivity.
  - apply suffix_spec in H0. rewrite H0. reflexivity.
  - destruct (ends_with ".hdf5" n) eqn:E; [exfalso; apply suffix_spec in E; eapply suffixes_differ; eauto|]. apply suffix_spec in H0. rewrite H0. reflexivity.
  - destruct (ends_with ".hdf5" n) eqn:E; [apply suffix_spec in E; contradiction|]. destruct (ends_with "exchange.out" n) eqn:E'; [apply suffix_spec in E'; contradiction|]. reflexivity.
Qed.
Lemma dispatch_refuses n k t : (forall f, ~ asks_for n k f) -> load_spinham Ltxt Lhdf5 Ltb2j n k t = (t, Raise ValueError).
Proof.
  intros H. unfold load_spinham. destruct k as [k|].
  - destruct (string_dec (str_lower k) "txt") as [E|]; [destruct (H FTxt); constructor; exact E|].
    destruct (string_dec (str_lower k) "hdf5") as [E|]; [destruct (H FHdf5); constructor; exact E|].
    destruct (string_dec (str_lower k) "tb2j") as [E|]; [destruct (H FTb2j); constructor; exact E|]. reflexivity.
  - exfalso. destruct (ends_with ".hdf5" n) eqn:E; [apply suffix_spec in E; apply (H FHdf5), af_hdf5, E|].
    destruct (ends_with "exchange.out" n) eqn:E'; [apply suffix_spec in E'; apply (H FTb2j), af_tb2j, E'|].
    apply (H FTxt), af_txt; intros S; apply suffix_spec in S; congruence.
Qed.
End Dispatch.

Lemma dispatch_cases : asks_for "runs/exchange.out" None FTb2j /\ asks_for "model.hdf5" (Some "TXT") FTxt
  /\ asks_for "model.HDF5" None FTxt /\ (forall f, ~ asks_for "model.txt" (Some "vampire") f).
Proof.
  split; [apply af_tb2j; exists "runs/"; reflexivity|]. split; [apply af_given; reflexivity|]. split.
  - apply af_txt; intros S; apply suffix_spec in S; discriminate.
  - intros f H; inversion H; subst. destruct f; discriminate.
Qed.
