(** Statements about whole text files, put together from the lemmas on sections. *)
From Coq Require Import String Ascii List Bool ZArith Arith Lia Permutation Sorted.
From Verif.Base Require Import Scalar Linear3 PyDict PyString PyText.
From Verif.Spec Require Import TxtSpec TxtFormat.
From Verif.Model Require Import MatrixParam Hamiltonian TxtVerify TxtRead.
From Verif.Proofs Require Import HamBasics TextBasics SectionProofs TxtReadProofs.
Import ListNotations.
Local Open Scope string_scope.

Lemma count_le c l : (py_count c l <= String.length l)%nat.
Proof. induction l as [|a l IH]; simpl; [lia|]. destruct (Ascii.eqb a c); lia. Qed.
Lemma count_all c l : String.length l = py_count c l -> l = repeat_char c (String.length l).
Proof.
  induction l as [|a l IH]; simpl; intros E; [reflexivity|]. pose proof (count_le c l).
  destruct (Ascii.eqb_spec a c) as [->|Hn]; [|lia]. f_equal. apply IH. lia.
Qed.
Lemma strip_tight l : tight l -> py_strip l = l.
Proof.
  intros T. rewrite <- (app_nil_r_s l) at 1. apply (strip_of "" l ""); [exact I|exact I|exact T].
Qed.
Lemma short_equal_spec l : tight l -> ~ short_separator l -> short_equal l = false.
Proof.
  intros T Hn. unfold short_equal, verify_short_separator. rewrite (strip_tight l T).
  destruct (Nat.ltb_spec (String.length l) 10) as [Hl|Hl]; [|reflexivity]. simpl.
  destruct (Nat.eqb_spec (String.length l) (py_count "=" l)) as [E|E]; [|reflexivity].
  exfalso. apply Hn. exists (String.length l). split; [exact Hl|]. apply count_all. exact E.
Qed.

Lemma file_shows_clean f ts : file_shows f ts -> Forall clean ts.
Proof. induction 1; auto. constructor; auto. split; auto. destruct H as (a & b & c & H); tauto. Qed.
Lemma laid_out_clean secs ts : laid_out secs ts -> Forall clean ts -> Forall (Forall clean) secs.
Proof.
  induction 1; intros C; auto.
  - inversion C; auto.
  - apply Forall_app in C. destruct C as [C1 C2]. inversion C2; subst. constructor; auto.
Qed.
Lemma laid_out_nonempty secs ts : laid_out secs ts -> Forall (fun s => s <> []) secs.
Proof. induction 1; auto. Qed.

Section Whole.
Context {F : Type} {SF : Scalar F}.
Variable X : externals F.

Lemma order_irrelevant secs1 secs2 t1 t2 f1 f2 : file_shows f1 t1 -> file_shows f2 t2 ->
  laid_out secs1 t1 -> laid_out secs2 t2 -> Permutation secs1 secs2 ->
  Forall (fun s => ~ short_separator (hd "" s)) secs1 -> NoDup (map section_name secs1) ->
  load_txt X f1 = load_txt X f2 /\ (accepts X f1 <-> accepts X f2).
Proof.
  intros S1 S2 L1 L2 P Hs Hnd.
  assert (Hs' : Forall (fun s => short_equal (hd "" s) = false) secs1).
  { pose proof (laid_out_clean _ _ L1 (file_shows_clean _ _ S1)) as C. pose proof (laid_out_nonempty _ _ L1) as N.
    rewrite Forall_forall in *. intros s I. specialize (C s I). specialize (N s I). destruct s as [|l s]; [congruence|].
    inversion C as [|? ? [T _] _]; subst. apply short_equal_spec; [exact T|]. exact (Hs _ I). }
  split; [eapply load_perm; eassumption|].
  unfold accepts. rewrite (filter_of f1 t1 S1), (filter_of f2 t2 S2). cbn [fst].
  pose proof (verify_perm X true secs1 secs2 t1 t2 L1 L2 P Hs' Hnd) as V.
  destruct (verify_model_file _ _ _ true t1), (verify_model_file _ _ _ true t2); try contradiction; split; intros [? E]; try discriminate; eauto.
Qed.

Lemma comments_irrelevant f g : cosmetic f g -> load_txt X f = load_txt X g /\ (accepts X f <-> accepts X g).
Proof.
  intros H. split; [apply load_cosmetic; exact H|]. unfold accepts. rewrite (cosmetic_filter f g 0 0 H). tauto.
Qed.
End Whole.

Lemma filter_file content fs is : filter_txt_file (Some content) None = Ret (fs, is) ->
  List.length fs = List.length is /\ StronglySorted lt is
  /\ (forall i t, In (i, t) (combine is fs) <->
        (1 <= i)%nat /\ exists l, nth_error content (i - 1) = Some l /\ shows l t /\ t <> "").
Proof.
  intros E. simpl in E. inversion E as [E']. destruct (filter_numbers content 0 fs is E') as (L & S1 & _ & I).
  split; [exact L|]. split; [exact S1|]. intros i t. rewrite I. replace (i - 0 - 1)%nat with (i - 1)%nat by lia. tauto.
Qed.
