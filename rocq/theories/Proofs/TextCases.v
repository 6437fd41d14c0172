(** Sample files meeting the hypotheses of the theorems on text files. *)
From Coq Require Import String Ascii List Bool ZArith Arith Lia Permutation QArith Qcanon.
From Verif.Base Require Import Scalar Linear3 QcLit PyDict PyString PyText.
From Verif.Spec Require Import TxtSpec TxtFormat.
From Verif.Model Require Import MatrixParam Hamiltonian TxtVerify TxtRead.
From Verif.Proofs Require Import TextBasics SectionProofs TextGlue TextWitness.
Import ListNotations.
Local Open Scope string_scope.

(** Deciding [shows], [file_shows] and [laid_out] by computation. *)
Lemma shows_by line t : py_strip (before "#" line) = t -> shows line t.
Proof. apply shows_iff. Qed.
Lemma file_shows_by f ts : fst (filter_lines 0 f) = ts -> file_shows f ts.
Proof. intros <-. apply filter_shows. Qed.
Fixpoint lay (secs : list (list string)) : bool :=
  match secs with [] => true | s :: t => nonempty s && forallb (fun l => negb (is_sep l)) s && lay t end.
Lemma laid_out_by secs : lay secs = true -> laid_out secs (join secs).
Proof.
  induction secs as [|s t IH]; simpl; intros H; [constructor|].
  apply andb_prop in H. destruct H as [H Ht]. apply andb_prop in H. destruct H as [Hn Hs].
  apply lo_cons; auto.
  - destruct s; [discriminate|congruence].
  - rewrite Forall_forall. rewrite forallb_forall in Hs. intros l I. apply is_sep_false. specialize (Hs l I).
    destruct (is_sep l); [discriminate|reflexivity].
  - apply is_sep_spec. reflexivity.
Qed.
Fixpoint distinct (l : list string) : bool := match l with [] => true | x :: t => negb (mem_str x t) && distinct t end.
Lemma distinct_NoDup l : distinct l = true -> NoDup l.
Proof.
  induction l as [|x t IH]; simpl; intros H; [constructor|]. apply andb_prop in H. destruct H as [H1 H2].
  constructor; [|auto]. unfold mem_str in H1. destruct (in_dec string_dec x t); [discriminate|assumption].
Qed.
Lemma not_short_by l : short_equal l = false -> ~ short_separator l.
Proof.
  intros H (n & Hn & ->). unfold short_equal, verify_short_separator in H.
  do 10 (destruct n as [|n]; [vm_compute in H; discriminate|]). lia.
Qed.
Lemma returns_accepts {A} (o : out A) : returns o = true -> exists a, o = Ret a.
Proof. destruct o; [eauto|discriminate]. Qed.

(** The sample file with comments: one line shown with a comment, a comment line and a blank line added. *)
Definition full := join full_sections.
Definition commented : list string :=
  ["   Cell Angstrom # the cell"; "# lattice vectors"; "   "]%string ++ tl full.
Lemma commented_cosmetic : cosmetic full commented.
Proof.
  unfold commented. change full with (([] ++ "Cell Angstrom" :: tl full)%list) at 1.
  eapply cos_trans; [apply (cos_change [] _ "   Cell Angstrom # the cell" "Cell Angstrom"); apply shows_by; reflexivity|].
  simpl app. eapply cos_trans; [apply (cos_insert ["   Cell Angstrom # the cell"] "# lattice vectors"); apply shows_by; reflexivity|].
  simpl app. apply (cos_insert ["   Cell Angstrom # the cell"; "# lattice vectors"] "   "). apply shows_by. reflexivity.
Qed.
Lemma full_loads : exists l, load_txt QX full = Ret l.
Proof. apply returns_accepts. vm_compute. reflexivity. Qed.

Lemma full_shuffled : file_shows full full /\ file_shows (join shuffled_sections) (join shuffled_sections)
  /\ laid_out full_sections full /\ laid_out shuffled_sections (join shuffled_sections)
  /\ Permutation full_sections shuffled_sections
  /\ Forall (fun s => ~ short_separator (hd "" s)) full_sections /\ NoDup (map section_name full_sections).
Proof.
  split; [apply file_shows_by; reflexivity|]. split; [apply file_shows_by; reflexivity|].
  split; [apply laid_out_by; reflexivity|]. split; [apply laid_out_by; reflexivity|].
  split; [|split].
  - unfold full_sections, shuffled_sections.
    eapply perm_trans; [|apply (Permutation_middle [s_spiral; s_on_site; s_extra; s_exchange; s_notation; s_atoms; s_cone] [] s_cell)].
    apply perm_skip. simpl app.
    eapply perm_trans; [|apply (Permutation_middle [s_spiral; s_on_site; s_extra; s_exchange; s_notation] [s_cone] s_atoms)].
    apply perm_skip. simpl app.
    eapply perm_trans; [|apply (Permutation_middle [s_spiral; s_on_site; s_extra; s_exchange] [s_cone] s_notation)].
    apply perm_skip. simpl app.
    eapply perm_trans; [|apply (Permutation_middle [s_spiral; s_on_site; s_extra] [s_cone] s_exchange)].
    apply perm_skip. simpl app.
    eapply perm_trans; [|apply (Permutation_middle [s_spiral] [s_extra; s_cone] s_on_site)].
    apply perm_skip. simpl app.
    eapply perm_trans; [apply perm_swap|]. apply perm_skip. apply perm_swap.
  - repeat constructor; apply not_short_by; reflexivity.
  - apply distinct_NoDup. reflexivity.
Qed.
