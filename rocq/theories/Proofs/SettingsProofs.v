From Coq Require Import List ZArith QArith Qcanon.
From Verif.Base Require Import Scalar Linear3.
From Verif.Model Require Import MatrixParam Hamiltonian Settings.
From Verif.Spec Require Import SettingsSpec.
Import ListNotations.

Section Proofs.
Context {F : Type} {SF : Scalar F}.
Notation settings := (settings F).

Lemma after_last {B} (get : settings -> B) (f : setting_call F -> option B) :
  (forall s c, get (fst (set_setting s c)) = match f c with Some b => b | None => get s end) ->
  forall l s, get (settings_after s l) = last_given f (get s) l.
Proof.
  intros H l. induction l as [|c l IH]; intros s; [reflexivity|].
  cbn [settings_after fold_left last_given]. fold (settings_after (fst (set_setting s c)) l). rewrite IH, H. reflexivity.
Qed.

Lemma array3_cases (l : list F) : (exists a b c, l = [a; b; c] /\ array3 l = Some (mkV a b c)) \/
  (array3 l = None /\ as_field (SetField (FArray l)) = None).
Proof.
  destruct l as [|a [|b [|c [|d t]]]]; cbn; auto. left; eauto.
Qed.

Ltac go := let s0 := fresh in let c0 := fresh in intros s0 c0; destruct c0 as [[x|]|[x|]|[x|]|[| |y|]|y|y]; cbn; try reflexivity;
  destruct (array3_cases y) as [(a & b & d & -> & E)|[E E']]; [cbn; reflexivity|rewrite E; cbn in *; rewrite ?E'; try reflexivity].

Lemma settings_read (l : list (setting_call F)) (s : settings) :
  get_m (settings_after s l) = last_given as_m (get_m s) l /\
  get_c1 (settings_after s l) = last_given as_c1 (get_c1 s) l /\
  get_field (settings_after s l) = last_given as_field (get_field s) l /\
  used_c1 (settings_after s l) = last_given as_c1 (used_c1 s) l /\
  used_c2 (settings_after s l) = last_given as_c2 (used_c2 s) l.
Proof. repeat apply conj; apply after_last; go. Qed.

Lemma settings_frozen (l : list (setting_call F)) (s : settings) :
  get_g (settings_after s l) = get_g s /\ get_spins (settings_after s l) = get_spins s /\
  get_c2 (settings_after s l) = get_c1 (settings_after s l).
Proof.
  repeat apply conj; [| |reflexivity].
  - rewrite (after_last get_g (fun _ => None)); [|go]. induction l; cbn; auto.
  - rewrite (after_last get_spins (fun _ => None)); [|go]. induction l; cbn; auto.
Qed.

Lemma settings_outcome (s : settings) (c : setting_call F) :
  (acceptable c -> snd (set_setting s c) = Ret tt) /\
  (~ acceptable c -> fst (set_setting s c) = s /\
     snd (set_setting s c) = match c with SetG _ | SetSpins _ => Raise TypeError | _ => Raise ValueError end).
Proof.
  unfold acceptable. destruct c as [[x|]|[x|]|[x|]|[| |l|]|l|l]; cbn; split; intros H; auto;
    try (exfalso; repeat destruct H as [H|H]; congruence); try (exfalso; apply H; intuition congruence).
  - destruct l as [|a [|b [|c [|d t]]]]; try reflexivity; exfalso; repeat destruct H as [H|H]; congruence.
  - destruct l as [|a [|b [|c [|d t]]]]; cbn; auto. exfalso. apply H. do 3 right. discriminate.
Qed.
End Proofs.

Lemma c2_refuted : exists (l : list (setting_call Qc)),
  get_c2 (settings_after (initial (Q2Qc (1 # 10000)) (Q2Qc (9 # 10)) [] []) l)
  <> last_given as_c2 (Q2Qc (9 # 10)) l.
Proof. exists []. intro H. apply (f_equal this) in H. vm_compute in H. discriminate. Qed.

Lemma c2_set_refuted : exists (c : setting_call Qc) (x : Qc) (s : settings Qc),
  c = SetC2 (Some x) /\ snd (set_setting s c) = Ret tt /\ get_c2 (fst (set_setting s c)) <> x.
Proof.
  exists (SetC2 (Some (Q2Qc (1 # 2)))), (Q2Qc (1 # 2)), (initial (Q2Qc (1 # 10000)) (Q2Qc (9 # 10)) [] []).
  repeat split. intro H. apply (f_equal this) in H. vm_compute in H. discriminate.
Qed.

Lemma spins_set_refuted : exists (c : setting_call Qc) (x : list Qc) (s : settings Qc),
  c = SetSpins x /\ List.length x = List.length (get_spins s) /\ get_spins (fst (set_setting s c)) <> x /\
  snd (set_setting s c) = Raise TypeError.
Proof.
  exists (SetSpins [Q2Qc (1 # 2)]), [Q2Qc (1 # 2)], (initial (Q2Qc (1 # 10000)) (Q2Qc (9 # 10)) [Q2Qc 2] [Q2Qc 1]).
  repeat split. intro H. apply (f_equal (fun l => match l with x :: _ => this x | [] => 0%Q end)) in H. vm_compute in H. discriminate.
Qed.

Lemma g_set_refuted : exists (c : setting_call Qc) (x : list Qc) (s : settings Qc),
  c = SetG x /\ List.length x = List.length (get_spins s) /\ get_g (fst (set_setting s c)) <> x /\
  snd (set_setting s c) = Raise TypeError.
Proof.
  exists (SetG [Q2Qc 1]), [Q2Qc 1], (initial (Q2Qc (1 # 10000)) (Q2Qc (9 # 10)) [Q2Qc 2] [Q2Qc 1]).
  repeat split. intro H. apply (f_equal (fun l => match l with x :: _ => this x | [] => 0%Q end)) in H. vm_compute in H. discriminate.
Qed.

(** A history with accepted and rejected calls. *)
Lemma settings_example : let l := [SetM (Some 20%Z); SetField (FArray [Q2Qc 1; Q2Qc 2; Q2Qc 3]); SetM None;
    SetField (FArray [Q2Qc 1]); SetC1 (Some (Q2Qc (1 # 3)))] in
  let s := settings_after (initial (Q2Qc (1 # 10000)) (Q2Qc (9 # 10)) [Q2Qc 2] [Q2Qc 1]) l in
  get_m s = 20%Z /\ get_field s = Some (mkV (Q2Qc 1) (Q2Qc 2) (Q2Qc 3)) /\ get_c1 s = Q2Qc (1 # 3).
Proof. repeat split. Qed.
