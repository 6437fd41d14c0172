(** Assigning a notation by name or by a tuple. *)
From Coq Require Import List String Ascii NArith Bool Lia.
From Verif.Base Require Import Scalar Linear3 PyDict PyString.
From Verif.Model Require Import MatrixParam Hamiltonian History.
From Verif.Spec Require Import HamSpec NotationSpec.
From Verif.Proofs Require Import HamBasics HistoryProofs NotationProofs HamDouble HamDcEnergy.
Import ListNotations.

Lemma lower_cases c : ascii_lower c = c \/ exists i, (i < 26)%N /\ c = ascii_of_N (65 + i) /\ ascii_lower c = ascii_of_N (97 + i).
Proof.
  unfold ascii_lower. destruct (N.leb_spec 65 (N_of_ascii c)) as [L|L]; [|left; reflexivity]. destruct (N.leb_spec (N_of_ascii c) 90) as [M|M]; [|left; reflexivity].
  right. exists (N_of_ascii c - 65)%N. cbn [andb]. split; [lia|]. split; [|f_equal; lia]. rewrite <- (ascii_N_embedding c) at 1. f_equal. lia.
Qed.
Lemma lower_upper i : (i < 26)%N -> ascii_lower (ascii_of_N (65 + i)) = ascii_of_N (97 + i) /\ ascii_lower (ascii_of_N (97 + i)) = ascii_of_N (97 + i).
Proof.
  intros L. unfold ascii_lower. rewrite !N_ascii_embedding by lia.
  destruct (N.leb_spec 65 (65 + i)); [|lia]. destruct (N.leb_spec (65 + i) 90); [|lia]. destruct (N.leb_spec 65 (97 + i)); [|lia]. destruct (N.leb_spec (97 + i) 90); [lia|].
  cbn [andb]. split; [f_equal; lia|reflexivity].
Qed.
Lemma lower_letter c d : ascii_lower c = ascii_lower d <-> same_letter c d.
Proof.
  split.
  - intros E. destruct (lower_cases c) as [Ec|(i & Li & Ec & Lc)], (lower_cases d) as [Ed|(j & Lj & Ed & Ld)].
    + left. congruence.
    + right; right. exists j. splits; congruence.
    + right; left. exists i. splits; congruence.
    + left. rewrite Lc, Ld in E. apply (f_equal N_of_ascii) in E. rewrite !N_ascii_embedding in E by lia. rewrite Ec, Ed. f_equal. lia.
  - intros [->|[(i & L & -> & ->)|(i & L & -> & ->)]]; [reflexivity| |]; destruct (lower_upper i L); congruence.
Qed.
Lemma lower_same s : forall t, str_lower s = str_lower t <-> same_ignoring_case s t.
Proof.
  induction s as [|c s IH]; intros [|d t]; cbn; try (split; [discriminate|tauto]); [tauto|]. rewrite <- IH, <- lower_letter. split; [intros [= A B]; auto|intros [-> ->]; reflexivity].
Qed.

Section Names.
Context {F : Type} {SF : Scalar F}.
Notation world := (@world F).
Lemma named (s : string) dc sn fe fo (w : world) name : In (name, (dc, sn, fe, fo)) named_notations -> same_ignoring_case s name ->
  set_notation (NStr s) w = set_notation (N4 dc sn fe fo) w.
Proof.
  intros I S. apply lower_same in S. unfold set_notation. cbn [parse_notation]. rewrite S.
  destruct I as [[= <- <- <- <- <-]|[[= <- <- <- <- <-]|[[= <- <- <- <- <-]|[[= <- <- <- <- <-]|[]]]]]; reflexivity.
Qed.
Lemma unnamed (s : string) (w : world) : (forall name q, In (name, q) (@named_notations F SF) -> ~ same_ignoring_case s name) ->
  set_notation (NStr s) w = (w, Raise ValueError).
Proof.
  intros H. unfold set_notation. cbn [parse_notation]. unfold predefined.
  assert (K : forall name q, In (name, q) (@named_notations F SF) -> str_lower s <> str_lower name) by (intros name q I E; apply (H name q I), lower_same, E).
  destruct (string_dec (str_lower s) "magnopy") as [E|_]; [destruct (K "Magnopy"%string _ (or_introl eq_refl) E)|].
  destruct (string_dec (str_lower s) "tb2j") as [E|_]; [destruct (K "TB2J"%string _ (or_intror (or_introl eq_refl)) E)|].
  destruct (string_dec (str_lower s) "spinw") as [E|_]; [destruct (K "SpinW"%string _ (or_intror (or_intror (or_introl eq_refl))) E)|].
  destruct (string_dec (str_lower s) "vampire") as [E|_]; [destruct (K "Vampire"%string _ (or_intror (or_intror (or_intror (or_introl eq_refl)))) E)|]. reflexivity.
Qed.
Lemma one_factor dc sn f (w : world) : set_notation (N3 dc sn f) w = set_notation (N4 dc sn f f) w.
Proof. reflexivity. Qed.
Lemma getter_after (w w' : world) dc sn fe fo : wf w -> set_notation (N4 dc sn fe fo) w = (w', Ret tt) ->
  get_notation w' = (w', Ret (dc, sn, fe, fo)).
Proof.
  intros W H. unfold set_notation in H. cbn [parse_notation] in H.
  apply bind_inv in H as (w1 & [] & H1 & H). apply bind_inv in H as (w2 & [] & H2 & H). apply bind_inv in H as (w3 & [] & H3 & H).
  destruct (set_sn_outcome w1 sn) as (st2 & _ & [E2|[e E2]]); rewrite H2 in E2; [|discriminate]. injection E2 as ->.
  match type of H3 with set_exchange_factor _ ?u = _ => destruct (set_ef_outcome u fe) as (st3 & _ & [E3|[e E3]]) end; rewrite H3 in E3; [|discriminate]. injection E3 as ->.
  match type of H with set_on_site_factor _ ?u = _ => destruct (set_of_outcome u fo) as (st4 & _ & [E4|[e E4]]) end; rewrite H in E4; [|discriminate]. injection E4 as ->.
  assert (D : h_dc (w_ham w1) = Some dc).
  { rewrite (set_dc_split w dc W) in H1. assert (W0 := dc_scaled_wf w dc W). destruct dc.
    - destruct (ensure_dc_ok _ W0 eq_refl) as (v & E & _ & _ & _ & D & _). rewrite E in H1. injection H1 as <-. exact D.
    - destruct (all_or_witness (dc_scaled w false)) as [X|(k & I & C & N)].
      + destruct (ensure_no_dc_ok _ W0 eq_refl X) as (v & E & _ & _ & _ & D & _). rewrite E in H1. injection H1 as <-. exact D.
      + rewrite (ensure_no_dc_fail _ k I C N) in H1. discriminate. }
  unfold get_notation, get_dc, get_sn, get_ef, get_of. unfold bind, gets, ret. cbn. rewrite D. reflexivity.
Qed.
End Names.

Lemma names_case : same_ignoring_case "sPinW" "SpinW" /\ ~ same_ignoring_case "SpinWx" "SpinW".
Proof. split; [apply lower_same; reflexivity|]. intros H. apply lower_same in H. discriminate H. Qed.
