(** Lemmas about insertion ordered dictionaries. *)
From Coq Require Import List Bool Permutation.
From Verif.Base Require Import PyDict.
Import ListNotations.

Section Dict.
Context {K V : Type} `{EqDec K}.
Implicit Types (d : dict K V) (k : K) (v : V).

Lemma dmem_true d k : dmem d k = true <-> exists v, dget d k = Some v.
Proof. unfold dmem. destruct (dget d k); split; eauto; try discriminate. intros [? ?]; discriminate. Qed.
Lemma dmem_false d k : dmem d k = false <-> dget d k = None.
Proof. unfold dmem. destruct (dget d k); split; congruence. Qed.

Lemma dget_In d k v : dget d k = Some v -> In (k, v) d.
Proof.
  induction d as [|[k' v'] d IH]; cbn; [discriminate|].
  destruct (eq_dec k k') as [->|]; [intros [= ->]; auto|auto].
Qed.
Lemma dget_key d k : (exists v, dget d k = Some v) <-> In k (dkeys d).
Proof.
  induction d as [|[k' v'] d IH]; cbn; [split; [intros [? ?]; discriminate|tauto]|].
  destruct (eq_dec k k') as [->|N]; split; eauto; intuition congruence.
Qed.
Lemma dget_None d k : dget d k = None <-> ~ In k (dkeys d).
Proof.
  rewrite <- dget_key. destruct (dget d k) eqn:E; split; try discriminate; eauto.
  - intros N. exfalso. eauto.
  - intros _ [? ?]; discriminate.
Qed.
Lemma dmem_key d k : dmem d k = true <-> In k (dkeys d).
Proof. rewrite dmem_true. apply dget_key. Qed.
Lemma dmem_key_false d k : dmem d k = false <-> ~ In k (dkeys d).
Proof. rewrite dmem_false. apply dget_None. Qed.
Lemma In_dget d k v : NoDup (dkeys d) -> In (k, v) d -> dget d k = Some v.
Proof.
  induction d as [|[k' v'] d IH]; cbn; [tauto|].
  intros N [E|I]; inversion N; subst.
  - injection E as <- <-. destruct (eq_dec k' k'); congruence.
  - destruct (eq_dec k k') as [->|]; auto.
    exfalso. apply H2. change k' with (fst (k', v)). apply in_map. exact I.
Qed.

Lemma dget_dset d k v k' : dget (dset d k v) k' = if eq_dec k' k then Some v else dget d k'.
Proof.
  induction d as [|[a b] d IH]; cbn.
  - destruct (eq_dec k' k); reflexivity.
  - destruct (eq_dec k a) as [->|N]; cbn.
    + destruct (eq_dec k' a); reflexivity.
    + rewrite IH. destruct (eq_dec k' a); destruct (eq_dec k' k); congruence.
Qed.
Lemma dkeys_dset d k v : dkeys (dset d k v) = if dmem d k then dkeys d else dkeys d ++ [k].
Proof.
  unfold dmem. induction d as [|[a b] d IH]; cbn; [reflexivity|].
  destruct (eq_dec k a) as [->|N]; cbn; [reflexivity|].
  unfold dkeys in *. rewrite IH. destruct (dget d k); reflexivity.
Qed.
Lemma In_dkeys_dset d k v k' : In k' (dkeys (dset d k v)) <-> k' = k \/ In k' (dkeys d).
Proof.
  rewrite dkeys_dset. destruct (dmem d k) eqn:E.
  - apply dmem_key in E. intuition congruence.
  - rewrite in_app_iff. cbn. intuition congruence.
Qed.
Lemma NoDup_snoc {A} (l : list A) x : NoDup l -> ~ In x l -> NoDup (l ++ [x]).
Proof.
  intros N I. eapply Permutation_NoDup; [apply Permutation_cons_append|]. constructor; assumption.
Qed.
Lemma NoDup_dset d k v : NoDup (dkeys d) -> NoDup (dkeys (dset d k v)).
Proof.
  rewrite dkeys_dset. destruct (dmem d k) eqn:E; trivial. intros. apply NoDup_snoc; trivial.
  apply dmem_key_false. exact E.
Qed.

Lemma dget_ddel d k k' : NoDup (dkeys d) -> dget (ddel d k) k' = if eq_dec k' k then None else dget d k'.
Proof.
  induction d as [|[a b] d IH]; cbn; intros N; [destruct (eq_dec k' k); reflexivity|].
  inversion N; subst. destruct (eq_dec k a) as [->|Na]; cbn.
  - destruct (eq_dec k' a) as [->|]; trivial. apply dget_None. assumption.
  - rewrite IH by assumption. destruct (eq_dec k' a); destruct (eq_dec k' k); congruence.
Qed.
Lemma dkeys_ddel d k : NoDup (dkeys d) -> forall x, In x (dkeys (ddel d k)) <-> x <> k /\ In x (dkeys d).
Proof.
  intros N x. rewrite <- !dget_key, dget_ddel by assumption. destruct (eq_dec x k) as [->|].
  - split; [intros [? ?]; discriminate|intros [? _]; congruence].
  - tauto.
Qed.
Lemma ddel_incl d k kv : In kv (ddel d k) -> In kv d.
Proof.
  induction d as [|[a b] d IH]; cbn; [tauto|]. destruct (eq_dec k a); cbn; intuition.
Qed.
Lemma NoDup_map_ddel {B} (f : K * V -> B) d k : NoDup (map f d) -> NoDup (map f (ddel d k)).
Proof.
  induction d as [|[a b] d IH]; cbn; [trivial|]. intros N; inversion N; subst.
  destruct (eq_dec k a); cbn; [assumption|]. constructor; auto.
  intros I. apply H2. apply in_map_iff in I as (x & E & I). rewrite <- E. apply in_map, (ddel_incl _ k), I.
Qed.
Lemma NoDup_ddel d k : NoDup (dkeys d) -> NoDup (dkeys (ddel d k)).
Proof. apply NoDup_map_ddel. Qed.
Lemma ddel_absent d k : ~ In k (dkeys d) -> ddel d k = d.
Proof.
  induction d as [|[a b] d IH]; cbn; [trivial|]. intros N.
  destruct (eq_dec k a) as [->|]; [exfalso; auto|]. rewrite IH; tauto.
Qed.
(** Deleting filters the entry out. *)
Lemma ddel_filter d k : NoDup (dkeys d) ->
  ddel d k = filter (fun kv => if eq_dec k (fst kv) then false else true) d.
Proof.
  induction d as [|[a b] d IH]; cbn; [trivial|]. intros N; inversion N; subst.
  destruct (eq_dec k a) as [->|].
  - rewrite <- IH by assumption. rewrite ddel_absent; trivial.
  - rewrite IH; trivial.
Qed.

End Dict.
