(** Trees of groups: looking up, creating, deleting, visiting; members in the order of their names. *)
From Coq Require Import String Ascii List Bool ZArith Arith Lia Permutation Sorting.Sorted DecimalString DecimalNat.
From Verif.Base Require Import Scalar Linear3 PyDict PyString.
From Verif.Model Require Import Hamiltonian TxtRead Hdf5.
From Verif.Spec Require Import HamSpec Hdf5Spec.
From Verif.Proofs Require Import DictProofs.
Import ListNotations.

(** ** Words *)
Lemma cmp_refl s : String.compare s s = Eq.
Proof. pose proof (String.compare_antisym s s) as A. destruct (String.compare s s); [reflexivity|discriminate A|discriminate A]. Qed.
Lemma ascii_cmp c d : Ascii.compare c d = N.compare (N_of_ascii c) (N_of_ascii d).
Proof. reflexivity. Qed.
Lemma ascii_cmp_eq c d : Ascii.compare c d = Eq -> c = d.
Proof. rewrite ascii_cmp. intros H. apply N.compare_eq in H. rewrite <- (ascii_N_embedding c), <- (ascii_N_embedding d), H. reflexivity. Qed.
Lemma cmp_trans a : forall b c, String.compare a b = Lt -> String.compare b c = Lt -> String.compare a c = Lt.
Proof.
  induction a as [|x a IH]; intros [|y b] [|z c]; cbn; try discriminate; try reflexivity.
  destruct (Ascii.compare x y) eqn:E1; try discriminate; destruct (Ascii.compare y z) eqn:E2; try discriminate; intros H1 H2;
    rewrite ascii_cmp in *.
  - apply N.compare_eq in E1. rewrite E1, E2. eauto.
  - apply N.compare_eq in E1. rewrite E1, E2. reflexivity.
  - apply N.compare_eq in E2. rewrite <- E2, E1. reflexivity.
  - apply N.compare_lt_iff in E1, E2. pose proof (N.lt_trans _ _ _ E1 E2) as E. apply N.compare_lt_iff in E. rewrite E. reflexivity.
Qed.
Lemma cmp_not_lt a b : String.compare a b <> Lt -> a <> b -> String.compare b a = Lt.
Proof.
  intros H1 H2. rewrite String.compare_antisym. destruct (String.compare a b) eqn:E; cbn; try congruence.
  apply String.compare_eq_iff in E. congruence.
Qed.
Lemma decimal_inj n m : decimal n = decimal m -> n = m.
Proof.
  unfold decimal. intros H. apply (f_equal NilZero.uint_of_string) in H.
  assert (E : forall k, Nat.to_uint k <> Decimal.Nil).
  { intros k Hk. pose proof (Unsigned.of_to k) as Hu. rewrite Hk in Hu. cbn in Hu. subst k. discriminate Hk. }
  rewrite !NilZero.usu in H by apply E. injection H as H. apply Unsigned.to_uint_inj. exact H.
Qed.

Section Files.
Context {F : Type} {SF : Scalar F}.
Notation node := (@node F).
Notation kids_t := (@kids_t F).

(** ** Members *)
Lemma dget_insert name (n : node) : forall l, dget l name = None -> forall y, dget (insert name n l) y = if eq_dec y name then Some n else dget l y.
Proof.
  induction l as [|[x m] l IH]; intros H y; cbn in *.
  - reflexivity.
  - destruct (eq_dec name x) as [|Ne]; [discriminate|]. destruct (String.compare name x); cbn.
    + destruct (eq_dec y x) as [->|]; [destruct (eq_dec x name); [congruence|reflexivity]|]. apply IH, H.
    + destruct (eq_dec y name) as [->|]; reflexivity.
    + destruct (eq_dec y x) as [->|]; [destruct (eq_dec x name); [congruence|reflexivity]|]. apply IH, H.
Qed.
Lemma dget_kset name (n : node) : forall l, dget l name <> None -> forall y, dget (kset name n l) y = if eq_dec y name then Some n else dget l y.
Proof.
  induction l as [|[x m] l IH]; intros H y; cbn in *; [congruence|].
  destruct (eq_dec name x) as [->|Ne]; cbn.
  - destruct (eq_dec y x); reflexivity.
  - destruct (eq_dec y x) as [->|]; [destruct (eq_dec x name); [congruence|reflexivity]|]. apply IH, H.
Qed.
Lemma dget_kdel name : forall (l : kids_t) y, dget (kdel name l) y = if eq_dec y name then None else dget l y.
Proof.
  induction l as [|[x m] l IH]; intros y; cbn; [destruct (eq_dec y name); reflexivity|].
  destruct (eq_dec name x) as [->|Ne]; cbn; rewrite IH.
  - destruct (eq_dec y x); reflexivity.
  - destruct (eq_dec y x) as [->|]; [|reflexivity]. destruct (eq_dec x name); [congruence|reflexivity].
Qed.
Lemma insert_perm name (n : node) l : Permutation ((name, n) :: l) (insert name n l).
Proof.
  induction l as [|[x m] l IH]; cbn; [reflexivity|]. destruct (String.compare name x); [|reflexivity|];
    (rewrite perm_swap; constructor; exact IH).
Qed.
Lemma insert_In name (n : node) l p : In p (insert name n l) <-> p = (name, n) \/ In p l.
Proof.
  split; intros H.
  - apply (Permutation_in _ (Permutation_sym (insert_perm name n l))) in H. destruct H as [H|H]; auto.
  - apply (Permutation_in _ (insert_perm name n l)). destruct H as [H|H]; [left; auto|right; exact H].
Qed.
Lemma insert_sorted name (n : node) : forall l, StronglySorted word_order l -> ~ In name (map fst l) -> StronglySorted word_order (insert name n l).
Proof.
  induction l as [|[x m] l IH]; intros S H; cbn; [repeat constructor|]. inversion S as [|? ? S' A]; subst.
  destruct (String.compare name x) eqn:E.
  - apply String.compare_eq_iff in E. exfalso. apply H. left. auto.
  - constructor; [exact S|]. constructor; [exact E|]. eapply Forall_impl; [|exact A]. unfold word_order. cbn. intros p Hp. eapply cmp_trans; eauto.
  - constructor; [apply IH; [exact S'|intros Hi; apply H; right; exact Hi]|].
    apply Forall_forall. intros p Hp. apply insert_In in Hp. destruct Hp as [->|Hp].
    + unfold word_order. cbn. apply cmp_not_lt; [congruence|]. intros ->. apply H. left. reflexivity.
    + rewrite Forall_forall in A. apply A, Hp.
Qed.
Lemma dget_notin (l : kids_t) x : dget l x = None <-> ~ In x (map fst l).
Proof.
  induction l as [|[y m] l IH]; cbn; [tauto|]. destruct (eq_dec x y) as [->|Ne]; [split; [discriminate|intros H; exfalso; apply H; left; reflexivity]|].
  rewrite IH. split; intros H; [intros [E|E]; [congruence|tauto]|tauto].
Qed.

(** ** Paths *)
Lemma lookup_chain p (new : node) : lookup (chain p new) p = Some new.
Proof. induction p as [|x p IH]; cbn; [reflexivity|]. destruct (eq_dec x x); [exact IH|congruence]. Qed.
Lemma create_lookup p : forall (new n n' : node), create p new n = Some n' -> lookup n' p = Some new /\ lookup n p = None.
Proof.
  induction p as [|x p IH]; intros new n n' H; cbn in *; [discriminate|]. destruct n as [|a l]; [discriminate|].
  destruct (dget l x) as [m|] eqn:E.
  - destruct (create p new m) as [m'|] eqn:C; [|discriminate]. injection H as <-. cbn. rewrite dget_kset by congruence.
    destruct (eq_dec x x); [|congruence]. apply (IH _ _ _ C).
  - injection H as <-. cbn. rewrite dget_insert by exact E. destruct (eq_dec x x); [|congruence]. split; [apply lookup_chain|reflexivity].
Qed.
Lemma app_nil_self {A} (p : list A) : exists r, p = (p ++ r)%list.
Proof. exists []. symmetry. apply app_nil_r. Qed.
Lemma apart_cons x y (p q : list string) : apart (x :: p) (y :: q) -> x <> y \/ (x = y /\ apart p q).
Proof.
  intros [H1 H2]. destruct (eq_dec x y) as [->|Ne]; [right|left; exact Ne]. split; [reflexivity|].
  split; intros r E; subst; [apply (H1 r)|apply (H2 r)]; reflexivity.
Qed.
Lemma lookup_chain_apart p : forall (new : node) q, apart p q -> lookup (chain p new) q = None.
Proof.
  induction p as [|x p IH]; intros new q [H1 H2]; [exfalso; apply (H1 q); reflexivity|].
  destruct q as [|y q]; [exfalso; apply (H2 (x :: p)); reflexivity|]. cbn. destruct (eq_dec y x) as [->|Ne]; [|reflexivity].
  apply IH. destruct (apart_cons x x p q (conj H1 H2)) as [|[_ H]]; [congruence|exact H].
Qed.
Lemma create_apart p : forall (new n n' : node) q, create p new n = Some n' -> apart p q -> lookup n' q = lookup n q.
Proof.
  induction p as [|x p IH]; intros new n n' q H A; cbn in *; [discriminate|]. destruct n as [|a l]; [discriminate|].
  destruct q as [|y q]; [exfalso; destruct A as [_ A]; apply (A (x :: p)); reflexivity|]. pose proof (apart_cons _ _ _ _ A) as A'.
  destruct (dget l x) as [m|] eqn:E.
  - destruct (create p new m) as [m'|] eqn:C; [|discriminate]. injection H as <-. cbn. rewrite dget_kset by congruence.
    destruct (eq_dec y x) as [->|Ne]; [|reflexivity]. destruct A' as [|[_ A']]; [congruence|]. rewrite E. apply (IH _ _ _ _ C A').
  - injection H as <-. cbn. rewrite dget_insert by exact E. destruct (eq_dec y x) as [->|Ne]; [|reflexivity].
    destruct A' as [|[_ A']]; [congruence|]. rewrite E. apply lookup_chain_apart, A'.
Qed.
Lemma remove_total p : forall (n m : node), p <> [] -> lookup n p = Some m -> exists n', remove p n = Some n'.
Proof.
  induction p as [|x p IH]; intros n m Hp H; [congruence|]. cbn in *. destruct n as [|a l]; [discriminate|].
  destruct (dget l x) as [k|]; [|discriminate]. destruct p as [|y p]; [eauto|].
  destruct (IH k m) as [k' Ek]; [discriminate|exact H|]. rewrite Ek. eauto.
Qed.
Lemma remove_holds p : forall (n n' : node), remove p n = Some n' -> p <> [] /\ holds n p.
Proof.
  induction p as [|x p IH]; intros n n' H; cbn in *; [discriminate|]. destruct n as [|a l]; [discriminate|].
  split; [discriminate|]. unfold holds. cbn. destruct (dget l x) as [m|]; [|discriminate].
  destruct p as [|y p]; [cbn; discriminate|]. destruct (remove (y :: p) m) as [m'|] eqn:E; [|discriminate]. apply (IH _ _ E).
Qed.
Lemma remove_apart p : forall (n n' : node) q, remove p n = Some n' -> apart p q -> lookup n' q = lookup n q.
Proof.
  induction p as [|x p IH]; intros n n' q H A; cbn in H; [discriminate|]. destruct n as [|a l]; [discriminate|].
  destruct q as [|y q]; [exfalso; destruct A as [_ A]; apply (A (x :: p)); reflexivity|]. pose proof (apart_cons _ _ _ _ A) as A'.
  destruct (dget l x) as [m|] eqn:E; [|discriminate]. destruct p as [|z p].
  - injection H as <-. cbn. rewrite dget_kdel. destruct (eq_dec y x) as [->|Ne]; [|reflexivity].
    destruct A' as [|[_ [A' _]]]; [congruence|]. exfalso. apply (A' q). reflexivity.
  - destruct (remove (z :: p) m) as [m'|] eqn:C; [|discriminate]. injection H as <-. cbn [lookup]. rewrite dget_kset by congruence.
    destruct (eq_dec y x) as [->|Ne]; [|reflexivity]. destruct A' as [|[_ A']]; [congruence|]. rewrite E. apply (IH _ _ _ C A').
Qed.
Lemma create_after_remove p : forall (new n n1 : node), remove p n = Some n1 -> exists n', create p new n1 = Some n'.
Proof.
  induction p as [|x p IH]; intros new n n1 H; cbn in H; [discriminate|]. destruct n as [|a l]; [discriminate|].
  destruct (dget l x) as [m|] eqn:E; [|discriminate]. destruct p as [|z p].
  - injection H as <-. cbn. rewrite dget_kdel. destruct (eq_dec x x); [|congruence]. eauto.
  - destruct (remove (z :: p) m) as [m'|] eqn:C; [|discriminate]. injection H as <-. destruct (IH new m m' C) as [k Ek].
    remember (z :: p) as q. cbn [create]. rewrite dget_kset by congruence. destruct (eq_dec x x); [|congruence]. rewrite Ek. eauto.
Qed.
Lemma create_holds p (new n : node) : p <> [] -> holds n p -> create p new n = None.
Proof. intros _ H. destruct (create p new n) as [n'|] eqn:E; [|reflexivity]. exfalso. apply H, (create_lookup _ _ _ _ E). Qed.

(** ** Visiting *)
Lemma visit_cons a x (m : node) l : visit (Grp a ((x, m) :: l)) = ((([x], m) :: map (fun q => (x :: fst q, snd q)) (visit m)) ++ visit (Grp a l))%list.
Proof. reflexivity. Qed.
Lemma visit_In p : forall (n m : node), p <> [] -> lookup n p = Some m -> In (p, m) (visit n).
Proof.
  induction p as [|x p IH]; intros n m Hp H; [congruence|]. cbn in H. destruct n as [|a l]; [discriminate|].
  destruct (dget l x) as [k|] eqn:E; [|discriminate]. induction l as [|[y k'] l IHl]; [discriminate|]. rewrite visit_cons. apply in_or_app. cbn in E.
  destruct (eq_dec x y) as [->|Ne]; [left|right; apply IHl, E]. injection E as ->. destruct p as [|z p].
  - cbn in H. injection H as ->. left. reflexivity.
  - right. apply in_map_iff. exists (z :: p, m). split; [reflexivity|]. apply IH; [discriminate|exact H].
Qed.
Lemma node_rect2 (P : node -> Prop) : (forall d a, P (Dset d a)) -> (forall a l, Forall (fun p => P (snd p)) l -> P (Grp a l)) -> forall n, P n.
Proof.
  intros H1 H2. fix IH 1. intros [d a|a l]; [apply H1|]. apply H2. induction l as [|[x m] l IHl]; constructor; [apply IH|exact IHl].
Qed.
Lemma proper_cons a x (m : node) l : proper (Grp a ((x, m) :: l)) <-> ~ In x (map fst l) /\ proper m /\ proper (Grp a l).
Proof. cbn. rewrite NoDup_cons_iff. tauto. Qed.
Lemma visit_lookup : forall (n : node), proper n -> forall p m, In (p, m) (visit n) -> p <> [] /\ lookup n p = Some m.
Proof.
  apply (node_rect2 (fun n => proper n -> forall p m, In (p, m) (visit n) -> p <> [] /\ lookup n p = Some m)); [intros d a _ p m []|].
  intros a l A P p m. revert P. induction A as [|[x k] l Hk _ IH]; intros P H; [destruct H|]. rewrite visit_cons in H.
  apply proper_cons in P. destruct P as (N & Pk & Pl). apply in_app_or in H. cbn [snd] in Hk.
  destruct H as [[H|H]|H].
  - injection H as <- <-. split; [discriminate|]. cbn. destruct (eq_dec x x); [reflexivity|congruence].
  - apply in_map_iff in H. destruct H as ([q k'] & E & Hq). injection E as <- <-. split; [discriminate|]. cbn.
    destruct (eq_dec x x); [|congruence]. apply (Hk Pk _ _ Hq).
  - destruct (IH Pl H) as [Hp E]. split; [exact Hp|]. destruct p as [|y p]; [congruence|]. cbn in *.
    destruct (eq_dec y x) as [->|]; [|exact E]. exfalso. destruct (dget l x) eqn:D; [|discriminate]. apply N.
    destruct (in_dec eq_dec x (map fst l)) as [i|i]; [exact i|]. apply dget_notin in i. congruence.
Qed.
Lemma insert_proper a x (m : node) l : proper (Grp a l) -> proper m -> dget l x = None -> proper (Grp a (insert x m l)).
Proof.
  intros P Pm D. induction l as [|[y k] l IH]; [cbn; repeat split; auto; repeat constructor; tauto|].
  pose proof P as P0. apply proper_cons in P. destruct P as (N & Pk & Pl). cbn in D. destruct (eq_dec x y) as [|Ne]; [discriminate|].
  assert (G : proper (Grp a ((y, k) :: insert x m l))).
  { apply proper_cons. split; [|split; [exact Pk|apply IH; assumption]]. intros Hi. apply in_map_iff in Hi. destruct Hi as (q & E & Hq).
    apply insert_In in Hq. destruct Hq as [->|Hq]; [cbn in E; congruence|]. apply N. rewrite <- E. apply in_map, Hq. }
  cbn [insert]. destruct (String.compare x y); try exact G. apply proper_cons. split; [|split; [exact Pm|exact P0]].
  intros [E|Hi]; [cbn in E; congruence|]. apply dget_notin in D. contradiction.
Qed.
Lemma kset_fst x (m : node) l : map fst (kset x m l) = map fst l.
Proof. induction l as [|[y k] l IH]; cbn; [reflexivity|]. destruct (eq_dec x y); cbn; congruence. Qed.
Lemma kset_proper a x (m : node) l : proper (Grp a l) -> proper m -> proper (Grp a (kset x m l)).
Proof.
  intros P Pm. induction l as [|[y k] l IH]; [exact P|]. apply proper_cons in P. destruct P as (N & Pk & Pl). cbn [kset].
  destruct (eq_dec x y); apply proper_cons; [tauto|]. rewrite kset_fst. tauto.
Qed.
Lemma chain_proper p : forall (new : node), proper new -> proper (chain p new).
Proof. induction p as [|x p IH]; intros new P; [exact P|]. cbn. repeat split; [repeat constructor; tauto|apply IH, P]. Qed.
Lemma dget_proper a l x (m : node) : proper (Grp a l) -> dget l x = Some m -> proper m.
Proof.
  induction l as [|[y k] l IH]; intros P D; [discriminate|]. apply proper_cons in P. destruct P as (N & Pk & Pl). cbn in D.
  destruct (eq_dec x y); [injection D as <-; exact Pk|]. apply IH; assumption.
Qed.
Lemma create_proper p : forall (new n n' : node), create p new n = Some n' -> proper new -> proper n -> proper n'.
Proof.
  induction p as [|x p IH]; intros new n n' H Pn P; cbn in H; [discriminate|]. destruct n as [|a l]; [discriminate|].
  destruct (dget l x) as [m|] eqn:E.
  - destruct (create p new m) as [m'|] eqn:C; [|discriminate]. injection H as <-. apply kset_proper; [exact P|].
    apply (IH _ _ _ C Pn). eapply dget_proper; eauto.
  - injection H as <-. apply insert_proper; [exact P|apply chain_proper, Pn|exact E].
Qed.

(** What is below or above a new group. *)
Lemma lookup_app p q : forall n : node, lookup n (p ++ q) = match lookup n p with Some m => lookup m q | None => None end.
Proof.
  induction p as [|x p IH]; intros n; cbn; [reflexivity|]. destruct n as [|a l]; [reflexivity|]. destruct (dget l x); [apply IH|reflexivity].
Qed.
(** A node above the path keeps its attributes; nodes that are made on the way have none. *)
Lemma chain_above p : forall q r (new : node), p = (q ++ r)%list -> r <> [] -> exists m, lookup (chain p new) q = Some m /\ node_attrs m = [].
Proof.
  induction p as [|x p IH]; intros q r new E Hr; [destruct q; destruct r; try discriminate; congruence|].
  destruct q as [|y q]; [cbn; eauto|]. injection E as -> E. cbn. destruct (eq_dec y y); [|congruence]. eapply IH; eauto.
Qed.
Lemma create_above p : forall q r (new n n' : node), create p new n = Some n' -> p = (q ++ r)%list -> r <> [] ->
  exists m, lookup n' q = Some m /\ (node_attrs m = [] \/ exists m0, lookup n q = Some m0 /\ node_attrs m = node_attrs m0).
Proof.
  induction p as [|x p IH]; intros q r new n n' H E Hr; cbn in H; [discriminate|]. destruct n as [|a l]; [discriminate|].
  destruct q as [|y q].
  - exists n'. split; [reflexivity|]. right. exists (Grp a l). split; [reflexivity|].
    destruct (dget l x) as [m|]; [destruct (create p new m); [|discriminate]|]; injection H as <-; reflexivity.
  - injection E as -> E. destruct (dget l y) as [m|] eqn:D.
    + destruct (create p new m) as [m'|] eqn:C; [|discriminate]. injection H as <-. cbn. rewrite dget_kset by congruence.
      destruct (eq_dec y y); [|congruence]. rewrite D. eapply IH; eauto.
    + injection H as <-. cbn. rewrite dget_insert by exact D. destruct (eq_dec y y); [|congruence].
      destruct (chain_above p q r new E Hr) as (m & Em & Ea). exists m. auto.
Qed.
End Files.
