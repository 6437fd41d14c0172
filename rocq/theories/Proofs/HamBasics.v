(** Basic lemmas about the Hamiltonian model: store updates, loops, lookups. *)
From Coq Require Import List Bool ZArith Lia Permutation String.
From Coq Require Import Ring Field Field_theory Ring_theory.
From Verif.Base Require Import Scalar Linear3 PyDict.
From Verif.Model Require Import MatrixParam Hamiltonian.
From Verif.Spec Require Import HamSpec.
From Verif.Proofs Require Import DictProofs.
Import ListNotations.

#[global] Arguments mirror : simpl never.
#[global] Arguments canonical : simpl never.
#[global] Arguments eq_dec : simpl never.
#[global] Arguments bkey_eq_dec : simpl never.
#[global] Arguments atom_eq_dec : simpl never.
#[global] Arguments cell3_eq_dec : simpl never.
#[global] Arguments item_eq_dec : simpl never.

(** ** Bond keys *)
Lemma cneg_invol c : cneg (cneg c) = c.
Proof. destruct c as [[i j] k]; cbn. rewrite !Z.opp_involutive. reflexivity. Qed.
Lemma mirror_invol k : mirror (mirror k) = k.
Proof. destruct k as [a b c]. unfold mirror; cbn. rewrite cneg_invol. reflexivity. Qed.
Lemma mirror_inj k k' : mirror k = mirror k' -> k = k'.
Proof. intros H. rewrite <- (mirror_invol k), H. apply mirror_invol. Qed.
Lemma mirror_eq k k' : mirror k = k' <-> k = mirror k'.
Proof. split; intros H; [rewrite <- H|rewrite H]; rewrite mirror_invol; reflexivity. Qed.

Lemma self_bond_iff k : mirror k = k <-> b_from k = b_to k /\ b_cell k = (0, 0, 0)%Z.
Proof.
  destruct k as [a b [[i j] n]]; unfold mirror; cbn. split.
  - intros [= -> _ ? ? ?]. split; [reflexivity|]. f_equal; [f_equal|]; lia.
  - intros [-> [= -> -> ->]]. reflexivity.
Qed.

Lemma canonical_kept k : canonical k = true <-> kept_direction k.
Proof.
  destruct k as [a b [[i j] n]]; unfold canonical, kept_direction; cbn.
  rewrite !orb_true_iff, !andb_true_iff, !Z.ltb_lt, !Z.eqb_eq, Z.leb_le. lia.
Qed.

(** Of a bond and its mirror one direction is kept; both only in the degenerate case. *)
Lemma canonical_or k : canonical k = true \/ canonical (mirror k) = true.
Proof.
  rewrite !canonical_kept. destruct k as [a b [[i j] n]]; unfold kept_direction, mirror; cbn. lia.
Qed.
Lemma canonical_both k : canonical k = true -> canonical (mirror k) = true ->
  b_cell k = (0, 0, 0)%Z /\ a_index (b_from k) = a_index (b_to k).
Proof.
  rewrite !canonical_kept. destruct k as [a b [[i j] n]]; unfold kept_direction, mirror; cbn.
  intros H1 H2. assert (i = 0 /\ j = 0 /\ n = 0 /\ a_index a = a_index b)%Z as (-> & -> & -> & ->) by lia. auto.
Qed.

Section Basics.
Context {F : Type} {SF : Scalar F}.
Notation world := (@world F).
Notation M := (@M F).
Local Open Scope py_scope.

(** ** Store *)
Lemma length_list_set (l : list (M3 F)) n m : List.length (list_set l n m) = List.length l.
Proof. revert n; induction l; intros [|n]; cbn; auto. Qed.
Lemma nth_list_set (l : list (M3 F)) n m i :
  nth_error (list_set l n m) i = if Nat.eqb i n then (match nth_error l n with Some _ => Some m | None => None end) else nth_error l i.
Proof.
  revert n i; induction l as [|x l IH]; intros [|n] [|i]; cbn; try reflexivity.
  - destruct (Nat.eqb i n); reflexivity.
  - apply IH.
Qed.

(** A batch of in-place updates [object at l := f (object at l)], in order. *)
Definition apply_upd (st : list (M3 F)) (u : loc * (M3 F -> M3 F)) : list (M3 F) :=
  match nth_error st (fst u) with Some m => list_set st (fst u) (snd u m) | None => st end.
Definition apply_upds (st : list (M3 F)) (us : list (loc * (M3 F -> M3 F))) := fold_left apply_upd us st.

Lemma nth_apply_upd st u i : nth_error (apply_upd st u) i =
  if Nat.eqb i (fst u) then option_map (snd u) (nth_error st i) else nth_error st i.
Proof.
  unfold apply_upd. destruct (Nat.eqb_spec i (fst u)) as [->|N].
  - destruct (nth_error st (fst u)) eqn:E; cbn; [|exact E].
    rewrite nth_list_set, Nat.eqb_refl, E. reflexivity.
  - destruct (nth_error st (fst u)) eqn:E; trivial. rewrite nth_list_set.
    destruct (Nat.eqb_spec i (fst u)); congruence.
Qed.
Lemma length_apply_upds us st : List.length (apply_upds st us) = List.length st.
Proof.
  revert st; induction us as [|u us IH]; intros st; cbn; trivial.
  unfold apply_upds in IH. rewrite IH. unfold apply_upd. destruct (nth_error _ _); trivial. apply length_list_set.
Qed.
Lemma nth_apply_upds_out us st i : ~ In i (map fst us) -> nth_error (apply_upds st us) i = nth_error st i.
Proof.
  revert st; induction us as [|u us IH]; intros st N; cbn; trivial.
  unfold apply_upds in IH. rewrite IH by (cbn in N; tauto). rewrite nth_apply_upd.
  destruct (Nat.eqb_spec i (fst u)); trivial. exfalso; apply N; cbn; auto.
Qed.
Lemma nth_apply_upds_in us st i f : NoDup (map fst us) -> In (i, f) us ->
  nth_error (apply_upds st us) i = option_map f (nth_error st i).
Proof.
  revert st; induction us as [|u us IH]; intros st N I; [destruct I|]. inversion N; subst. cbn.
  destruct I as [->|I].
  - fold (apply_upds (apply_upd st (i, f)) us). rewrite nth_apply_upds_out by assumption.
    rewrite nth_apply_upd. cbn. rewrite Nat.eqb_refl. reflexivity.
  - unfold apply_upds in IH. rewrite IH by assumption. rewrite nth_apply_upd.
    destruct (Nat.eqb_spec i (fst u)); trivial. subst. exfalso. apply H1.
    change (fst u) with (fst (fst u, f)). apply in_map. exact I.
Qed.
Lemma apply_upds_app us us' st : apply_upds st (us ++ us') = apply_upds (apply_upds st us) us'.
Proof. apply fold_left_app. Qed.

(** ** Monad *)
Lemma bind_ret {A B} (a : A) (k : A -> M B) w : bind (ret a) k w = k a w.
Proof. reflexivity. Qed.
Lemma bind_raise {A B} e (k : A -> M B) w : bind (raise e) k w = (w, Raise e).
Proof. reflexivity. Qed.
Lemma bind_gets {A B} (f : ham -> A) (k : A -> M B) w : bind (gets f) k w = k (f (w_ham w)) w.
Proof. reflexivity. Qed.

Lemma bind_val {A B} (m : M A) (k : A -> M B) w w' a : m w = (w', Ret a) -> bind m k w = k a w'.
Proof. intros H. unfold bind. rewrite H. reflexivity. Qed.
Lemma bind_exn {A B} (m : M A) (k : A -> M B) w w' e : m w = (w', Raise e) -> bind m k w = (w', Raise e).
Proof. intros H. unfold bind. rewrite H. reflexivity. Qed.
Lemma bind_inv {A B} (m : M A) (k : A -> M B) w w' b : bind m k w = (w', Ret b) ->
  exists w1 a, m w = (w1, Ret a) /\ k a w1 = (w', Ret b).
Proof. unfold bind. destruct (m w) as [w1 [a|e]]; [eauto|discriminate]. Qed.
Lemma spin_some (w : world) a s : dget (h_spins (w_ham w)) a = Some s -> spin a w = (w, Ret s).
Proof. intros H. unfold spin, gets, bind. rewrite H. reflexivity. Qed.
Lemma spin_none (w : world) a : dget (h_spins (w_ham w)) a = None -> spin a w = (w, Raise ValueError).
Proof. intros H. unfold spin, gets, bind. rewrite H. reflexivity. Qed.

Lemma nth_error_lt {A} (l : list A) n : (n < List.length l)%nat -> exists x, nth_error l n = Some x.
Proof. intros H. destruct (nth_error l n) eqn:E; eauto. apply nth_error_None in E. lia. Qed.

(** The outcome of a loop whose body updates one object per element and never touches the rest
    of the state. *)
Lemma for_each_upds {A} (l : list A) (body : A -> M unit) (u : A -> loc * (M3 F -> M3 F)) (h : ham) (n : nat) :
  (forall x st, In x l -> List.length st = n -> body x (mkW st h) = (mkW (apply_upd st (u x)) h, Ret tt)) ->
  forall st, List.length st = n ->
  for_each l body (mkW st h) = (mkW (apply_upds st (map u l)) h, Ret tt).
Proof.
  intros Hb. induction l as [|x l IH]; intros st Hl; [reflexivity|].
  cbn [for_each map]. unfold bind. rewrite Hb by (auto; left; auto). cbn.
  assert (List.length (apply_upd st (u x)) = n).
  { rewrite <- Hl. apply (length_apply_upds [u x]). }
  apply IH; auto. intros; apply Hb; auto. right; auto.
Qed.

End Basics.
