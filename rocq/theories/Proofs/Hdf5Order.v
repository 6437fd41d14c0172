(** The numerals 1, 2, ... in the order of words. *)
From Coq Require Import String Ascii List Bool ZArith Arith Lia Permutation Sorting.Sorted DecimalString DecimalFacts DecimalNat.
From Verif.Base Require Import PyDict PyString.
From Verif.Spec Require Import Hdf5Spec.
From Verif.Model Require Import Hdf5.
From Verif.Proofs Require Import Hdf5Files.
Import ListNotations.

(** ** Sorting by words is unique *)
Lemma cmp_irrefl a : String.compare a a <> Lt.
Proof. rewrite cmp_refl. discriminate. Qed.
Lemma sorted_unique {A} : forall l l' : list (string * A), StronglySorted word_order l -> StronglySorted word_order l' -> Permutation l l' -> l = l'.
Proof.
  induction l as [|x l IH]; intros l' S S' P; [apply Permutation_nil in P; auto|].
  destruct l' as [|y l']; [apply Permutation_sym, Permutation_nil in P; discriminate|].
  inversion S as [|? ? S1 A1]; inversion S' as [|? ? S2 A2]; subst. rewrite Forall_forall in A1, A2.
  assert (E : x = y).
  { pose proof (Permutation_in x P (or_introl eq_refl)) as [H|H]; [auto|].
    pose proof (Permutation_in y (Permutation_sym P) (or_introl eq_refl)) as [H'|H']; [auto|].
    exfalso. apply (cmp_irrefl (fst x)). exact (cmp_trans _ _ _ (A1 y H') (A2 x H)). }
  subst y. f_equal. apply IH; auto. eapply Permutation_cons_inv, P.
Qed.
Lemma in_word_order_map {A B} (f : A -> B) l l' : in_word_order l l' -> in_word_order (map f l) (map f l').
Proof.
  intros (ls & -> & P & S). exists (map (fun p => (fst p, f (snd p))) ls). split; [rewrite !map_map; reflexivity|]. split.
  - rewrite map_length. apply (Permutation_map (fun p => (fst p, f (snd p)))) in P. eapply Permutation_trans; [|exact P].
    clear. generalize (map numeral (seq 1 (List.length l))). induction l as [|x l IH]; intros [|y ys]; cbn; auto.
  - clear - S. induction S as [|p ls S IH AA]; cbn; constructor; auto. rewrite Forall_map. exact AA.
Qed.
Lemma in_word_order_unique {A} (l l1 l2 : list A) : in_word_order l l1 -> in_word_order l l2 -> l1 = l2.
Proof.
  intros (a & -> & P & S) (b & -> & P' & S'). f_equal. apply sorted_unique; auto.
  eapply Permutation_trans; [apply Permutation_sym, P|exact P'].
Qed.
(** Up to nine entries stay in order. *)
Lemma in_word_order_small {A} (l : list A) : List.length l <= 9 -> in_word_order l l.
Proof.
  intros H. exists (combine (map numeral (seq 1 (List.length l))) l). split; [|split; [reflexivity|]].
  - clear. generalize 1. induction l as [|x l IH]; intros n; [reflexivity|]. cbn. f_equal. apply IH.
  - destruct l as [|x1 [|x2 [|x3 [|x4 [|x5 [|x6 [|x7 [|x8 [|x9 [|x10 l]]]]]]]]]]; cbn [List.length] in H; try lia;
      cbn [List.length seq map combine]; repeat (constructor; auto).
Qed.

(** ** 1 is the first numeral, 10 the second *)
Definition digit (c : ascii) : Prop := (48 <= N_of_ascii c)%N.
Fixpoint digits (s : string) : Prop := match s with EmptyString => True | String c t => digit c /\ digits t end.
Lemma digits_of d : digits (NilEmpty.string_of_uint d).
Proof. induction d; cbn; auto; split; auto; unfold digit; cbn; lia. Qed.
Lemma nzhead_no_zero d d' : Decimal.nzhead d <> Decimal.D0 d'.
Proof. induction d; cbn; try discriminate. exact IHd. Qed.
Lemma numeral_first n : 1 <= n -> exists c t, numeral n = String c t /\ (49 <= N_of_ascii c)%N /\ digits t.
Proof.
  intros H. unfold numeral.
  assert (E : Decimal.unorm (Nat.to_uint n) = Nat.to_uint n) by (rewrite <- Unsigned.to_of, Unsigned.of_to; reflexivity).
  assert (Nz : Nat.to_uint n <> Decimal.D0 Decimal.Nil).
  { intros Z. pose proof (Unsigned.of_to n) as K. rewrite Z in K. cbn in K. lia. }
  unfold Decimal.unorm in E. destruct (Decimal.nzhead (Nat.to_uint n)) eqn:K; [congruence| | | | | | | | | |]; [exfalso; exact (nzhead_no_zero _ _ K)|..];
    rewrite <- E; cbn; do 2 eexists; (split; [reflexivity|]); split; try (cbn; lia); apply digits_of.
Qed.
Lemma one_least n : 1 <= n -> n <> 1 -> String.compare (numeral 1) (numeral n) = Lt.
Proof.
  intros H1 H2. destruct (numeral_first n H1) as (c & t & E & Hc & Ht). rewrite E. change (numeral 1) with "1"%string. cbn [String.compare].
  rewrite ascii_cmp. change (N_of_ascii "1") with 49%N. destruct (N.compare 49 (N_of_ascii c)) eqn:K; [|reflexivity|apply N.compare_gt_iff in K; lia].
  apply N.compare_eq in K. destruct t; [|reflexivity]. exfalso. apply H2.
  assert (c = "1"%char) by (rewrite <- (ascii_N_embedding c), <- K; reflexivity). subst c. apply decimal_inj. exact E.
Qed.
Lemma ten_second n : 1 <= n -> n <> 1 -> n <> 10 -> String.compare (numeral 10) (numeral n) = Lt.
Proof.
  intros H1 H2 H3. destruct (numeral_first n H1) as (c & t & E & Hc & Ht). rewrite E. change (numeral 10) with "10"%string. cbn [String.compare].
  rewrite ascii_cmp. change (N_of_ascii "1") with 49%N. destruct (N.compare 49 (N_of_ascii c)) eqn:K; [|reflexivity|apply N.compare_gt_iff in K; lia].
  apply N.compare_eq in K. assert (c = "1"%char) by (rewrite <- (ascii_N_embedding c), <- K; reflexivity). subst c.
  destruct t as [|d t]; [exfalso; apply H2, decimal_inj, E|]. rewrite ascii_cmp. change (N_of_ascii "0") with 48%N. destruct Ht as [Hd Ht].
  unfold digit in Hd. destruct (N.compare 48 (N_of_ascii d)) eqn:K2; [|reflexivity|apply N.compare_gt_iff in K2; lia].
  apply N.compare_eq in K2. assert (d = "0"%char) by (rewrite <- (ascii_N_embedding d), <- K2; reflexivity). subst d.
  destruct t; [exfalso; apply H3, decimal_inj, E|reflexivity].
Qed.
Lemma least_head {A} (x : string * A) : forall l, StronglySorted word_order l -> In x l -> (forall y, In y l -> y = x \/ word_order x y) ->
  exists l', l = x :: l'.
Proof.
  intros [|y l] S I H; [destruct I|]. destruct (H y (or_introl eq_refl)) as [->|Hy]; [eauto|]. exfalso. inversion S as [|? ? S1 A1]; subst.
  rewrite Forall_forall in A1. destruct I as [->|I]; [exact (cmp_irrefl _ Hy)|]. exact (cmp_irrefl _ (cmp_trans _ _ _ Hy (A1 x I))).
Qed.
Lemma numbered_In {A} (l : list A) : forall k p, In p (combine (map numeral (seq k (List.length l))) l) ->
  exists j, k <= j /\ fst p = numeral j /\ nth_error l (j - k) = Some (snd p).
Proof.
  induction l as [|x l IH]; intros k p H; [destruct H|]. cbn in H. destruct H as [<-|H].
  - exists k. rewrite Nat.sub_diag. cbn. auto.
  - destruct (IH (S k) p H) as (j & H1 & H2 & H3). exists j. split; [lia|]. split; [exact H2|]. replace (j - k) with (S (j - S k)) by lia. exact H3.
Qed.
Lemma numbered_In_inv {A} (l : list A) : forall k i x, nth_error l i = Some x -> In (numeral (k + i), x) (combine (map numeral (seq k (List.length l))) l).
Proof.
  induction l as [|y l IH]; intros k [|i] x H; cbn in *; try discriminate.
  - injection H as ->. rewrite Nat.add_0_r. left. reflexivity.
  - right. replace (k + S i) with (S k + i) by lia. apply IH, H.
Qed.
(** The second entry that is read is the tenth that was written. *)
Lemma in_word_order_second {A} (l l' : list A) : 10 <= List.length l -> in_word_order l l' -> nth_error l' 1 = nth_error l 9.
Proof.
  intros H (ls & -> & P & S).
  destruct (nth_error l 0) as [x1|] eqn:E1; [|apply nth_error_None in E1; lia].
  destruct (nth_error l 9) as [x10|] eqn:E10; [|apply nth_error_None in E10; lia].
  assert (Hin : forall p, In p ls -> exists j, 1 <= j /\ fst p = numeral j /\ nth_error l (j - 1) = Some (snd p)).
  { intros p Hp. apply numbered_In. apply (Permutation_in _ (Permutation_sym P) Hp). }
  assert (I1 : In (numeral 1, x1) ls) by (apply (Permutation_in _ P); exact (numbered_In_inv l 1 0 x1 E1)).
  assert (I10 : In (numeral 10, x10) ls) by (apply (Permutation_in _ P); exact (numbered_In_inv l 1 9 x10 E10)).
  destruct (least_head (numeral 1, x1) ls S I1) as [l1 ->].
  { intros [n y] Hy. destruct (Hin _ Hy) as (j & Hj & Ej & Nj). cbn [fst snd] in *. subst n. destruct (Nat.eq_dec j 1) as [->|Ne].
    - left. cbn [Nat.sub] in Nj. congruence.
    - right. apply one_least; assumption. }
  assert (I10' : In (numeral 10, x10) l1) by (destruct I10 as [K|K]; [discriminate K|exact K]).
  inversion S as [|? ? S1 A1]; subst. rewrite Forall_forall in A1.
  destruct (least_head (numeral 10, x10) l1 S1 I10') as [l2 ->].
  { intros [n y] Hy. destruct (Hin _ (or_intror Hy)) as (j & Hj & Ej & Nj). cbn [fst snd] in *. subst n. destruct (Nat.eq_dec j 1) as [->|Ne].
    - exfalso. pose proof (A1 _ Hy) as K. unfold word_order in K. cbn [fst] in K. exact (cmp_irrefl _ K).
    - destruct (Nat.eq_dec j 10) as [->|Ne']; [left; cbn [Nat.sub] in Nj; congruence|]. right. apply ten_second; assumption. }
  reflexivity.
Qed.
