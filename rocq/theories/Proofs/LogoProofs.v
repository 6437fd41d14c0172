From Coq Require Import String Ascii List Bool NArith Arith Lia.
From Verif.Model Require Import Logo.
From Verif.Spec Require Import TxtSpec LogoSpec.
Import ListNotations.
Local Open Scope list_scope.

(** ** Lines *)
Lemma lines_some s : lines s <> [].
Proof. destruct s as [|c s]; [discriminate|]. cbn. destruct (N.eqb c 10); [discriminate|]. destruct (lines s); discriminate. Qed.
Lemma lines_one s : one_line s -> lines s = [s].
Proof.
  induction s as [|c s IH]; [reflexivity|]. intros H. cbn [lines]. destruct (N.eqb_spec c 10) as [->|N]; [exfalso; apply H; left; reflexivity|].
  rewrite IH; [reflexivity|]. intros X. apply H. right. exact X.
Qed.
Lemma lines_app a b : one_line a -> lines (a ++ 10%N :: b) = a :: lines b.
Proof.
  induction a as [|c a IH]; [reflexivity|]. intros H. cbn [app lines]. destruct (N.eqb_spec c 10) as [->|N]; [exfalso; apply H; left; reflexivity|].
  rewrite IH; [reflexivity|]. intros X. apply H. right. exact X.
Qed.
Lemma removelast_concat (ls : list (list N)) : ls <> [] -> removelast (concat (map (fun l => l ++ [10%N]) ls)) =
  match ls with [] => [] | l :: t => l ++ concat (map (fun l => 10%N :: l) t) end.
Proof.
  induction ls as [|l ls IH]; [congruence|]. intros _. destruct ls as [|m ls].
  - cbn. rewrite app_nil_r, app_nil_r. apply removelast_last.
  - cbn [map concat] in *. rewrite removelast_app by (destruct m; discriminate).
    rewrite IH by discriminate. rewrite <- app_assoc. cbn [app]. reflexivity.
Qed.
Lemma lines_concat ls l : one_line l -> Forall one_line ls -> lines (l ++ concat (map (fun l => 10%N :: l) ls)) = l :: ls.
Proof.
  intros Hl H. revert l Hl. induction H as [|m ls Hm _ IH]; intros l Hl; cbn [map concat].
  - rewrite app_nil_r. apply lines_one, Hl.
  - cbn [app]. rewrite lines_app by exact Hl. rewrite IH by exact Hm. reflexivity.
Qed.

(** ** Padding *)
Lemma one_line_app a b : one_line a -> one_line b -> one_line (a ++ b).
Proof. intros A B X. apply in_app_iff in X. destruct X; auto. Qed.
Lemma one_line_repeat n : one_line (repeat space n).
Proof. intros X. apply repeat_spec in X. discriminate. Qed.
Lemma one_line_centred w x : one_line x -> one_line (centred w x).
Proof. intros H. unfold centred. repeat apply one_line_app; auto using one_line_repeat. Qed.
Lemma one_line_left w x : one_line x -> one_line (left_in w x).
Proof. intros H. unfold left_in. apply one_line_app; auto using one_line_repeat. Qed.
Lemma half n : (n / 2 <= n)%nat.
Proof. apply Nat.div_le_upper_bound; lia. Qed.
Lemma centred_length w x : List.length (centred w x) = Nat.max w (List.length x).
Proof. unfold centred. rewrite !app_length, !repeat_length. pose proof (half (w - List.length x)). lia. Qed.
Lemma contains_centred w x y : contains x y -> contains (centred w x) y.
Proof. intros (a & b & ->). unfold centred. set (l := repeat space _). set (r := repeat space _). exists (l ++ a), (b ++ r). rewrite <- !app_assoc. reflexivity. Qed.
Lemma contains_refl x : contains x x.
Proof. exists [], []. rewrite app_nil_r. reflexivity. Qed.
Lemma contains_left p x y : contains x y -> contains (p ++ x) y.
Proof. intros (a & b & ->). exists (p ++ a), b. rewrite <- !app_assoc. reflexivity. Qed.
Lemma contains_right p x y : contains x y -> contains (x ++ p) y.
Proof. intros (a & b & ->). exists a, (b ++ p). rewrite <- !app_assoc. reflexivity. Qed.

(** ** The lines of the picture *)
Definition clean (l : list (list N)) : bool := forallb (fun x => forallb (fun c => negb (N.eqb c 10)) x) l.
Lemma clean_lines l : clean l = true -> Forall one_line l.
Proof.
  intros H. apply Forall_forall. intros x Hx X. unfold clean in H. rewrite forallb_forall in H. specialize (H x Hx). rewrite forallb_forall in H. specialize (H _ X). discriminate.
Qed.
Lemma art_clean flat : Forall one_line (picture flat).
Proof. destruct flat; apply clean_lines; vm_compute; reflexivity. Qed.
Lemma cat_clean : Forall one_line cat.
Proof. apply clean_lines. vm_compute. reflexivity. Qed.
Lemma nth_clean l i : Forall one_line l -> one_line (nth i l []).
Proof.
  intros H. destruct (nth_in_or_default i l []) as [X|X]; [rewrite Forall_forall in H; auto|]. rewrite X. intros [].
Qed.
Lemma cat_length : List.length cat = 7%nat.
Proof. reflexivity. Qed.
Lemma cat_width : List.length (nth 0 cat []) = 10%nat.
Proof. reflexivity. Qed.

Lemma info_clean wide n info : Forall one_line info -> Forall one_line (info_lines wide n info).
Proof.
  intros H. unfold info_lines. destruct info as [|x t] eqn:E; [constructor|]. rewrite <- E in *. clear E x t.
  assert (S1 : one_line [space]) by (intros [X|[]]; discriminate).
  assert (FE : forall i b, one_line (from_end info i b)) by (intros i b; unfold from_end; destruct (Nat.ltb i b); apply nth_clean, H).
  match goal with |- Forall _ (if ?b then _ else _) => destruct b end; apply Forall_forall; intros l Hl; apply in_map_iff in Hl; destruct Hl as (i & <- & _);
    match goal with |- one_line (if ?b then _ else _) => destruct b end; repeat apply one_line_app; auto using one_line_centred, one_line_left, one_line_repeat, nth_clean, cat_clean.
Qed.
Lemma info_count wide n info : List.length (info_lines wide n info) = match info with [] => 0%nat | _ => Nat.max 7 (List.length info) end.
Proof.
  unfold info_lines. destruct info as [|x t] eqn:E; [reflexivity|]. rewrite <- E in *. rewrite cat_length. destruct (Nat.leb_spec (List.length info) 7); rewrite map_length, seq_length; lia.
Qed.
Lemma picture_some flat : picture flat <> [].
Proof. destruct flat; discriminate. Qed.

(** What the logo is, line by line. *)
Lemma logo_lines info ll flat c : Forall one_line info -> one_line (comment_of c) ->
  lines (logo info ll flat c) = map (fun x => comment_of c ++ centred (total_length ll flat) x) (plain_lines info flat).
Proof.
  intros H Hc. unfold logo.
  assert (E : map (fun x => comment_of c ++ centred (total_length ll flat) x ++ [newline]) (plain_lines info flat)
            = map (fun l => l ++ [10%N]) (map (fun x => comment_of c ++ centred (total_length ll flat) x) (plain_lines info flat))).
  { rewrite map_map. apply map_ext. intros x. rewrite <- app_assoc. reflexivity. }
  rewrite E. clear E. set (ls := map (fun x => comment_of c ++ centred (total_length ll flat) x) (plain_lines info flat)).
  assert (F : Forall one_line ls).
  { unfold ls. apply Forall_forall. intros l Hl. apply in_map_iff in Hl. destruct Hl as (x & <- & Hx). apply one_line_app; [exact Hc|]. apply one_line_centred.
    unfold plain_lines in Hx. apply in_app_iff in Hx. destruct Hx as [Hx|Hx].
    - apply in_map_iff in Hx. destruct Hx as (y & <- & Hy). apply one_line_centred. pose proof (art_clean flat) as A. rewrite Forall_forall in A. auto.
    - pose proof (info_clean (width flat) (List.length (nth 0 cat []) + 2) info H) as A. rewrite Forall_forall in A. auto. }
  assert (N : ls <> []). { unfold ls, plain_lines. destruct (picture flat) eqn:E; [destruct (picture_some flat E)|discriminate]. }
  rewrite (removelast_concat ls N). destruct ls as [|l t]; [congruence|]. inversion F; subst. apply lines_concat; assumption.
Qed.
Lemma logo_starts info ll flat c : Forall one_line info -> one_line (comment_of c) -> Forall (starts (comment_of c)) (lines (logo info ll flat c)).
Proof.
  intros H Hc. rewrite logo_lines by assumption. apply Forall_forall. intros l Hl. apply in_map_iff in Hl. destruct Hl as (x & <- & _). eexists. reflexivity.
Qed.
Lemma logo_count info ll flat c : Forall one_line info -> one_line (comment_of c) ->
  List.length (lines (logo info ll flat c)) = ((if flat then 5 else 6) + match info with [] => 0 | _ => Nat.max 7 (List.length info) end)%nat.
Proof.
  intros H Hc. rewrite logo_lines by assumption. rewrite map_length. unfold plain_lines. rewrite app_length, map_length, info_count. destruct flat; reflexivity.
Qed.
Lemma width_val flat : width flat = if flat then 69%nat else 70%nat.
Proof. destruct flat; reflexivity. Qed.
Lemma in_firstn_cat i : (List.length (nth i cat []) <= 10)%nat.
Proof. do 8 (destruct i as [|i]; [cbn; lia|]). cbn. destruct i; cbn; lia. Qed.
(** Every line has the same length when the information fits. *)
Lemma logo_length info ll flat c : Forall one_line info -> one_line (comment_of c) -> Forall (fun x => (List.length x <= width flat - 12)%nat) info ->
  Forall (fun l => List.length l = (List.length (comment_of c) + match ll with None => width flat | Some n => Nat.max n (width flat) end)%nat) (lines (logo info ll flat c)).
Proof.
  intros H Hc HW. rewrite logo_lines by assumption. apply Forall_forall. intros l Hl. apply in_map_iff in Hl. destruct Hl as (x & <- & Hx).
  rewrite app_length, centred_length. f_equal.
  assert (W : (List.length x <= width flat)%nat).
  { unfold plain_lines in Hx. apply in_app_iff in Hx. destruct Hx as [Hx|Hx].
    - apply in_map_iff in Hx. destruct Hx as (y & <- & Hy). rewrite centred_length.
      assert (A : Forall (fun y => (List.length y <= width flat)%nat) (picture flat)) by (destruct flat; repeat constructor). rewrite Forall_forall in A. specialize (A _ Hy). lia.
    - assert (K : forall i, (List.length (nth i info []) <= width flat - 12)%nat).
      { intros i. destruct (nth_in_or_default i info []) as [X|X]; [rewrite Forall_forall in HW; auto|rewrite X; cbn; lia]. }
      assert (FE : forall i b, (List.length (from_end info i b) <= width flat - 12)%nat) by (intros; unfold from_end; destruct (Nat.ltb _ _); apply K).
      assert (WV : (width flat >= 69)%nat) by (rewrite width_val; destruct flat; lia).
      assert (J1 : forall a b, (List.length a <= width flat - 12)%nat -> (List.length b <= 10)%nat -> (List.length (centred (width flat - (10 + 2)) a ++ centred (10 + 2) b) <= width flat)%nat)
        by (intros a b A B; rewrite app_length, !centred_length; lia).
      assert (J2 : forall b, (List.length b <= 10)%nat -> (List.length (left_in (width flat - (10 + 2)) [space] ++ centred (10 + 2) b) <= width flat)%nat)
        by (intros b B; rewrite app_length, centred_length; unfold left_in; rewrite app_length, repeat_length; cbn [List.length]; lia).
      assert (J3 : forall a, (List.length a <= width flat - 12)%nat -> (List.length (centred (width flat - (10 + 2)) a) <= width flat)%nat)
        by (intros a A; rewrite centred_length; lia).
      pose proof in_firstn_cat as IC.
      unfold info_lines in Hx. rewrite cat_width in Hx. destruct info as [|i0 it] eqn:E; [destruct Hx|]. rewrite <- E in *. clear E.
      match type of Hx with In _ (if ?b then _ else _) => destruct b end; apply in_map_iff in Hx; destruct Hx as (i & <- & _);
        match goal with |- (List.length (if ?b then _ else _) <= _)%nat => destruct b end; auto. }
  unfold total_length. destruct ll as [n|]; [|lia]. destruct (Nat.ltb_spec n (width flat)); lia.
Qed.

(** ** The information *)
Lemma nth_error_seq_map {A} (f : nat -> A) n i : (i < n)%nat -> nth_error (map f (seq 0 n)) i = Some (f i).
Proof.
  intros H. rewrite (nth_error_nth' (map f (seq 0 n)) (f 0%nat)) by (rewrite map_length, seq_length; exact H). f_equal.
  rewrite (map_nth f). rewrite seq_nth by exact H. reflexivity.
Qed.
Lemma info_shown wide n info : (List.length info <= 8)%nat -> exists start, forall i, (i < List.length info)%nat ->
  exists l, nth_error (info_lines wide n info) (start + i) = Some l /\ contains l (nth i info []).
Proof.
  intros H. unfold info_lines. destruct info as [|x t] eqn:E; [exists 0%nat; cbn; lia|]. rewrite <- E in *. assert (P : (0 < List.length info)%nat) by (rewrite E; cbn; lia). clear E.
  rewrite cat_length. destruct (Nat.leb_spec (List.length info) 7) as [L|L].
  - set (before := ((7 - List.length info) / 2 + (7 - List.length info) mod 2)%nat). set (after := (7 - List.length info - before)%nat). exists before.
    assert (B : (before <= 7 - List.length info)%nat).
    { unfold before. assert (D := Nat.div_mod (7 - List.length info) 2 ltac:(lia)). assert (M := Nat.mod_upper_bound (7 - List.length info) 2 ltac:(lia)). lia. }
    intros i Hi. rewrite nth_error_seq_map by lia. eexists. split; [reflexivity|].
    replace (Nat.ltb (before + i) before) with false by (symmetry; apply Nat.ltb_ge; lia).
    replace (Nat.leb (7 - after) (before + i)) with false by (symmetry; apply Nat.leb_gt; unfold after; lia).
    cbn [orb]. replace (before + i - before)%nat with i by lia. apply contains_right, contains_centred, contains_refl.
  - assert (E8 : List.length info = 8%nat) by lia. exists 0%nat. intros i Hi. rewrite nth_error_seq_map by lia. eexists. split; [reflexivity|].
    rewrite E8. cbn [Nat.add]. change ((8 - 7) / 2)%nat with 0%nat. cbn [Nat.ltb Nat.leb orb]. unfold from_end. cbn [Nat.ltb Nat.leb]. replace (i - 0)%nat with i by lia.
    match goal with |- contains (if ?b then _ else _) _ => destruct b end; [|apply contains_right]; apply contains_centred, contains_refl.
Qed.
Lemma logo_shown info ll flat c : Forall one_line info -> one_line (comment_of c) -> (List.length info <= 8)%nat -> shown_in_order info (lines (logo info ll flat c)).
Proof.
  intros H Hc L. rewrite logo_lines by assumption. destruct (info_shown (width flat) (List.length (nth 0 cat []) + 2) info L) as [s Hs].
  exists (List.length (picture flat) + s)%nat. intros i Hi. destruct (Hs i Hi) as (l & E & C). eexists. split.
  - apply map_nth_error. unfold plain_lines. rewrite nth_error_app2 by (rewrite map_length; lia). rewrite map_length.
    replace (List.length (picture flat) + s + i - List.length (picture flat))%nat with (s + i)%nat by lia. exact E.
  - apply contains_left, contains_centred, C.
Qed.

(** Nine lines "a" ... "i": the last one comes first. *)
Definition nine : list text := [[97]; [98]; [99]; [100]; [101]; [102]; [103]; [104]; [105]]%N.
Definition has (c : N) (l : text) : bool := existsb (N.eqb c) l.
Lemma contains_has c l : contains l [c] -> has c l = true.
Proof. intros (a & b & ->). unfold has. rewrite existsb_app. cbn. rewrite N.eqb_refl. rewrite orb_true_r. reflexivity. Qed.
Lemma shown_refuted : exists info, Forall one_line info /\ Forall (fun x => (List.length x <= 58)%nat) info /\ ~ shown_in_order info (lines (logo info None false CNone)).
Proof.
  exists nine. assert (F : Forall one_line nine) by (apply clean_lines; reflexivity). split; [exact F|]. split; [repeat constructor|]. rewrite logo_lines by (auto; intros []). intros [s Hs].
  set (ls := map _ _) in Hs.
  assert (K : forall j l, nth_error ls j = Some l -> has 97 l = true -> j = 7%nat).
  { intros j l E B. assert (G : nth_error (map (has 97) ls) j = Some true) by (rewrite <- B; apply map_nth_error, E).
    change (map (has 97) ls) with [false; false; false; false; false; false; false; true; false; false; false; false; false; false; false] in G.
    do 7 (destruct j as [|j]; [discriminate|]). destruct j as [|j]; [reflexivity|]. do 8 (destruct j; [discriminate|]). destruct j; discriminate. }
  destruct (Hs 0%nat) as (l & E & C); [cbn; lia|]. apply contains_has in C. specialize (K _ _ E C).
  destruct (Hs 8%nat) as (l8 & E8 & _); [cbn; lia|]. replace (s + 8)%nat with 15%nat in E8 by lia. vm_compute in E8. discriminate.
Qed.
Lemma false_refuted : exists info, Forall one_line info /\ logo info None false (CBool false) <> logo info None false CNone /\
  Forall (starts [70; 97; 108; 115; 101]%N) (lines (logo info None false (CBool false))).
Proof.
  exists [[97]%N]. assert (F : Forall one_line [[97]%N]) by (apply clean_lines; reflexivity). split; [exact F|]. split.
  - intros X. apply (f_equal (fun t => nth 0 t 0%N)) in X. vm_compute in X. discriminate.
  - apply (logo_starts _ _ _ (CBool false)); [exact F|]. cbn. intros X. repeat (destruct X as [X|X]; [discriminate|]). exact X.
Qed.

(** ** In a text file *)
Lemma ascii_newline c : c <> 10%N -> to_ascii c <> ascii_of_nat 10.
Proof.
  intros H. unfold to_ascii. destruct (N.ltb_spec c 128) as [L|L]; [|discriminate]. intros X. apply H.
  apply (f_equal N_of_ascii) in X. rewrite N_ascii_embedding in X by lia. exact X.
Qed.
Lemma string_clean x : one_line x -> all_chars (fun c => c <> ascii_of_nat 10) (to_string x).
Proof.
  induction x as [|c x IH]; [exact (fun _ => I)|]. intros H. split; [apply ascii_newline; intros ->; apply H; left; reflexivity|]. apply IH. intros X. apply H. right. exact X.
Qed.
Lemma logo_comments info ll flat : Forall one_line info ->
  let ls := map to_string (lines (logo info ll flat (CBool true))) in
  ls <> [] /\ Forall (fun l => exists t, l = String "#" t /\ all_chars (fun c => c <> ascii_of_nat 10) t) ls.
Proof.
  intros H ls. assert (Hc : one_line (comment_of (CBool true))) by (cbn; intros X; repeat (destruct X as [X|X]; [discriminate|]); exact X).
  split; [unfold ls; pose proof (lines_some (logo info ll flat (CBool true))); destruct (lines _); [congruence|discriminate]|].
  unfold ls. rewrite logo_lines by assumption. apply Forall_forall. intros l Hl. apply in_map_iff in Hl. destruct Hl as (x & <- & Hx). apply in_map_iff in Hx. destruct Hx as (y & <- & Hy).
  cbn [comment_of app to_string]. eexists. split; [reflexivity|]. split; [discriminate|]. apply string_clean, one_line_centred.
  unfold plain_lines in Hy. apply in_app_iff in Hy. destruct Hy as [Hy|Hy].
  - apply in_map_iff in Hy. destruct Hy as (z & <- & Hz). apply one_line_centred. pose proof (art_clean flat) as A. rewrite Forall_forall in A. auto.
  - pose proof (info_clean (width flat) (List.length (nth 0 cat []) + 2) info H) as A. rewrite Forall_forall in A. auto.
Qed.
Lemma logo_case : Forall one_line [[97; 98]; [99]]%N /\ one_line (comment_of (CStr [33]%N)) /\ Forall (fun x => (List.length x <= width false - 12)%nat) [[97; 98]; [99]]%N.
Proof. split; [apply clean_lines; reflexivity|]. split; [intros [X|[]]; discriminate|]. rewrite width_val. repeat constructor; cbn; lia. Qed.
