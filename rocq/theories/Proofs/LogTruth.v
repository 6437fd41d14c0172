(** Every message of the verifier tells the truth, and the errors are those that were logged. *)
From Coq Require Import String Ascii List Bool ZArith Arith Lia Sorted.
From Verif.Base Require Import Scalar Linear3 PyDict PyString PyText.
From Verif.Spec Require Import TxtSpec TxtFormat VerifyLogSpec.
From Verif.Model Require Import MatrixParam Hamiltonian TxtVerify TxtRead VerifyLog.
From Verif.Proofs Require Import TextBasics SectionProofs TxtReadProofs TextGlue VerifyProofs TotalProofs LogAdequate LogCut.
Import ListNotations.
Local Open Scope string_scope.

Lemma prefix_of p s : starts_with p s = true <-> exists r, s = p ++ r.
Proof.
  split; [apply prefix_app|]. intros [r ->]. induction p as [|a p IH]; [apply starts_with_nil|].
  cbn [append]. rewrite starts_with_cons. destruct (ascii_dec a a); [exact IH|congruence].
Qed.
Lemma suffix_of p s : ends_with p s = true <-> exists r, s = r ++ p.
Proof.
  induction s as [|c s IH]; cbn [ends_with].
  - destruct (string_dec p "") as [->|N]; split; intros H; try discriminate; [exists ""; reflexivity|reflexivity|].
    destruct H as [r H]. symmetry in H. apply app_eq_nil_s in H. destruct H as [_ ->]. congruence.
  - destruct (string_dec p (String c s)) as [->|N]; [split; intros; [exists ""; reflexivity|reflexivity]|]. rewrite IH. split.
    + intros [r ->]. exists (String c r). reflexivity.
    + intros [[|a r] H]; [simpl in H; congruence|]. simpl in H. inversion H; subst. exists r. reflexivity.
Qed.
Lemma count_zero w : py_count "#" w = 0%nat <-> no_hash w.
Proof.
  induction w as [|c w IH]; cbn; [tauto|]. destruct (Ascii.eqb_spec c "#"); [split; [discriminate|intros [H _]; contradiction]|]. rewrite Nat.add_0_l, IH. split; [intros H; split; assumption|tauto].
Qed.
Lemma bad_name w : verify_atom_name w = true -> ~ name_ok w.
Proof.
  intros H ((c & r & -> & Ha) & Hh & Hp & Hs). unfold verify_atom_name in H. cbn [char0] in H. rewrite Ha in H. apply count_zero in Hh. rewrite Hh in H.
  cbn [negb andb Nat.eqb orb] in H. apply orb_prop in H. destruct H as [H|H].
  - apply prefix_of in H. destruct H as [x H]. exact (Hp x H).
  - apply suffix_of in H. destruct H as [x H]. exact (Hs x H).
Qed.
Lemma existsb_in (x : nat) l : existsb (Nat.eqb x) l = false -> ~ In x l.
Proof. intros H I. apply not_true_iff_false in H. apply H. apply existsb_exists. exists x. split; [exact I|apply Nat.eqb_refl]. Qed.
Lemma list_in {A} (dec : forall x y : A, {x = y} + {x <> y}) (x : list A) l :
  existsb (fun e => if list_eq_dec dec x e then true else false) l = false -> ~ In x l.
Proof. intros H I. apply not_true_iff_false in H. apply H. apply existsb_exists. exists x. split; [exact I|]. destruct (list_eq_dec dec x x); congruence. Qed.
Lemma In_remove w x l : In x (remove_str w l) -> In x l.
Proof. induction l as [|a l IH]; cbn [remove_str]; [tauto|]. destruct (string_dec a w); [intros H; right; exact H|]. intros [H|H]; [left; exact H|right; auto]. Qed.
Lemma low_lower t : py_split (str_lower t) = low t.
Proof. apply py_split_lower. Qed.
Lemma low_length t : List.length (low t) = List.length (py_split t).
Proof. apply map_length. Qed.
Lemma low_fixed t w : In w (low t) -> str_lower w = w.
Proof. intros H. apply in_map_iff in H. destruct H as (x & <- & _). apply str_lower_idem. Qed.
Lemma index_low w l i : index_of w l = Some i -> nth_error l i = Some w.
Proof.
  revert i. induction l as [|x l IH]; intros i H; cbn in H; [discriminate|]. destruct (string_dec x w) as [->|]; [inversion H; reflexivity|].
  destruct (index_of w l); [|discriminate]. inversion H; subst. cbn. auto.
Qed.
Lemma index_none w l : index_of w l = None -> ~ In w l.
Proof.
  induction l as [|x l IH]; cbn; [tauto|]. destruct (string_dec x w); [discriminate|]. destruct (index_of w l); [discriminate|]. intros _ [H|H]; [contradiction|]. exact (IH eq_refl H).
Qed.
Lemma begins_word c t : starts_with (String c "") (word0 (low t)) = true <-> begins c t.
Proof.
  unfold low, word0, begins. destruct (py_split t) as [|k ws]; cbn [map hd].
  - split; [discriminate|]. intros (k & ws & H & _). discriminate.
  - split.
    + intros H. apply prefix_of in H. destruct H as [r H]. exists k, ws. split; [reflexivity|]. exists r. exact H.
    + intros (k' & ws' & H & r & Hr). inversion H; subst. apply prefix_of. exists r. exact Hr.
Qed.

Section Truth.
Context {F : Type} {SF : Scalar F}.
Variable X : externals F.
Variable L : list line.
Variable secs : list (list line).
Hypothesis Hclean : forall t n, In (t, n) L -> tight t /\ t <> "".
Hypothesis Hsecs : sections L secs.
Notation P := (tells_truth X L secs).
Notation fl := (isfloat X).
Notation int := (isint X).

Definition inv (s : check) : Prop := snd s = nonempty (fst s) /\ Forall P (fst s).
Lemma inv_fine : inv fine.
Proof. split; [reflexivity|constructor]. Qed.
Lemma nonempty_app {A} (a b : list A) : nonempty (a ++ b) = nonempty a || nonempty b.
Proof. destruct a; reflexivity. Qed.
Lemma inv_and s f : inv s -> inv f -> inv (and_check s f).
Proof. intros [A1 A2] [B1 B2]. split; cbn [and_check fst snd]; [rewrite nonempty_app; congruence|apply Forall_app; auto]. Qed.
Lemma inv_or s f : inv s -> (snd s = false -> inv f) -> inv (or_check s f).
Proof.
  intros A B. unfold or_check. destruct (snd s) eqn:E; [exact A|]. destruct (B eq_refl) as [B1 B2]. destruct A as [A1 A2]. split; cbn [fst snd].
  - rewrite nonempty_app, <- A1, E. exact B1.
  - apply Forall_app; auto.
Qed.
Lemma inv_fail b c s : inv s -> (b = true -> P c) -> inv (fail_if b c s).
Proof.
  intros [A1 A2] H. destruct b; cbn [fail_if]; [|split; assumption]. split; cbn [fst snd].
  - rewrite nonempty_app. symmetry. apply orb_true_r.
  - apply Forall_app. split; [exact A2|]. constructor; [apply H; reflexivity|constructor].
Qed.
Lemma words_of t n : In (t, n) L -> exists k ws, py_split t = k :: ws.
Proof. intros H. destruct (Hclean t n H) as [T N]. apply clean_words; assumption. Qed.
Lemma notfloat w : fl w = false -> not_a_number X w.
Proof. unfold isfloat, not_a_number. destruct (x_float X w); [discriminate|reflexivity]. Qed.
Ltac nt H := apply negb_true_iff in H.

Lemma name_true w t n : In (t, n) L -> In w (py_split t) -> inv (log_atom_name w n).
Proof. intros H I. apply inv_fail; [apply inv_fine|]. intros E. split; [exists t; auto|]. apply bad_name. exact E. Qed.
Lemma header_true t n r us : In ((t, n) :: r) secs -> In (t, n) L -> inv (log_section_header (t, n) us).
Proof.
  intros Hs HL. unfold log_section_header, low_words. cbn [fst snd]. rewrite low_lower. destruct (words_of t n HL) as (k & ws & E).
  assert (El : low t = str_lower k :: map str_lower ws) by (unfold low; rewrite E; reflexivity). destruct (low t) as [|k' ws'] eqn:El'; [discriminate|]. clear El.
  destruct ws' as [|u [|x r']].
  - apply inv_fine.
  - destruct us as [|e us].
    + apply inv_fail; [apply inv_fine|]. intros _. split; [|reflexivity]. exists t, r. auto.
    + apply inv_fail; [apply inv_fine|]. intros H. nt H. split; [exists t, r; split; [exact Hs|]; rewrite El'; reflexivity|].
      intros v x Hv Eu. apply not_true_iff_false in H. apply H. apply existsb_exists. exists v. split; [exact Hv|]. rewrite (low_fixed t); [|rewrite El'; simpl; tauto].
      apply prefix_of. exists x. exact Eu.
  - apply inv_fail; [apply inv_fine|]. intros _. split; [exists t, r; auto|]. cbn. lia.
Qed.
Lemma exact_true name s n r am : section secs name s -> s = (n, r) :: tl s -> inv (log_size_exact name s r am).
Proof.
  intros Hs E. apply inv_fail; [apply inv_fine|]. intros H. nt H. split; [apply existsb_in; exact H|]. exists s. split; [exact Hs|]. split; [exists n, (tl s); exact E|reflexivity].
Qed.
Lemma least_true name s n r k : section secs name s -> s = (n, r) :: tl s -> inv (log_size_at_least name s r k).
Proof.
  intros Hs E. apply inv_fail; [apply inv_fine|]. intros H. apply Nat.ltb_lt in H. split; [exact H|]. exists s. split; [exact Hs|]. split; [exists n, (tl s); exact E|reflexivity].
Qed.
Lemma short_true l c : In l L -> (c = "="%char \/ c = "-"%char) -> inv (log_short_separator l c).
Proof.
  intros H Hc. apply inv_fail; [apply inv_fine|]. intros E. destruct l as [t n]. cbn [fst snd] in *. destruct (Hclean t n H) as [T _].
  assert (Sp : is_space c = false) by (destruct Hc as [->| ->]; reflexivity). destruct (just_count c t T Sp E) as [K1 K2].
  split; [exact Hc|]. split; [exact K1|]. exists t. split; [exact H|exact K2].
Qed.

(** ** Numbers *)
Lemma numbers_true n ws : forall b s, inv s ->
  (forall i w, nth_error ws i = Some w -> fl w = false -> P (NotANumber n (b + i) w)) -> inv (log_numbers fl n b ws s).
Proof.
  induction ws as [|w t IH]; intros b s Hs H; cbn [log_numbers]; [exact Hs|]. apply IH.
  - apply inv_fail; [exact Hs|]. intros E. nt E. specialize (H 0%nat w eq_refl E). rewrite Nat.add_0_r in H. exact H.
  - intros i w' Hi E. specialize (H (S i) w' Hi E). rewrite <- Nat.add_succ_comm in H. exact H.
Qed.
Lemma amount_plain t n am s : In (t, n) L -> inv s -> inv (log_amount fl None n (low t) am s).
Proof.
  intros HL Hs. unfold log_amount. apply numbers_true.
  - apply inv_fail; [exact Hs|]. intros E. nt E. split; [exists t; split; [exact HL|]; symmetry; apply low_length|]. apply existsb_in. exact E.
  - intros i w Hi E. cbn [tells_truth]. split; [apply notfloat; exact E|]. split; [lia|]. left. exists t. split; [exact HL|]. replace (1 + i - 1)%nat with i by lia. exact Hi.
Qed.
Lemma amount_key key t n am s c : In (t, n) L -> inv s -> begins c t -> initial c key -> (c = "i" \/ c = "d" \/ c = "s" \/ c = "m")%char ->
  inv (log_amount fl (Some key) n (tl (low t)) am s).
Proof.
  intros HL Hs Hb Hk Hc. unfold log_amount. destruct (words_of t n HL) as (k & ws & E). apply numbers_true.
  - apply inv_fail; [exact Hs|]. intros E'. nt E'. split; [|apply existsb_in; exact E']. exists t. split; [exact HL|]. split; [|exists c; auto].
    rewrite <- low_length. unfold low. rewrite E. reflexivity.
  - intros i w Hi E'. cbn [tells_truth]. split; [apply notfloat; exact E'|]. split; [lia|]. right. exists t. split; [exact HL|].
    split; [destruct Hc as [->|[->|[->| ->]]]; tauto|]. unfold low in *. rewrite E in *. exact Hi.
Qed.
Lemma lines_true ls : incl ls L -> forall specs s, inv s -> inv (log_number_lines fl ls specs s).
Proof.
  induction ls as [|[t n] r IH]; intros HL [|a st] s Hs; cbn [log_number_lines]; try exact Hs.
  apply IH; [intros y Hy; apply HL; right; exact Hy|]. unfold low_words. cbn [fst snd]. rewrite low_lower. apply amount_plain; [apply HL; left; reflexivity|exact Hs].
Qed.
Lemma block_true ls specs : incl ls L -> List.length ls = List.length specs -> inv (log_data_block fl ls specs).
Proof.
  intros HL E. unfold log_data_block. apply lines_true; [exact HL|]. apply inv_fail; [apply inv_fine|]. rewrite E, Nat.eqb_refl. discriminate.
Qed.
Lemma key_true key c ls a specs : incl ls L -> (exists t n r, ls = (t, n) :: r /\ begins c t) -> (exists k, key = String c k) -> initial c key ->
  (c = "i" \/ c = "d" \/ c = "s" \/ c = "m")%char ->
  (List.length ls <> List.length (a :: specs) -> P (WrongLineCount (snd (hd line0 ls)) (List.length (a :: specs)) (List.length ls))) ->
  inv (log_keyword_block fl key ls (a :: specs)).
Proof.
  intros HL (t & n & r & -> & Hb) (k & ->) Hi Hc Hw. unfold log_keyword_block. apply lines_true; [intros y Hy; apply HL; right; exact Hy|].
  unfold low_words. cbn [fst snd]. rewrite low_lower. apply (amount_key _ _ _ _ _ c); try assumption; [apply HL; left; reflexivity|].
  apply inv_fail; [apply inv_fail; [apply inv_fine|]|].
  - intros E. nt E. apply Nat.eqb_neq in E. apply Hw. exact E.
  - intros E. nt E. exfalso. apply begins_word in Hb. apply prefix_of in Hb. destruct Hb as [x Hx]. rewrite Hx in E. cbn [append char0] in E. rewrite Ascii.eqb_refl in E. discriminate.
Qed.
Lemma sec_incl s : In s secs -> incl s L.
Proof. intros H l Hl. exact (cut_incl _ _ _ _ Hsecs s l H Hl). Qed.
Lemma sec_first s : In s secs -> exists t n, s = (t, n) :: tl s.
Proof. intros H. destruct (cut_nonempty _ _ _ _ Hsecs s H) as ([t n] & r & ->). exists t, n. reflexivity. Qed.
Lemma incl_nth i (s : list line) : (i < List.length s)%nat -> incl s L -> In (nth i s line0) L.
Proof. intros H HL. apply HL. apply nth_In. exact H. Qed.
Lemma incl_one (l : line) : In l L -> incl [l] L.
Proof. intros H y [<-|[]]. exact H. Qed.
Lemma incl_skip i (s : list line) : incl s L -> incl (skipn i s) L.
Proof. intros H y Hy. apply H. rewrite <- (firstn_skipn i s). apply in_or_app. right. exact Hy. Qed.

(** ** Cell, cone axis, spiral vector *)
Lemma size_exact_in name s n am : snd (log_size_exact name s n am) = false -> In (List.length s) am.
Proof.
  unfold log_size_exact. rewrite snd_fail. cbn [snd fine orb]. intros H. apply negb_false_iff in H. apply existsb_exists in H. destruct H as (x & I & E). apply Nat.eqb_eq in E. rewrite E. exact I.
Qed.
Lemma cell_true s : section secs "cell" s -> inv (log_cell fl (x_float X) s).
Proof.
  intros [Hs Hn]. destruct (sec_first s Hs) as (t & n & E). pose proof (sec_incl s Hs) as Hi. unfold log_cell.
  assert (E0 : hd line0 s = (t, n)) by (rewrite E; reflexivity). rewrite E0. cbn [snd].
  assert (Z : inv (log_size_exact "cell" s n [4; 5]%nat)) by (eapply exact_true; [split; eassumption|exact E]).
  destruct (snd (log_size_exact "cell" s n [4; 5]%nat)) eqn:Ez; [exact Z|]. apply size_exact_in in Ez.
  assert (Hh : inv (log_section_header (t, n) ["a"; "b"])) by (eapply header_true; [rewrite E in Hs; exact Hs|apply Hi; rewrite E; left; reflexivity]).
  destruct (Nat.eqb_spec (List.length s) 5) as [E5|N5].
  - assert (I1 : In (nth 1 s line0) L) by (apply incl_nth; [lia|exact Hi]). destruct (nth 1 s line0) as [t1 n1]. unfold words. cbn [fst].
    apply inv_or; [|intros _; apply block_true; [apply incl_skip; exact Hi|rewrite skipn_length; cbn [List.length]; lia]].
    apply inv_fail; [apply inv_fail; [apply inv_and; [exact Hh|apply block_true; [apply incl_one; exact I1|reflexivity]]|]|].
    + intros H. apply andb_prop in H. destruct H as [H Hz]. apply andb_prop in H. destruct H as [_ Hl]. apply Nat.eqb_eq in Hl.
      destruct (py_split t1) as [|w [|]] eqn:Ew; try discriminate. exists n1, w. split; [exists t1; auto|]. cbn [nth] in Hz. unfold float_is_zero in Hz.
      destruct (x_float X w) as [x|]; [|discriminate]. destruct (feq_dec x f0) as [->|]; [reflexivity|discriminate].
    + intros H. apply andb_prop in H. destruct H as [H Hz]. apply andb_prop in H. destruct H as [_ Hl]. apply Nat.eqb_eq in Hl. split; [exact Hl|].
      split; [exists n1, t1; auto|]. destruct (py_split t1) as [|w1 [|w2 [|w3 [|]]]] eqn:Ew; try discriminate. cbn [nth] in Hz.
      assert (G : forall w, float_not_positive (x_float X) w = true -> exists x, x_float X w = Some x /\ (fltb x f0 = true \/ x = f0)).
      { intros w Hw. unfold float_not_positive in Hw. destruct (x_float X w) as [x|]; [|discriminate]. exists x. split; [reflexivity|]. apply orb_prop in Hw. destruct Hw as [Hw|Hw]; [left; exact Hw|].
        destruct (feq_dec x f0); [right; assumption|discriminate]. }
      apply orb_prop in Hz. destruct Hz as [Hz|Hz]; [apply orb_prop in Hz; destruct Hz as [Hz|Hz]|]; destruct (G _ Hz) as (x & Hx & Hx'); eexists; exists x; (split; [|split; eassumption]); simpl; tauto.
  - apply inv_or; [exact Hh|intros _]. apply block_true; [apply incl_skip; exact Hi|]. rewrite skipn_length. cbn [List.length]. destruct Ez as [Ez|[Ez|[]]]; lia.
Qed.
Lemma cone_true s : section secs "cone-axis" s -> inv (log_cone_axis fl s).
Proof.
  intros [Hs Hn]. destruct (sec_first s Hs) as (t & n & E). pose proof (sec_incl s Hs) as Hi. unfold log_cone_axis.
  assert (E0 : hd line0 s = (t, n)) by (rewrite E; reflexivity). rewrite E0. cbn [snd].
  assert (Z : inv (log_size_exact "cone-axis" s n [2]%nat)) by (eapply exact_true; [split; eassumption|exact E]).
  destruct (snd (log_size_exact "cone-axis" s n [2]%nat)) eqn:Ez; [exact Z|]. apply size_exact_in in Ez. destruct Ez as [Ez|[]].
  apply inv_or; [eapply header_true; [rewrite E in Hs; exact Hs|apply Hi; rewrite E; left; reflexivity]|intros _].
  apply block_true; [apply incl_one, incl_nth; [lia|exact Hi]|reflexivity].
Qed.
Lemma spiral_true s : section secs "spiral-vector" s -> inv (log_spiral_vector fl s).
Proof.
  intros [Hs Hn]. destruct (sec_first s Hs) as (t & n & E). pose proof (sec_incl s Hs) as Hi. unfold log_spiral_vector.
  assert (E0 : hd line0 s = (t, n)) by (rewrite E; reflexivity). rewrite E0. cbn [snd].
  assert (Z : inv (log_size_exact "spiral-vector" s n [2]%nat)) by (eapply exact_true; [split; eassumption|exact E]).
  destruct (snd (log_size_exact "spiral-vector" s n [2]%nat)) eqn:Ez; [exact Z|]. apply size_exact_in in Ez. destruct Ez as [Ez|[]].
  apply inv_or; [eapply header_true; [rewrite E in Hs; exact Hs|apply Hi; rewrite E; left; reflexivity]|intros _].
  apply block_true; [apply incl_one, incl_nth; [lia|exact Hi]|reflexivity].
Qed.

(** ** Atoms *)
Lemma vector_true ks c t n : In (t, n) L -> (forall w, In w ks -> In w (low t)) -> In c ["s"; "l"; "j"] -> (forall w, In w ks -> starts_with c w = true) -> inv (log_vector_keyword ks c n).
Proof.
  intros HL H Hc Hw. apply inv_fail; [apply inv_fine|]. intros E. unfold verify_vector_keyword in E. nt E. pose proof (list_in string_dec _
    [[c ++ "x"; c ++ "y"; c ++ "z"]; [c; c ++ "p"; c ++ "t"]; [c]; [c; c ++ "x"; c ++ "y"; c ++ "z"]; [c; c ++ "p"; c ++ "t"; c ++ "x"; c ++ "y"; c ++ "z"]; []] E) as N. split; [|split].
  - exists t. split; [exact HL|]. intros w I. rewrite sort_In in I. auto.
  - intros Hn. apply N. rewrite Hn. simpl. tauto.
  - exists c. split; [exact Hc|]. split.
    + intros w I. rewrite sort_In in I. apply Hw in I. apply prefix_of in I. exact I.
    + intros I. apply N. simpl in *. tauto.
Qed.
Lemma data_header_true t n N i e : In (t, n) L -> log_atoms_data_header (t, n) = (N, i, e) ->
  inv e /\ N = List.length (py_split t) /\ (forall j, i = Some j -> nth_error (low t) j = Some "name") /\ (snd e = false -> exists j, i = Some j) /\ (i = None -> ~ In "name" (low t)).
Proof.
  intros HL H. unfold log_atoms_data_header in H. cbn [fst snd] in H. unfold low_words, words in H. cbn [fst snd] in H. rewrite low_lower in H. inversion H; subst. clear H.
  assert (I : forall w, In w (remove_str "g" (remove_str "q" (remove_str "name" (low t)))) -> In w (low t)).
  { intros w Hw. eapply In_remove, In_remove, In_remove, Hw. }
  split; [|split; [reflexivity|split; [|split]]].
  - repeat (apply inv_or; [|intros _; eapply vector_true; [exact HL| |simpl; tauto|]; intros w Hw; apply filter_In in Hw; [apply I; tauto|apply proj2 in Hw; apply andb_prop in Hw; tauto]]).
    apply inv_fail; [apply inv_fail; [apply inv_fail; [apply inv_fine|]|]|].
    + intros H. nt H. apply Nat.eqb_neq in H. split; [exists t; auto|]. intros Hd. apply H. f_equal. symmetry. apply nodup_fixed_point. exact Hd.
    + intros H. exists t. split; [exact HL|]. apply index_none. destruct (index_of "name" (low t)); [discriminate|reflexivity].
    + intros H. nt H. split; [|exact (list_in string_dec _ [["r1"; "r2"; "r3"]; ["x"; "y"; "z"]; ["r1"; "r2"; "r3"; "x"; "y"; "z"]] H)]. exists t. split; [exact HL|]. intros w Hw. rewrite sort_In in Hw. apply filter_In in Hw. apply I. tauto.
  - intros j Hj. apply index_low. exact Hj.
  - intros H. rewrite !snd_or, !snd_fail in H. cbn [snd fine orb] in H. do 4 (apply orb_false_elim in H; destruct H as [H _]).
    apply orb_false_elim in H. destruct H as [_ H]. destruct (index_of "name" (low t)); [eauto|discriminate].
  - apply index_none.
Qed.
Lemma blocks_true i t n : In (t, n) L -> forall ws b s, inv s -> (forall k w, nth_error ws k = Some w -> nth_error (py_split t) (b + k) = Some w) ->
  inv (log_blocks fl i n b ws s).
Proof.
  intros HL. induction ws as [|w r IH]; intros b s Hs H; cbn [log_blocks]; [exact Hs|]. apply IH.
  - apply inv_fail; [exact Hs|]. intros E. apply andb_prop in E. destruct E as [E E3]. apply andb_prop in E. destruct E as [_ E2]. nt E2.
    split; [apply notfloat; exact E2|]. split; [destruct (string_dec w "-"); [discriminate|assumption]|]. split; [lia|]. exists t. split; [exact HL|].
    specialize (H 0%nat w eq_refl). replace (b + 1 - 1)%nat with (b + 0)%nat by lia. exact H.
  - intros k w' Hk. specialize (H (S k) w' Hk). rewrite <- Nat.add_succ_comm in H. exact H.
Qed.
Lemma atom_lines_true h d N i : N = List.length (py_split (fst d)) -> forall rest done allowed s, section secs "atoms" (h :: d :: done ++ rest) ->
  inv s -> forall log r, log_atom_lines fl N i rest allowed s = (log, r) ->
  (match r with
   | Ret (names, e) => inv (log, e) /\ exists more, names = (allowed ++ more)%list /\ (List.length more <= List.length rest)%nat
       /\ (forall j, i = Some j -> forall l, In l rest -> exists w, nth_error (py_split (fst l)) j = Some w /\ In w names)
       /\ (forall w, In w more -> exists j t n, i = Some j /\ In (t, n) rest /\ nth_error (py_split t) j = Some w)
   | Raise _ => Forall P log /\ (forall j, i = Some j -> (j < N)%nat) -> nonempty log = true
   end) /\ Forall P log.
Proof.
  intros EN rest. induction rest as [|[t n] rest IH]; intros done allowed s Hsec Hs log r H; cbn [log_atom_lines] in H.
  - inversion H; subst. destruct s as [l e]. cbn [fst snd]. split; [|exact (proj2 Hs)]. split; [exact Hs|]. exists []. rewrite app_nil_r. split; [reflexivity|]. split; [cbn; lia|].
    split; [intros j _ l0 []|intros w []].
  - assert (HL : In (t, n) L). { apply (sec_incl _ (proj1 Hsec)). right. right. apply in_or_app. right. left. reflexivity. }
    unfold words in H. cbn [fst snd] in H.
    assert (Hs1 : inv (fail_if (negb (Nat.eqb (List.length (py_split t)) N)) (WrongBlocks n N t) s)).
    { apply inv_fail; [exact Hs|]. intros E. nt E. apply Nat.eqb_neq in E. split; [exists t; auto|]. split; [exact E|]. exists h, d, (done ++ (t, n) :: rest)%list. split; [exact Hsec|].
      split; [apply in_or_app; right; left; reflexivity|symmetry; exact EN]. }
    assert (Hsec' : section secs "atoms" (h :: d :: (done ++ [(t, n)]) ++ rest)) by (rewrite <- app_assoc; exact Hsec).
    destruct i as [i|].
    + destruct (nth_error (py_split t) i) as [name|] eqn:En.
      * specialize (IH _ (allowed ++ [name])%list (log_blocks fl (Some i) n 0 (py_split t) (or_check (fail_if (negb (Nat.eqb (List.length (py_split t)) N)) (WrongBlocks n N t) s) (log_atom_name name n))) Hsec').
        specialize (IH (blocks_true (Some i) t n HL (py_split t) 0%nat _ (inv_or _ _ Hs1 (fun _ => name_true name t n HL (nth_error_In _ _ En))) (fun k w Hk => Hk)) _ _ H).
        destruct IH as [IH1 IH2]. split; [|exact IH2]. destruct r as [[names e]|x].
        -- destruct IH1 as [I1 (more & -> & Hm & Hn & Hw)]. split; [exact I1|]. exists (name :: more). split; [rewrite <- app_assoc; reflexivity|]. split; [cbn; lia|]. split.
           2: { intros w [<-|Hin]; [exists i, t, n; split; [reflexivity|split; [left; reflexivity|exact En]]|]. destruct (Hw w Hin) as (j & t' & n' & -> & I & J). exists j, t', n'. split; [reflexivity|]. split; [right; exact I|exact J]. }
           intros j Ej l [<-|Hl]; [|apply Hn; assumption]. inversion Ej; subst. exists name. split; [exact En|]. apply in_or_app. left. apply in_or_app. right. left. reflexivity.
        -- exact IH1.
      * inversion H; subst. split; [|exact (proj2 Hs1)]. intros [_ Hlt]. specialize (Hlt i eq_refl). apply nth_error_None in En.
        destruct (Nat.eqb_spec (List.length (py_split t)) (List.length (py_split (fst d)))) as [E|E]; [lia|]. cbn [negb fail_if fst]. rewrite nonempty_app. apply orb_true_r.
    + specialize (IH _ allowed (log_blocks fl None n 0 (py_split t) (fail_if (negb (Nat.eqb (List.length (py_split t)) N)) (WrongBlocks n N t) s)) Hsec').
      specialize (IH (blocks_true None t n HL (py_split t) 0%nat _ Hs1 (fun k w Hk => Hk)) _ _ H). destruct IH as [IH1 IH2]. split; [|exact IH2]. destruct r as [[names e]|x].
      * destruct IH1 as [I1 (more & -> & Hm & Hn & Hw)]. split; [exact I1|]. exists more. split; [reflexivity|]. split; [cbn; lia|]. split; [intros j Ej; discriminate|].
        intros w Hin. destruct (Hw w Hin) as (j & _ & _ & E & _). discriminate.
      * exact IH1.
Qed.
Lemma last_of (s : list line) : s <> [] -> exists t r, s = (r ++ [(t, snd (last s line0))])%list.
Proof.
  intros H. destruct (exists_last H) as (r & [t n] & ->). exists t, r. rewrite last_last. reflexivity.
Qed.
(** The names, when there are no errors. *)
Definition knows (allowed : list string) : Prop := forall w, mem_str w allowed = false -> unknown secs w.
Lemma atoms_true s log r : section secs "atoms" s -> log_atoms fl s = (log, r) ->
  Forall P log /\ match r with Ret (allowed, e) => e = nonempty log /\ (e = false -> knows allowed) | Raise _ => nonempty log = true end.
Proof.
  intros Hsec H. pose proof (proj1 Hsec) as Hs. destruct (sec_first s Hs) as (t & n & E). pose proof (sec_incl s Hs) as Hi. unfold log_atoms in H.
  assert (E0 : hd line0 s = (t, n)) by (rewrite E; reflexivity). rewrite E0 in H. cbn [snd] in H.
  assert (Z : inv (log_size_at_least "atoms" s n 3)) by (eapply least_true; [exact Hsec|exact E]).
  destruct (snd (log_size_at_least "atoms" s n 3)) eqn:Ez.
  - inversion H; subst. destruct Z as [Z1 Z2]. split; [apply Forall_app; auto|]. split; [|discriminate]. rewrite nonempty_app, <- Z1, Ez. reflexivity.
  - assert (Hlen : (3 <= List.length s)%nat). { unfold log_size_at_least in Ez. rewrite snd_fail in Ez. cbn [snd fine orb] in Ez. apply Nat.ltb_ge in Ez. exact Ez. }
    destruct s as [|h [|[td nd] ls]]; cbn [List.length] in Hlen; try lia. cbn [nth skipn] in H. cbn [hd] in E0. subst h.
    destruct (log_atoms_data_header (td, nd)) as [[N i] e] eqn:Eh.
    assert (HLd : In (td, nd) L) by (apply Hi; right; left; reflexivity).
    destruct (data_header_true td nd N i e HLd Eh) as (Ie & EN & Hj & Hsome & Hnone).
    assert (Hh : inv (log_section_header (t, n) ["a"; "b"])) by (eapply header_true; [exact Hs|apply Hi; left; reflexivity]).
    destruct (log_atom_lines fl N i ls [] (and_check (log_section_header (t, n) ["a"; "b"]) e)) as [log' r'] eqn:El.
    pose proof (atom_lines_true (t, n) (td, nd) N i EN ls [] [] _ Hsec (inv_and _ _ Hh Ie) log' r' El) as [A1 A2].
    destruct r' as [[names er]|x]; inversion H; subst; clear H.
    + destruct A1 as [A1 (more & Emore & Hmore & Hnames & Hback)]. cbn [app] in Emore. subst more.
      set (b := negb (Nat.eqb (List.length (nodup string_dec names)) (S (S (List.length ls)) - 2))).
      assert (I2 : inv (fail_if b (DuplicateNames (snd (nth 0 ls line0)) (snd (last ((t, n) :: (td, nd) :: ls) line0)) (List.length (nodup string_dec names))) (log', er))).
      { apply inv_fail; [exact A1|]. intros Hb. unfold b in Hb. nt Hb. apply Nat.eqb_neq in Hb. destruct ls as [|l ls]; [cbn in Hlen; lia|]. exists (t, n), (td, nd), (l :: ls).
        split; [exact Hsec|]. split; [destruct l as [tl0 nl]; exists tl0, ls; reflexivity|]. split.
        - change (last ((t, n) :: (td, nd) :: l :: ls) line0) with (last (l :: ls) line0). apply last_of. discriminate.
        - split; [|exists (nodup string_dec names); split; [apply NoDup_nodup|]; split; [reflexivity|]; split].
          2: { intros w Hw. apply nodup_In in Hw. destruct (Hback w Hw) as (j & t' & n' & Ej & I & J). exists j, t', n'. split; [apply Hj; exact Ej|]. auto. }
          2: { intros Hname. destruct i as [j|]; [|exfalso; exact (Hnone eq_refl Hname)]. exists j. split; [apply Hj; reflexivity|]. intros t' n' I. destruct (Hnames j eq_refl (t', n') I) as (w & J & K). exists w. split; [exact J|]. apply nodup_In. exact K. }
          cbn [List.length] in *. assert (Hle : (List.length (nodup string_dec names) <= List.length names)%nat).
          { apply NoDup_incl_length; [apply NoDup_nodup|]. intros x Hx. apply nodup_In in Hx. exact Hx. }
          unfold line in *. lia. }
      split; [exact (proj2 I2)|]. split; [exact (proj1 I2)|]. intros Hf. rewrite snd_fail in Hf. cbn [snd] in Hf. apply orb_false_elim in Hf. destruct Hf as [Hf _].
      assert (Hse : snd e = false).
      { pose proof (snd_atom_lines fl (List.length (py_split td)) i ls [] (and_check (log_section_header (t, n) ["a"; "b"]) e)) as Q. rewrite El in Q. cbn [snd] in Q.
        rewrite snd_and in Q. destruct (snd e); [|reflexivity]. exfalso. rewrite orb_true_r in Q. subst er. clear - Q.
        assert (G : forall ls allowed names, verify_atom_lines fl (List.length (py_split td)) i ls allowed true = Ret (names, false) -> False).
        { clear. induction ls as [|l ls IH]; intros allowed names; cbn [verify_atom_lines]; [discriminate|]. destruct i as [i|].
          - destruct (nth_error (py_split l) i); [|discriminate]. cbn [orb]. apply IH.
          - cbn [orb]. apply IH. }
        symmetry in Q. exact (G _ _ _ Q). }
      destruct (Hsome Hse) as [j Ej]. intros w Hw. exists (t, n), (td, nd), ls, j. split; [exact Hsec|]. split; [apply Hj; exact Ej|].
      intros l Hl Hwl. destruct (Hnames j Ej l Hl) as (w' & Hw' & Hin). rewrite Hw' in Hwl. inversion Hwl; subst. unfold mem_str in Hw. destruct (in_dec string_dec w names); [discriminate|contradiction].
    + split; [exact A2|]. apply A1. split; [exact A2|]. intros j Ej. rewrite <- low_length. apply nth_error_Some. rewrite (Hj j Ej). discriminate.
Qed.
End Truth.
