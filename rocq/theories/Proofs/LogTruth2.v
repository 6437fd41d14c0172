(** Messages on the notation, the parameters and the file tell the truth. *)
From Coq Require Import String Ascii List Bool ZArith Arith Lia Sorted.
From Verif.Base Require Import Scalar Linear3 PyDict PyString PyText.
From Verif.Spec Require Import TxtSpec TxtFormat VerifyLogSpec.
From Verif.Model Require Import MatrixParam Hamiltonian TxtVerify TxtRead VerifyLog.
From Verif.Proofs Require Import TextBasics SectionProofs TxtReadProofs TextGlue VerifyProofs TotalProofs LogAdequate LogCut LogTruth.
Import ListNotations.
Local Open Scope string_scope.

Lemma twice {A} (p : A -> bool) l : (1 < List.length (filter p l))%nat -> exists a x b y c, l = (a ++ x :: b ++ y :: c)%list /\ p x = true /\ p y = true.
Proof.
  induction l as [|x l IH]; cbn [filter]; [cbn; lia|]. destruct (p x) eqn:E.
  - cbn [List.length]. intros H. destruct (filter p l) as [|y r] eqn:Ef; [cbn in H; lia|].
    assert (I : In y l /\ p y = true) by (apply filter_In; rewrite Ef; left; reflexivity). destruct I as [I Ep]. apply in_split in I. destruct I as (b & c & ->).
    exists [], x, b, y, c. auto.
  - intros H. destruct (IH H) as (a & y & b & z & c & -> & H1 & H2). exists (x :: a), y, b, z, c. auto.
Qed.
Lemma none_of {A} (p : A -> bool) l : List.length (filter p l) = 0%nat -> forall x, In x l -> p x = false.
Proof.
  intros H x I. destruct (p x) eqn:E; [|reflexivity]. assert (J : In x (filter p l)) by (apply filter_In; auto). destruct (filter p l); [destruct J|discriminate].
Qed.

Section Truth.
Context {F : Type} {SF : Scalar F}.
Variable X : externals F.
Variable L : list line.
Variable secs : list (list line).
Hypothesis Hclean : forall t n, In (t, n) L -> tight t /\ t <> "".
Hypothesis Hsecs : sections L secs.
Notation P := (tells_truth X L secs).
Notation fl := (isfloat X).
Notation int := (isint X).
Notation inv := (inv X L secs).
Ltac nt H := apply negb_true_iff in H.

(** ** Notation *)
Definition told (p : list line) (found : dict ascii (string * nat)) : Prop :=
  (forall c v m, dget found c = Some (v, m) -> exists t k, In (t, m) p /\ low t = [k; v] /\ initial c k)
  /\ (forall c t m k v, dget found c = None -> In (t, m) p -> py_split t = [k; v] -> ~ initial c k).
Lemma find_true s h : section secs "notation" s -> forall rest done found st, s = (h :: done ++ rest)%list -> told done found -> inv st ->
  let r := log_find_properties rest found st in told (done ++ rest) (fst r) /\ inv (snd r).
Proof.
  intros Hsec. induction rest as [|[t n] rest IH]; intros done found st Es Hf Hst; cbn [log_find_properties].
  - rewrite app_nil_r. auto.
  - assert (Hi : incl s L) by (apply (sec_incl L secs Hsecs), Hsec). assert (HL : In (t, n) L) by (apply Hi; rewrite Es; right; apply in_or_app; right; left; reflexivity).
    assert (Es' : s = (h :: (done ++ [(t, n)]) ++ rest)%list) by (rewrite <- app_assoc; exact Es).
    assert (Ea : forall f, told ((done ++ [(t, n)]) ++ rest) f -> told (done ++ (t, n) :: rest) f) by (intros f; rewrite <- app_assoc; exact (fun x => x)).
    cbn zeta. match goal with |- told _ (fst ?r) /\ inv (snd ?r) => enough (G : told ((done ++ [(t, n)]) ++ rest) (fst r) /\ inv (snd r)) by (destruct G as [G1 G2]; split; [apply Ea; exact G1|exact G2]) end.
    unfold low_words. cbn [fst snd]. rewrite low_lower.
    assert (Bad : List.length (py_split t) <> 2%nat -> told (done ++ [(t, n)]) found /\ inv (fail_if true (NotTwoBlocks n t) st)).
    { intros Hl. split.
      - destruct Hf as [F1 F2]. split.
        + intros c v m H. destruct (F1 c v m H) as (t' & k & I & J & K). exists t', k. split; [apply in_or_app; left; exact I|auto].
        + intros c t' m k v H I E. apply in_app_or in I. destruct I as [I|[I|[]]]; [eapply F2; eassumption|]. inversion I; subst. rewrite E in Hl. cbn in Hl. lia.
      - apply inv_fail; [exact Hst|]. intros _. split; [exists t; auto|exact Hl]. }
    destruct (low t) as [|k [|v [|x r]]] eqn:El;
      try (destruct Bad as [B1 B2]; [rewrite <- low_length, El; cbn; lia|]; exact (IH (done ++ [(t,n)])%list found _ Es' B1 B2)).
    assert (Ep : exists k0 v0, py_split t = [k0; v0] /\ k = str_lower k0 /\ v = str_lower v0).
    { unfold low in El. destruct (py_split t) as [|k0 [|v0 [|]]]; try discriminate. inversion El. eauto. }
    destruct Ep as (k0 & v0 & Ep & Ek & Ev).
    destruct (char0 k) as [c|] eqn:Ec.
    + assert (Hc : initial c k0) by (apply char0_initial; rewrite <- Ek; exact Ec).
      assert (Hck : initial c k) by (apply char0_initial; rewrite Ek, str_lower_idem, <- Ek; exact Ec).
      destruct (dmem found c) eqn:Em; unfold dmem in Em.
      * destruct (dget found c) as [[v' m']|] eqn:Eg; [|discriminate]. apply IH; [exact Es'| |].
        -- destruct Hf as [F1 F2]. split.
           ++ intros c' w m H. destruct (F1 c' w m H) as (t' & k' & I & J & K). exists t', k'. split; [apply in_or_app; left; exact I|auto].
           ++ intros c' t' m k' w H I E. apply in_app_or in I. destruct I as [I|[I|[]]]; [eapply F2; eassumption|]. inversion I; subst. rewrite Ep in E. inversion E; subst.
              intros Hc'. rewrite (initial_fun _ _ _ Hc' Hc) in H. congruence.
        -- apply inv_fail; [exact Hst|]. intros _. destruct (proj1 Hf c v' m' Eg) as (t' & k' & I & J & K).
           exists s, (h :: done), t, v, rest, t', m', k', v', c. split; [exact Hsec|]. split; [exact Es|]. split; [exact El|]. split; [right; exact I|]. auto.
      * destruct (dget found c) as [[v' m']|] eqn:Eg; [discriminate|]. apply IH; [exact Es'| |exact Hst]. destruct Hf as [F1 F2]. split.
        -- intros c' w m H. destruct (ascii_dec c' c) as [->|N].
           ++ rewrite dget_dset_same in H. injection H as <- <-. exists t, k. split; [apply in_or_app; right; left; reflexivity|auto].
           ++ rewrite dget_dset_other in H by exact N. destruct (F1 c' w m H) as (t' & k' & I & J & K). exists t', k'. split; [apply in_or_app; left; exact I|auto].
        -- intros c' t' m k' w H I E. destruct (ascii_dec c' c) as [->|N]; [rewrite dget_dset_same in H; discriminate|]. rewrite dget_dset_other in H by exact N.
           apply in_app_or in I. destruct I as [I|[I|[]]]; [eapply F2; eassumption|]. inversion I; subst. rewrite Ep in E. inversion E; subst. intros Hc'. apply N. exact (initial_fun _ _ _ Hc' Hc).
    + exfalso. pose proof (py_split_words t) as W. rewrite Ep in W. inversion W as [|? ? W1 _]; subst. destruct k0 as [|a k0]; [destruct W1 as [W1 _]; contradiction|discriminate].
Qed.
Lemma property_true s n t c name kind e test st found : section secs "notation" s -> s = (t, n) :: tl s -> told (tl s) found -> inv st -> initial c name ->
  (forall v k, test v = false -> initial c k ->
     (kind = "boolean" /\ (initial "d" k \/ initial "s" k) /\ ~ says v true /\ ~ says v false) \/ (kind = "number" /\ (initial "e" k \/ initial "o" k) /\ not_a_number X v)) ->
  inv (log_property found n c name kind e test st).
Proof.
  intros Hsec Es [F1 F2] Hst Hn Ht. unfold log_property. destruct (dget found c) as [[v m]|] eqn:E.
  - apply inv_fail; [exact Hst|]. intros H. nt H. destruct (F1 c v m E) as (t' & k & I & J & K). exists t'. split; [|exists k; auto].
    apply (sec_incl L secs Hsecs s (proj1 Hsec)). rewrite Es. right. exact I.
  - apply inv_fail; [exact Hst|]. intros _. exists s. split; [exact Hsec|]. split; [exists t, (tl s); exact Es|]. intros t' m k v c' I E' Hc' Hk.
    rewrite (initial_fun _ _ _ Hc' Hn) in Hk. exact (F2 c t' m k v E I E' Hk).
Qed.
Lemma notbool v : is_bool v = false -> ~ says v true /\ ~ says v false.
Proof. intros H. split; intros S; apply not_true_iff_false in H; apply H; apply is_bool_says; eauto. Qed.
Lemma notation_true ef of dc sn s : section secs "notation" s -> inv (log_notation fl ef of dc sn s).
Proof.
  intros Hsec. destruct (sec_first L secs Hsecs s (proj1 Hsec)) as (t & n & E). pose proof (sec_incl L secs Hsecs s (proj1 Hsec)) as Hi. unfold log_notation.
  assert (E0 : hd line0 s = (t, n)) by (rewrite E; reflexivity). rewrite E0. cbn [snd].
  match goal with |- context [log_find_properties (tl s) [] ?st] => set (s0 := st) end.
  assert (I0 : inv s0).
  { unfold s0. apply inv_or; [eapply least_true; [exact Hsec|exact E]|intros _]. eapply header_true; [exact Hclean|destruct Hsec as [Hs _]; rewrite E in Hs; exact Hs|]. apply Hi. rewrite E. left. reflexivity. }
  assert (T0 : told [] []) by (split; [intros c v m H; discriminate|intros c t' m k v _ []]).
  destruct (find_true s (t, n) Hsec (tl s) [] [] s0 E T0 I0) as [Tf If]. cbn [app] in Tf.
  destruct (log_find_properties (tl s) [] s0) as [found s1]. cbn [fst snd] in Tf, If.
  repeat (eapply property_true; [exact Hsec|exact E|exact Tf| |eexists; reflexivity|]); [exact If| | | |].
  - intros v k Hv Hk. left. split; [reflexivity|]. split; [tauto|apply notbool; exact Hv].
  - intros v k Hv Hk. left. split; [reflexivity|]. split; [tauto|apply notbool; exact Hv].
  - intros v k Hv Hk. right. split; [reflexivity|]. split; [tauto|apply notfloat; exact Hv].
  - intros v k Hv Hk. right. split; [reflexivity|]. split; [tauto|apply notfloat; exact Hv].
Qed.

(** ** Exchange *)
Lemma bond_incl b : bond_block secs b -> incl b L /\ exists t n, b = (t, n) :: tl b.
Proof.
  intros (s & bs & Hs & Hc & Hb). pose proof (sec_incl L secs Hsecs s (proj1 Hs)) as Hi. split.
  - intros l Hl. apply Hi. pose proof (cut_incl _ _ _ _ Hc b l Hb Hl) as I. destruct s; [destruct I|right; exact I].
  - destruct (cut_nonempty _ _ _ _ Hc b Hb) as ([t n] & r & ->). eauto.
Qed.
Lemma data_true b : bond_block secs b -> forall rest p s, b = (p ++ rest)%list -> inv s -> inv (log_bond_data fl rest s).
Proof.
  intros Hb. destruct (bond_incl b Hb) as [Hi _]. induction rest as [|[t n] rest IH]; intros p s Eb Hs; cbn [log_bond_data]; [exact Hs|].
  apply (IH (p ++ [(t, n)])%list); [rewrite <- app_assoc; exact Eb|].
  assert (HL : In (t, n) L) by (apply Hi; rewrite Eb; apply in_or_app; right; left; reflexivity).
  assert (HLr : incl ((t, n) :: rest) L) by (intros l Hl; apply Hi; rewrite Eb; apply in_or_app; right; exact Hl).
  unfold low_words. cbn [fst snd]. rewrite low_lower.
  assert (One : forall key c a s0, inv s0 -> (exists k, key = String c k) -> initial c key -> (c = "i" \/ c = "d" \/ c = "s" \/ c = "m")%char ->
    starts_with (String c "") (word0 (low t)) = true -> inv (or_check s0 (log_keyword_block fl key [(t, n)] [a]))).
  { intros key c a s0 H0 Hk Hic Hc Hw. apply inv_or; [exact H0|intros _]. apply (key_true X L secs Hclean key c); try assumption.
    - apply incl_one. exact HL.
    - exists t, n, []. split; [reflexivity|]. apply begins_word. exact Hw.
    - intros H. cbn in H. congruence. }
  set (s1 := if starts_with "i" (word0 (low t)) then _ else _).
  assert (I1 : inv s1) by (unfold s1; destruct (starts_with "i" (word0 (low t))) eqn:E; [apply (One _ "i"%char); eauto; eexists; reflexivity|exact Hs]).
  set (s2 := if starts_with "d" (word0 (low t)) then _ else _).
  assert (I2 : inv s2) by (unfold s2; destruct (starts_with "d" (word0 (low t))) eqn:E; [apply (One _ "d"%char); eauto; eexists; reflexivity|exact I1]).
  destruct (starts_with "s" (word0 (low t))) eqn:E3; [apply (One _ "s"%char); auto; eexists; reflexivity|].
  destruct (starts_with "m" (word0 (low t))) eqn:E4; [|exact I2]. apply inv_or; [exact I2|intros _].
  assert (Bm : begins "m" t) by (apply begins_word; exact E4).
  apply (key_true X L secs Hclean "matrix" "m"); auto.
  - intros l Hl. apply HLr. rewrite <- (firstn_skipn 4 ((t, n) :: rest)). apply in_or_app. left. exact Hl.
  - exists t, n, (firstn 3 rest). split; [reflexivity|exact Bm].
  - eexists; reflexivity.
  - eexists; reflexivity.
  - intros H. cbn [List.length] in H. assert (El : (List.length ((t, n) :: rest) < 4)%nat).
    { rewrite firstn_length in H. unfold line in *. lia. }
    rewrite (firstn_all2 ((t, n) :: rest)) by (unfold line in *; lia). split; [exists t; auto|]. split; [reflexivity|].
    exists b, p, ((t, n) :: rest). split; [exact Hb|]. split; [exact Eb|]. split; [exists t, rest; reflexivity|]. split; [reflexivity|exact El].
Qed.
Lemma bond_true allowed b : knows secs allowed -> bond_block secs b -> inv (log_bond fl int allowed b).
Proof.
  intros Hk Hb. destruct (bond_incl b Hb) as [Hi (t & n & E)]. unfold log_bond.
  assert (HL : In (t, n) L) by (apply Hi; rewrite E; left; reflexivity).
  assert (E0 : hd line0 b = (t, n)) by (rewrite E; reflexivity). rewrite E0. unfold words. cbn [fst snd].
  assert (Hlast : last_number b (snd (last b line0))) by (apply last_of; rewrite E; discriminate).
  assert (Hfirst : first_number b n) by (exists t, (tl b); exact E).
  assert (Rep : forall c key st, initial c key -> inv st -> inv (fail_if (Nat.ltb 1 (data_starting (String c "") (tl b))) (RepeatedData n (snd (last b line0)) key) st)).
  { intros c key st Hc Hst. apply inv_fail; [exact Hst|]. intros H. apply Nat.ltb_lt in H. unfold data_starting in H. apply twice in H.
    destruct H as (p & [t1 n1] & q & [t2 n2] & r & Et & H1 & H2). unfold low_words in H1, H2. cbn [fst] in H1, H2. rewrite low_lower in H1, H2. apply begins_word in H1. apply begins_word in H2.
    exists b. split; [exact Hb|]. split; [exact Hfirst|]. split; [exact Hlast|]. exists c, p, q, r, t1, n1, t2, n2. auto. }
  apply inv_fail.
  - apply (Rep "i"%char); [eexists; reflexivity|]. apply (Rep "d"%char); [eexists; reflexivity|]. apply (Rep "s"%char); [eexists; reflexivity|]. apply (Rep "m"%char); [eexists; reflexivity|].
    apply (data_true b Hb (tl b) [(t, n)]); [exact E|].
    assert (BH : List.length (py_split t) <> 5%nat -> inv (fail_if true (BondHeader n (py_split t)) fine)).
    { intros Hl. apply inv_fail; [apply inv_fine|]. intros _. split; [exists t; auto|]. split; [exact Hl|]. exists b. auto. }
    destruct (py_split t) as [|n1 [|n2 [|i [|j [|k [|x r]]]]]] eqn:Ew; try (apply BH; cbn; lia).
    apply inv_fail; [apply inv_fail; [apply inv_fail; [apply inv_or; [|intros _]|]|]|].
    + eapply name_true; [exact HL|rewrite Ew; simpl; tauto].
    + eapply name_true; [exact HL|rewrite Ew; simpl; tauto].
    + intros H. nt H. split; [exists t; split; [exact HL|rewrite Ew; reflexivity]|]. split; [lia|apply Hk; exact H].
    + intros H. nt H. split; [exists t; split; [exact HL|rewrite Ew; reflexivity]|]. split; [lia|apply Hk; exact H].
    + intros H. nt H. split; [exists t; split; [exact HL|]; exists n1, n2; exact Ew|]. split; [reflexivity|]. unfold isint in H.
      destruct (x_int X i) eqn:E1; [|exists i; simpl; tauto]. destruct (x_int X j) eqn:E2; [|exists j; simpl; tauto]. destruct (x_int X k) eqn:E3; [discriminate|exists k; simpl; tauto].
  - intros H. apply Nat.eqb_eq in H. exists b. split; [exact Hb|]. split; [exact Hfirst|]. split; [exact Hlast|]. intros t' n' c I Ic Hc. apply begins_word in Hc.
    assert (G : forall d, data_starting (String d "") (tl b) = 0%nat -> starts_with (String d "") (word0 (low t')) = false).
    { intros d Hd. unfold data_starting in Hd. pose proof (none_of _ _ Hd _ I) as Z. unfold low_words in Z. cbn [fst] in Z. rewrite low_lower in Z. exact Z. }
    destruct Ic as [<-|[<-|[<-|[<-|[]]]]]; rewrite G in Hc; try discriminate; lia.
Qed.
Lemma separators_true sep c ls : (c = "="%char \/ c = "-"%char) -> incl ls L -> forall inside s, inv s -> inv (log_separators sep c inside ls s).
Proof.
  intros Hc. induction ls as [|l ls IH]; intros Hi inside s Hs; cbn [log_separators]; [exact Hs|].
  assert (Hi' : incl ls L) by (intros y Hy; apply Hi; right; exact Hy).
  assert (Hl : inv (log_short_separator l c)) by (eapply short_true; [exact Hclean|apply Hi; left; reflexivity|exact Hc]).
  destruct (sep (fst l)); [apply IH; assumption|]. destruct inside; apply IH; try assumption; [apply inv_or; auto|apply inv_and; assumption].
Qed.
Lemma fold_true {A} (f : A -> check) (l : list A) : forall s, inv s -> (snd s = false -> forall x, In x l -> inv (f x)) -> inv (fold_left (fun s b => or_check s (f b)) l s).
Proof.
  induction l as [|x l IH]; intros s Hs Hf; cbn [fold_left]; [exact Hs|]. apply IH.
  - apply inv_or; [exact Hs|]. intros H. apply Hf; [exact H|left; reflexivity].
  - intros H y Hy. rewrite snd_or in H. apply orb_false_elim in H. apply Hf; [tauto|right; exact Hy].
Qed.
Lemma sec_tl s : In s secs -> incl (tl s) L.
Proof. intros H l Hl. apply (sec_incl L secs Hsecs s H). destruct s; [destruct Hl|right; exact Hl]. Qed.
Lemma bonds_cut s : In s secs -> bonds_in (tl s) (line_blocks is_subsep short_dash (tl s)).
Proof.
  intros H. apply (blocks_cut is_subsep short_dash dash_separator (just "-") (List.length (tl s))); [apply Nat.le_refl|].
  intros [t n] Hl. cbn [fst]. split; [apply is_subsep_spec|]. apply just_spec; [|reflexivity]. apply (Hclean t n). apply (sec_tl s H). exact Hl.
Qed.
Lemma exchange_true allowed s : knows secs allowed -> section secs "exchange" s -> inv (log_exchange fl int allowed s).
Proof.
  intros Hk Hsec. destruct (sec_first L secs Hsecs s (proj1 Hsec)) as (t & n & E). pose proof (sec_incl L secs Hsecs s (proj1 Hsec)) as Hi. unfold log_exchange.
  assert (E0 : hd line0 s = (t, n)) by (rewrite E; reflexivity). rewrite E0. pose proof (bonds_cut s (proj1 Hsec)) as Hc.
  apply fold_true.
  - apply inv_fail.
    + apply separators_true; [tauto|apply sec_tl, Hsec|]. eapply header_true; [exact Hclean|destruct Hsec as [Hs _]; rewrite E in Hs; exact Hs|]. apply Hi. rewrite E. left. reflexivity.
    + intros H. nt H. exists s. split; [exact Hsec|]. destruct (line_blocks is_subsep short_dash (tl s)); [exact Hc|discriminate].
  - intros _ b Hb. apply bond_true; [exact Hk|]. exists s, (line_blocks is_subsep short_dash (tl s)). auto.
Qed.

(** ** On-site *)
Lemma on_site_lines_true allowed s h : knows secs allowed -> section secs "on-site" s -> forall rest done before found st,
  s = (h :: done ++ rest)%list -> inv st -> (forall n, before = Some n -> last_number (h :: done) n) ->
  let r := log_on_site_lines fl allowed before rest found st in
  inv (snd r) /\ (found <= fst r)%nat /\
  (fst r = found -> match before with
     | Some _ => rest = []
     | None => exists p q, rest = (p ++ q)%list /\ (List.length q <= 1)%nat /\ Forall (fun l => dash_separator (fst l) \/ just "-" (fst l)) p
     end).
Proof.
  intros Hk Hsec. induction rest as [|[t n] rest IH]; intros done before found st Es Hst Hb; cbn [log_on_site_lines].
  - cbn zeta. cbn [fst snd]. split; [|split; [lia|]].
    + destruct before as [m|]; [|exact Hst]. apply inv_fail; [exact Hst|]. intros _. exists s. split; [exact Hsec|]. rewrite Es, app_nil_r. apply Hb. reflexivity.
    + intros _. destruct before; [reflexivity|]. exists [], []. split; [reflexivity|]. split; [cbn; lia|constructor].
  - assert (Hi : incl s L) by (apply (sec_incl L secs Hsecs), Hsec). assert (HL : In (t, n) L) by (apply Hi; rewrite Es; right; apply in_or_app; right; left; reflexivity).
    assert (Es' : s = (h :: (done ++ [(t, n)]) ++ rest)%list) by (rewrite <- app_assoc; exact Es).
    destruct (Hclean t n HL) as [Tt _].
    destruct before as [m|].
    + specialize (IH _ None (S found) (or_check st (log_data_block fl [(t, n)] [[6]]%nat)) Es'). cbn zeta in IH. destruct IH as (I1 & I2 & I3).
      * apply inv_or; [exact Hst|intros _]. eapply block_true; [apply incl_one; exact HL|reflexivity].
      * discriminate.
      * cbn zeta. split; [exact I1|]. split; [apply (Nat.le_trans _ (S found)); [lia|exact I2]|]. intros H. exfalso. apply (Nat.nle_succ_diag_l found). eapply Nat.le_trans; [exact I2|]. apply Nat.eq_le_incl. exact H.
    + fold (is_subsep t). cbn [fst]. assert (Hst' : inv (and_check st (log_short_separator (t, n) "-"))) by (apply inv_and; [exact Hst|]; eapply short_true; [exact Hclean|exact HL|tauto]).
      destruct (is_subsep t || short_dash t) eqn:Esep.
      * specialize (IH _ None found _ Es' Hst'). cbn zeta in *. destruct IH as (I1 & I2 & I3); [discriminate|]. split; [exact I1|]. split; [exact I2|]. intros H.
        destruct (I3 H) as (p & q & -> & Hq & Hp). exists ((t, n) :: p), q. split; [reflexivity|]. split; [exact Hq|]. constructor; [|exact Hp]. cbn [fst].
        apply orb_prop in Esep. destruct Esep as [H'|H']; [left; apply is_subsep_spec; exact H'|right; apply (just_spec "-" t); auto].
      * cbn zeta. unfold words. cbn [fst snd]. destruct (words_of L Hclean t n HL) as (k & ws & Ew).
        match goal with |- context [log_on_site_lines fl allowed (Some n) rest found ?st'] => specialize (IH (done ++ [(t, n)])%list (Some n) found st' Es') end.
        cbn zeta in IH. destruct IH as (I1 & I2 & I3).
        -- apply inv_fail; [apply inv_or; [apply inv_fail; [exact Hst'|]|intros _]|].
           ++ intros H. nt H. apply Nat.eqb_neq in H. split; [exists t; auto|exact H].
           ++ rewrite Ew. cbn [word0 hd]. eapply name_true; [exact HL|rewrite Ew; left; reflexivity].
           ++ intros H. nt H. split; [exists t; split; [exact HL|]; rewrite Ew; reflexivity|apply Hk; exact H].
        -- intros m Hm. inversion Hm; subst. exists t, (h :: done). reflexivity.
        -- split; [exact I1|]. split; [exact I2|]. intros H. rewrite (I3 H). exists [], [(t, n)]. split; [reflexivity|]. split; [cbn; lia|constructor].
Qed.
Lemma on_site_true allowed s : knows secs allowed -> section secs "on-site" s -> inv (log_on_site fl allowed s).
Proof.
  intros Hk Hsec. destruct (sec_first L secs Hsecs s (proj1 Hsec)) as (t & n & E). pose proof (sec_incl L secs Hsecs s (proj1 Hsec)) as Hi. unfold log_on_site.
  assert (E0 : hd line0 s = (t, n)) by (rewrite E; reflexivity). rewrite E0.
  assert (Hh : inv (log_section_header (t, n) energy_units)) by (eapply header_true; [exact Hclean|destruct Hsec as [Hs _]; rewrite E in Hs; exact Hs|]; apply Hi; rewrite E; left; reflexivity).
  pose proof (on_site_lines_true allowed s (t, n) Hk Hsec (tl s) [] None 0%nat _ E Hh ltac:(discriminate)) as H. cbn zeta in H.
  destruct (log_on_site_lines fl allowed None (tl s) 0 (log_section_header (t, n) energy_units)) as [found st]. cbn [fst snd] in H. destruct H as (I1 & _ & I3).
  apply inv_fail; [exact I1|]. intros H. apply Nat.eqb_eq in H. destruct (I3 H) as (p & q & Et & Hq & Hp). exists s, p, q. auto.
Qed.

(** ** The file *)
Definition named (d : dict string (list line)) : Prop := forall k s, dget d k = Some s -> section secs k s.
Lemma dget_in {V} (d : dict string V) k v : dget d k = Some v -> In (k, v) d.
Proof. induction d as [|[k' v'] d IH]; cbn; [discriminate|]. destruct (eq_dec k k') as [->|]; [intros H; inversion H; left; reflexivity|intros H; right; auto]. Qed.
Lemma in_dset {V} (d : dict string V) k v x : In x (dset d k v) -> x = (k, v) \/ In x d.
Proof.
  induction d as [|[k' v'] d IH]; cbn; [intros [H|[]]; left; congruence|]. destruct (eq_dec k k') as [->|]; cbn.
  - intros [H|H]; [left; congruence|right; right; exact H].
  - intros [H|H]; [right; left; exact H|]. destruct (IH H); [left; assumption|right; right; assumption].
Qed.
Lemma keyword_name s : line_keyword s = section_name (map fst s).
Proof. unfold line_keyword, section_name, words, word0. rewrite hd_fst. reflexivity. Qed.
Lemma found_in bs : forall d x, In x (fold_left (fun d s => dset d (line_keyword s) s) bs d) -> In x d \/ exists s, In s bs /\ x = (section_name (map fst s), s).
Proof.
  induction bs as [|b bs IH]; intros d x H; cbn [fold_left] in H; [left; exact H|]. destruct (IH _ _ H) as [H'|(s & I & ->)].
  - apply in_dset in H'. destruct H' as [->|H']; [right; exists b; split; [left; reflexivity|rewrite <- keyword_name; reflexivity]|left; exact H'].
  - right. exists s. split; [right; exact I|reflexivity].
Qed.
Lemma found_kept bs name : forall d, (dmem d name = true \/ exists s, In s bs /\ section_name (map fst s) = name) -> dmem (fold_left (fun d s => dset d (line_keyword s) s) bs d) name = true.
Proof.
  induction bs as [|b bs IH]; intros d H; cbn [fold_left]; [destruct H as [H|(s & [] & _)]; exact H|]. apply IH. destruct H as [H|(s & [->|I] & E)].
  - left. unfold dmem in *. destruct (string_dec name (line_keyword b)) as [->|N]; [rewrite dget_dset_same; reflexivity|rewrite dget_dset_other; assumption].
  - left. unfold dmem. rewrite keyword_name, E, dget_dset_same. reflexivity.
  - right. exists s. auto.
Qed.
Theorem file_true : secs = line_blocks is_sep short_equal L -> forall log r, log_file fl int (x_float X) L = (log, r) ->
  Forall P log /\ match r with Ret e => e = nonempty log | Raise _ => nonempty log = true end.
Proof.
  intros Esecs log r H. unfold log_file in H. set (found := line_sections L) in *.
  assert (Hin : forall k s, In (k, s) found -> section secs k s).
  { intros k s I. unfold found, line_sections in I. rewrite <- Esecs in I. apply found_in in I. destruct I as [[]|(s' & I & E)]. inversion E; subst. split; [exact I|reflexivity]. }
  assert (Hmiss : forall name, dmem found name = false -> forall s, ~ section secs name s).
  { intros name Hm s [I E]. unfold found, line_sections in Hm. rewrite <- Esecs in Hm. rewrite found_kept in Hm; [discriminate|]. right. exists s. auto. }
  set (s0 := fail_if (negb (dmem found "atoms")) (MissingSection "atoms") (fail_if (negb (dmem found "cell")) (MissingSection "cell") (log_separators is_sep "=" false L fine))) in *.
  assert (I0 : inv s0).
  { unfold s0. apply inv_fail; [apply inv_fail; [apply separators_true; [tauto|intros l Hl; exact Hl|apply inv_fine]|]|].
    - intros E. nt E. split; [left; reflexivity|apply Hmiss; exact E].
    - intros E. nt E. split; [right; reflexivity|apply Hmiss; exact E]. }
  assert (A : forall allowed log1 e, inv (log1, e) -> (snd s0 || e = false -> knows secs allowed) ->
     inv (fold_left (fun s p => if string_dec (fst p) "atoms" then s else or_check s (log_section fl int (x_float X) found allowed (fst p) (snd p))) found (and_check s0 (log1, e)))).
  { intros allowed log1 e I1 Hk. pose proof (inv_and X L secs _ _ I0 I1) as I2. assert (Hk' : snd (and_check s0 (log1, e)) = false -> knows secs allowed) by (intros H'; apply Hk; exact H').
    assert (Hsub : forall k s, In (k, s) found -> section secs k s) by exact Hin. clear Hin. revert Hsub. generalize found at 1 3. intros l.
    generalize dependent (and_check s0 (log1, e)). induction l as [|[k s] l IH]; intros st Ist Hkt Hsub; cbn [fold_left]; [exact Ist|]. cbn [fst snd].
    destruct (string_dec k "atoms") as [->|Na]; [apply IH; try assumption; intros; apply Hsub; right; assumption|]. apply IH.
    - apply inv_or; [exact Ist|]. intros Hf. specialize (Hkt Hf). pose proof (Hsub k s (or_introl eq_refl)) as Hsec. unfold log_section.
      destruct (string_dec k "cell") as [->|]; [eapply cell_true; eassumption|]. destruct (string_dec k "notation") as [->|]; [apply notation_true; assumption|].
      destruct (string_dec k "exchange") as [->|]; [apply exchange_true; assumption|]. destruct (string_dec k "on-site") as [->|]; [apply on_site_true; assumption|].
      destruct (string_dec k "cone-axis") as [->|]; [eapply cone_true; eassumption|]. destruct (string_dec k "spiral-vector") as [->|]; [eapply spiral_true; eassumption|apply inv_fine].
    - intros Hf. rewrite snd_or in Hf. apply orb_false_elim in Hf. tauto.
    - intros k' s' I. apply Hsub. right. exact I. }
  destruct (dget found "atoms") as [a|] eqn:Ea.
  - pose proof (Hin "atoms" a (dget_in _ _ _ Ea)) as Hsec. destruct (log_atoms fl a) as [log1 r1] eqn:El. pose proof (atoms_true X L secs Hclean Hsecs a log1 r1 Hsec El) as [A1 A2].
    destruct r1 as [[allowed e]|x].
    + destruct A2 as [A2 A3]. inversion H; subst. assert (I3 := A allowed log1 (nonempty log1) (conj eq_refl A1) (fun Hf => A3 (proj2 (orb_false_elim _ _ Hf)))). split; [exact (proj2 I3)|exact (proj1 I3)].
    + inversion H; subst. split; [apply Forall_app; split; [exact (proj2 I0)|exact A1]|]. rewrite nonempty_app, A2. apply orb_true_r.
  - inversion H; subst. assert (I3 := A [] [] false (conj eq_refl (Forall_nil _))). match type of I3 with ?Q -> _ => assert (HQ : Q) end.
    { intros Hf. exfalso. rewrite orb_false_r in Hf. unfold s0 in Hf. rewrite snd_fail in Hf. unfold dmem at 2 in Hf. rewrite Ea in Hf. cbn in Hf. rewrite orb_true_r in Hf. discriminate. }
    specialize (I3 HQ). split; [exact (proj2 I3)|exact (proj1 I3)].
Qed.
End Truth.
