(** The section readers on text of the documented format. *)
From Coq Require Import String Ascii List Bool ZArith Arith Lia Permutation.
From Verif.Base Require Import Scalar Linear3 PyDict PyString PyText.
From Verif.Spec Require Import TxtSpec TxtFormat.
From Verif.Model Require Import MatrixParam Hamiltonian TxtVerify TxtRead.
From Verif.Proofs Require Import HamBasics TextBasics SectionProofs.
Import ListNotations.
Local Open Scope string_scope.

(** ** First letters *)
Definition initb (c : ascii) (w : string) : bool := starts_with (String c "") (str_lower w).
Lemma initb_spec c w : initb c w = true <-> initial c w.
Proof.
  unfold initb, initial. destruct w as [|a w]; simpl str_lower.
  - split; [discriminate|intros [w' E]; discriminate].
  - rewrite starts_with_cons, starts_with_nil. destruct (ascii_dec c (ascii_lower a)) as [->|Hn].
    + split; [eauto|reflexivity].
    + split; [discriminate|]. intros [w' E]. inversion E. congruence.
Qed.
Lemma initb_false c w : initb c w = false <-> ~ initial c w.
Proof. rewrite <- initb_spec. destruct (initb c w); split; congruence. Qed.
Lemma initial_fun c d w : initial c w -> initial d w -> c = d.
Proof. intros [a Ea] [b Eb]. congruence. Qed.
Lemma initb_lower c w : initb c (str_lower w) = initb c w.
Proof. unfold initb. rewrite str_lower_idem. reflexivity. Qed.

Lemma first_word l k ws : tight l -> py_split l = k :: ws -> exists c l' k', l = String c l' /\ k = String c k'.
Proof.
  intros [T _] E. destruct l as [|c l]; [discriminate|]. specialize (T c l eq_refl).
  unfold py_split in E. simpl in E. destruct (toks l) as [w ws']. rewrite T in E. simpl in E. inversion E; subst. eauto.
Qed.
Lemma initb_first c l k ws : tight l -> py_split l = k :: ws -> initb c l = initb c k.
Proof.
  intros T E. destruct (first_word l k ws T E) as (a & l' & k' & -> & ->).
  unfold initb. simpl str_lower. rewrite !starts_with_cons, !starts_with_nil. reflexivity.
Qed.
Lemma clean_words l : tight l -> l <> "" -> exists k ws, py_split l = k :: ws.
Proof.
  intros T Hn. destruct (py_split l) as [|k ws] eqn:E; [|eauto]. exfalso.
  apply py_split_nil_blank in E. destruct l as [|c l]; [congruence|]. destruct E as [E _].
  destruct T as [T _]. rewrite (T c l eq_refl) in E. discriminate.
Qed.
Lemma single_word l n : tight l -> py_split l = [n] -> l = n.
Proof.
  intros T E.
  assert (G : forall s, all_chars (fun c => is_space c = false) s \/
              exists a c b, s = a ++ String c b /\ is_space c = true /\ all_chars (fun c => is_space c = false) a).
  { induction s as [|c s IH]; [left; exact I|]. destruct (is_space c) eqn:Ec.
    - right. exists "", c, s. repeat split. exact Ec.
    - destruct IH as [IH|(a & d & b & -> & Hd & Ha)]; [left; split; assumption|].
      right. exists (String c a), d, b. repeat split; auto. }
  assert (Hn : l <> "") by (intros ->; discriminate).
  destruct (G l) as [H|(a & c & b & -> & Hc & Ha)].
  - rewrite (py_split_word l (conj Hn H)) in E. congruence.
  - exfalso. rewrite (py_split_app_space a c b Hc) in E.
    assert (Hna : a <> "").
    { intros ->. destruct T as [T _]. simpl in T. rewrite (T c b eq_refl) in Hc. discriminate. }
    rewrite (py_split_word a (conj Hna Ha)) in E. inversion E as [[E1 E2]]. apply py_split_nil_blank in E2.
    (* the last character is white space *)
    assert (L : exists s' x, String c b = s' ++ String x "" /\ is_space x = true).
    { clear - Hc E2. revert c Hc. induction b as [|d b IH]; intros c Hc.
      - exists "", c. auto.
      - destruct E2 as [Hd Hb]. destruct (IH Hb d Hd) as (s' & x & E & Hx). exists (String c s'), x. simpl. rewrite <- E. auto. }
    destruct L as (s' & x & E' & Hx). destruct T as [_ T]. rewrite E' in T.
    rewrite (T x (a ++ s')) in Hx; [discriminate|]. rewrite app_assoc_s. reflexivity.
Qed.

Definition clean (l : string) : Prop := tight l /\ l <> "".

Lemma is_subsep_spec l : is_subsep l = true <-> dash_separator l.
Proof.
  unfold is_subsep, dashes. split.
  - intros H. destruct (starts_with_inv _ _ H) as [t ->]. exists 10%nat, t. auto.
  - intros (n & s & Hn & ->). replace n with (10 + (n - 10))%nat by lia.
    rewrite repeat_char_add, app_assoc_s. apply starts_with_app.
Qed.
Lemma is_subsep_false l : is_subsep l = false <-> ~ dash_separator l.
Proof. rewrite <- is_subsep_spec. destruct (is_subsep l); split; congruence. Qed.

Lemma Forall2_length_eq {A B} (P : A -> B -> Prop) l l' : Forall2 P l l' -> List.length l = List.length l'.
Proof. induction 1; simpl; congruence. Qed.

Section Read.
Context {F : Type} {SF : Scalar F}.
Variable X : externals F.
Notation world := (@world F).
Notation M := (@M F).
Local Open Scope py_scope.

Lemma py_floats_numbers ws xs : numbers X ws xs -> py_floats X ws = Ret xs.
Proof.
  induction 1; simpl; [reflexivity|]. unfold py_float. rewrite H. simpl. rewrite IHForall2. reflexivity.
Qed.

(** ** Bonds *)
Definition apply_datum (bd : @bond_data F) (d : @datum F) : bond_data :=
  match d with
  | DIso x => mkBD (Some x) (bd_matrix bd) (bd_symm bd) (bd_dmi bd)
  | DDmi v => mkBD (bd_iso bd) (bd_matrix bd) (bd_symm bd) (Some [vx v; vy v; vz v])
  | DSymm sxx syy sxy sxz syz =>
      mkBD (bd_iso bd) (bd_matrix bd) (Some (mkM sxx sxy sxz sxy syy syz sxz syz (fsub (fopp sxx) syy))) (bd_dmi bd)
  | DMatrix m => mkBD (bd_iso bd) (Some m) (bd_symm bd) (bd_dmi bd)
  | DOther => bd
  end.

(** The calls of [add_exchange] made for a bond: one after each data line, with all data so far. *)
Fixpoint bond_states (bd : @bond_data F) (ds : list datum) : list bond_data :=
  match ds with [] => [] | d :: t => apply_datum bd d :: bond_states (apply_datum bd d) t end.
Definition call := (string * string * cell3 * option (M3 F))%type.
Definition do_call (c : call) : M unit :=
  let '(n1, n2, R, m) := c in add_exchange_new (AName n1) (AName n2) R m.
Definition bond_calls (b : @bond F) : list call :=
  map (fun bd => (bn_from b, bn_to b, bn_cell b, bond_matrix bd)) (bond_states (mkBD None None None None) (bn_data b)).

Lemma initb_other c d k : initb c k = true -> c <> d -> initb d k = false.
Proof.
  intros H Hn. apply initb_false. intros Hd. apply initb_spec in H. apply Hn. eapply initial_fun; eauto.
Qed.

Lemma read_bond_lines_calls n1 n2 R lines ds : data_text X lines ds -> Forall clean lines ->
  forall fuel bd w, (List.length lines <= fuel)%nat ->
  read_bond_lines X fuel n1 n2 R bd lines w
  = for_each (map (fun b => (n1, n2, R, bond_matrix b)) (bond_states bd ds)) do_call w.
Proof.
  intros H. induction H; intros C fuel bd w0 Hf.
  - destruct fuel; reflexivity.
  - destruct fuel as [|fuel]; [simpl in Hf; lia|]. cbn [read_bond_lines].
    inversion C as [|? ? [T Hn] C']; subst.
    assert (Hi : initb "i" l = true) by (rewrite (initb_first _ _ _ _ T H); apply initb_spec; assumption).
    unfold bind at 1, lift. unfold read_bond_line. change (starts_with "i" (str_lower l)) with (initb "i" l).
    rewrite Hi, H. unfold item. simpl nth_error. simpl of_option. simpl obind. unfold py_float. rewrite H1. simpl obind.
    cbn [bond_states map for_each fst snd apply_datum vx vy vz]. unfold do_call at 1. unfold bind.
    match goal with |- (let (_, _) := ?zz in _) = _ => destruct zz as [w1 [u|ex]] end; [|reflexivity].
    apply IHdata_text; [exact C'|simpl in Hf; lia].
  - destruct fuel as [|fuel]; [simpl in Hf; lia|]. cbn [read_bond_lines].
    inversion C as [|? ? [T Hn] C']; subst.
    assert (Hd : initb "d" l = true) by (rewrite (initb_first _ _ _ _ T H); apply initb_spec; assumption).
    unfold bind at 1, lift. unfold read_bond_line.
    change (starts_with "i" (str_lower l)) with (initb "i" l). change (starts_with "d" (str_lower l)) with (initb "d" l).
    rewrite (initb_other "d" "i" l Hd) by discriminate. rewrite Hd, H. simpl tl. rewrite (py_floats_numbers _ _ H1). simpl obind.
    cbn [bond_states map for_each fst snd apply_datum vx vy vz]. unfold do_call at 1. unfold bind.
    match goal with |- (let (_, _) := ?zz in _) = _ => destruct zz as [w1 [u|ex]] end; [|reflexivity].
    apply IHdata_text; [exact C'|simpl in Hf; lia].
  - destruct fuel as [|fuel]; [simpl in Hf; lia|]. cbn [read_bond_lines].
    inversion C as [|? ? [T Hn] C']; subst.
    assert (Hd : initb "s" l = true) by (rewrite (initb_first _ _ _ _ T H); apply initb_spec; assumption).
    unfold bind at 1, lift. unfold read_bond_line.
    change (starts_with "i" (str_lower l)) with (initb "i" l). change (starts_with "d" (str_lower l)) with (initb "d" l).
    change (starts_with "s" (str_lower l)) with (initb "s" l).
    rewrite (initb_other "s" "i" l Hd), (initb_other "s" "d" l Hd) by discriminate. rewrite Hd, H. simpl tl.
    rewrite (py_floats_numbers _ _ H1). simpl obind.
    cbn [bond_states map for_each fst snd apply_datum vx vy vz]. unfold do_call at 1. unfold bind.
    match goal with |- (let (_, _) := ?zz in _) = _ => destruct zz as [w1 [u|ex]] end; [|reflexivity].
    apply IHdata_text; [exact C'|simpl in Hf; lia].
  - destruct fuel as [|fuel]; [simpl in Hf; lia|]. cbn [read_bond_lines].
    inversion C as [|? ? [T Hn] C']; subst.
    assert (Hd : initb "m" l = true) by (rewrite (initb_first _ _ _ _ T H); apply initb_spec; assumption).
    unfold bind at 1, lift. unfold read_bond_line.
    change (starts_with "i" (str_lower l)) with (initb "i" l). change (starts_with "d" (str_lower l)) with (initb "d" l).
    change (starts_with "s" (str_lower l)) with (initb "s" l). change (starts_with "m" (str_lower l)) with (initb "m" l).
    rewrite (initb_other "m" "i" l Hd), (initb_other "m" "d" l Hd), (initb_other "m" "s" l Hd) by discriminate. rewrite Hd.
    unfold read_matrix. rewrite (py_floats_numbers _ _ H1), (py_floats_numbers _ _ H2), (py_floats_numbers _ _ H3). simpl obind.
    cbn [bond_states map for_each fst snd apply_datum vx vy vz]. unfold do_call at 1. unfold bind.
    match goal with |- (let (_, _) := ?zz in _) = _ => destruct zz as [w1 [u|ex]] end; [|reflexivity].
    apply IHdata_text; [|simpl in Hf; lia].
    inversion C' as [|? ? _ C2]; inversion C2 as [|? ? _ C3]; inversion C3; assumption.
  - destruct fuel as [|fuel]; [simpl in Hf; lia|]. cbn [read_bond_lines].
    inversion C as [|? ? [T Hn] C']; subst.
    unfold bind at 1, lift. unfold read_bond_line.
    change (starts_with "i" (str_lower l)) with (initb "i" l). change (starts_with "d" (str_lower l)) with (initb "d" l).
    change (starts_with "s" (str_lower l)) with (initb "s" l). change (starts_with "m" (str_lower l)) with (initb "m" l).
    rewrite !(initb_first _ _ _ _ T H).
    apply initb_false in H0; apply initb_false in H1; apply initb_false in H2; apply initb_false in H3.
    rewrite H0, H1, H2, H3.
    cbn [bond_states map for_each fst snd apply_datum vx vy vz]. unfold do_call at 1. unfold bind.
    match goal with |- (let (_, _) := ?zz in _) = _ => destruct zz as [w1 [u|ex]] end; [|reflexivity].
    apply IHdata_text; [exact C'|simpl in Hf; lia].
Qed.

Lemma read_bond_calls conv lines b : bond_text X lines b -> Forall clean lines ->
  forall w, read_bond X conv lines w = for_each (bond_calls b) do_call w.
Proof.
  intros (hdr & data & wi & wj & wk & i & j & k & -> & E & Ei & Ej & Ek & Ec & D) C w.
  unfold read_bond, bind, lift, item, py_int. cbn [nth_error of_option]. rewrite E.
  cbn [firstn]. rewrite Ei, Ej, Ek. cbn [of_option tl].
  inversion C; subst. rewrite (read_bond_lines_calls _ _ _ data (bn_data b) D) by (assumption || lia).
  unfold bond_calls. rewrite Ec. reflexivity.
Qed.

Lemma for_each_app {A} (l1 l2 : list A) (body : A -> M unit) w :
  for_each (l1 ++ l2)%list body w = (for_each l1 body ;;; for_each l2 body) w.
Proof.
  revert w. induction l1 as [|x l1 IH]; intros w; simpl; [reflexivity|].
  unfold bind in *. destruct (body x w) as [w' [u|e]]; [|reflexivity]. apply IH.
Qed.

Lemma exchange_runs lines bs : exchange_text X lines bs -> Forall clean lines ->
  Forall2 (bond_text X) (split_runs is_subsep lines) bs /\ Forall (Forall clean) (split_runs is_subsep lines).
Proof.
  assert (N : forall s b, bond_text X s b -> s <> []) by (intros s b (hdr & data & H); decompose [ex and] H; subst; discriminate).
  assert (E : forall s, Forall (fun l => ~ dash_separator l) s -> Forall (fun l => is_subsep l = false) s).
  { intros s H. eapply Forall_impl; [|exact H]. intros l. apply is_subsep_false. }
  induction 1; intros C.
  - split; constructor.
  - inversion C; subst. rewrite split_runs_sep; [auto|apply is_subsep_spec; assumption].
  - rewrite split_runs_last; eauto.
  - apply Forall_app in C. destruct C as [C1 C2]. inversion C2; subst.
    rewrite split_runs_cons; eauto; [|apply is_subsep_spec; assumption].
    destruct (IHexchange_text H6) as [I1 I2]. split; constructor; assumption.
Qed.

Lemma read_bonds_calls conv runs bs : Forall2 (bond_text X) runs bs -> Forall (Forall clean) runs ->
  forall w, for_each runs (read_bond X conv) w = for_each (flat_map bond_calls bs) do_call w.
Proof.
  induction 1 as [|s b runs bs Hb _ IH]; intros C w; [reflexivity|]. inversion C; subst.
  simpl flat_map. rewrite for_each_app. cbn [for_each]. unfold bind. rewrite (read_bond_calls conv s b Hb H1 w).
  destruct (for_each (bond_calls b) do_call w) as [w' [u|e]]; [|reflexivity]. apply IH. exact H2.
Qed.

Lemma read_exchange_calls hdr lines bs conv : exchange_text X lines bs -> Forall clean lines ->
  exchange_units X (units_word hdr) = Ret conv ->
  forall w, read_exchange X (hdr :: lines) w = for_each (flat_map bond_calls bs) do_call w.
Proof.
  intros E C Eu w. unfold read_exchange, bind, lift, item. cbn [nth_error of_option]. rewrite Eu. cbn [tl].
  destruct (exchange_runs lines bs E C) as [H1 H2]. apply read_bonds_calls; assumption.
Qed.

(** The matrix handed over after all data lines is the one described. *)
Lemma fold_last {A B} (f : A -> option B) l acc :
  fold_left (fun acc x => match f x with Some y => Some y | None => acc end) l acc
  = match last_some f l with Some y => Some y | None => acc end.
Proof.
  unfold last_some. revert acc. induction l as [|x l IH]; intros acc; simpl; [reflexivity|].
  rewrite (IH (match f x with Some y => Some y | None => acc end)), (IH (match f x with Some y => Some y | None => None end)).
  destruct (fold_left _ l None); [reflexivity|]. destruct (f x); reflexivity.
Qed.
Definition bd_ok (bd : @bond_data F) : Prop := match bd_dmi bd with None => True | Some d => exists v, array3 d = Some v end.
Lemma bond_matrix_total bd : bd_ok bd -> exists m, bond_matrix bd = Some m.
Proof. unfold bd_ok, bond_matrix. destruct (bd_dmi bd) as [d|]; [intros [v ->]|intros _]; eauto. Qed.
Lemma apply_datum_ok bd d : bd_ok bd -> bd_ok (apply_datum bd d).
Proof. destruct d; simpl; auto. intros _. unfold bd_ok. simpl. eauto. Qed.
Lemma bond_states_ok bd ds : bd_ok bd -> Forall bd_ok (bond_states bd ds).
Proof. revert bd. induction ds; intros bd H; simpl; constructor; auto using apply_datum_ok. Qed.

Lemma states_described ds : ds <> [] ->
  bond_matrix (last (bond_states (mkBD None None None None) ds) (mkBD None None None None)) = Some (described ds).
Proof.
  intros Hn.
  assert (G : forall ds bd, ds <> [] -> last (bond_states bd ds) (mkBD None None None None) = fold_left apply_datum ds bd).
  { clear. induction ds as [|d ds IH]; intros bd Hn; [congruence|]. destruct ds as [|d' ds]; [reflexivity|].
    change (last (bond_states bd (d :: d' :: ds)) (mkBD None None None None))
      with (last (bond_states (apply_datum bd d) (d' :: ds)) (mkBD None None None None)).
    rewrite IH by discriminate. reflexivity. }
  rewrite (G ds _ Hn). clear G Hn.
  assert (G : forall ds bd, fold_left apply_datum ds bd =
    mkBD (match last_some (fun d => match d with DIso x => Some x | _ => None end) ds with Some y => Some y | None => bd_iso bd end)
         (match last_some (fun d => match d with DMatrix m => Some m | _ => None end) ds with Some y => Some y | None => bd_matrix bd end)
         (match last_some (fun d => match d with
             | DSymm sxx syy sxy sxz syz => Some (mkM sxx sxy sxz sxy syy syz sxz syz (fsub (fopp sxx) syy))
             | _ => None end) ds with Some y => Some y | None => bd_symm bd end)
         (match last_some (fun d => match d with DDmi v => Some v | _ => None end) ds with Some v => Some [vx v; vy v; vz v] | None => bd_dmi bd end)).
  { clear ds. induction ds as [|d ds IH]; intros bd; [destruct bd; reflexivity|].
    cbn [fold_left]. rewrite IH. unfold last_some. cbn [fold_left]. rewrite !fold_last.
    destruct d; simpl;
    repeat match goal with |- context [match last_some ?f ?l with _ => _ end] => destruct (last_some f l) end; reflexivity. }
  rewrite G. unfold bond_matrix, described. simpl.
  destruct (last_some (fun d => match d with DDmi v => Some v | _ => None end) ds) as [[a b c]|]; simpl;
  repeat match goal with |- context [match last_some ?f ?l with _ => _ end] => destruct (last_some f l) end; reflexivity.
Qed.

(** ** On-site *)
Definition os_call (conv : F) (e : string * M3 F) : M unit :=
  a <- get_atom (fst e) ;; add_on_site_new (AObj a) (Some (mscale conv (snd e))).

Lemma bind_assoc {A B C} (m : M A) (k : A -> M B) (k' : B -> M C) w :
  bind (bind m k) k' w = bind m (fun x => bind (k x) k') w.
Proof. unfold bind. destruct (m w) as [w' [a|e]]; reflexivity. Qed.

Lemma read_on_site_calls conv lines es : on_site_text X lines es -> Forall clean lines ->
  forall w, read_on_site_lines X conv None lines w = for_each es (os_call conv) w.
Proof.
  induction 1; intros C w.
  - reflexivity.
  - inversion C; subst. cbn [read_on_site_lines]. apply is_subsep_spec in H. rewrite H. auto.
  - inversion C as [|? ? [T Hn] C1]; subst. inversion C1 as [|? ? _ C2]; subst.
    cbn [read_on_site_lines for_each]. apply is_subsep_false in H0. rewrite H0.
    rewrite (single_word l n T H). unfold os_call at 1. cbn [fst snd]. rewrite bind_assoc.
    assert (Es : py_strip n = n).
    { rewrite <- (single_word l n T H). change l with ("" ++ l). rewrite <- (app_nil_r_s l) at 1.
      apply (strip_of "" l ""); [exact I|exact I|exact T]. }
    rewrite Es.
    match goal with |- bind _ ?k1 w = bind _ ?k2 w => set (K1 := k1); set (K2 := k2) end.
    unfold bind. destruct (get_atom n w) as [w1 [a|e]]; [|reflexivity]. unfold K1, K2; clear K1 K2.
    cbn [read_on_site_lines]. unfold read_six.
    assert (L : List.length (py_split l') = 6%nat) by (rewrite (Forall2_length_eq _ _ _ H1); reflexivity).
    rewrite L. change (Nat.ltb 6 6) with false. cbv iota. rewrite (firstn_all2 (py_split l')) by lia.
    rewrite (py_floats_numbers _ _ H1). simpl obind. unfold bind at 1, lift. unfold bind.
    destruct (add_on_site_new _ _ w1) as [w2 [u|e]]; [|reflexivity]. apply IHon_site_text. exact C2.
Qed.

(** ** Notation *)
Definition set_property (p : @property F) : M unit :=
  match p with
  | PSpin b => set_spin_normalized b
  | PDouble b => set_double_counting b
  | PExchange x => set_exchange_factor x
  | POnSite x => set_on_site_factor x
  | POther => ret tt
  end.
Lemma says_mem w b : says w b -> mem_str (str_lower w) true_keywords = b.
Proof.
  unfold says, mem_str, true_keywords. destruct b; intros H.
  - destruct (in_dec string_dec _ _); [reflexivity|contradiction].
  - destruct (in_dec string_dec _ _) as [i|]; [|reflexivity]. exfalso.
    simpl in H, i. repeat match goal with H : _ \/ _ |- _ => destruct H as [H|H] end; try contradiction; congruence.
Qed.
Lemma read_property l p : property_text X l p -> clean l -> forall w, read_notation_line X l w = set_property p w.
Proof.
  intros H [T Hn] w. unfold read_notation_line.
  change (starts_with "s" (str_lower l)) with (initb "s" l). change (starts_with "d" (str_lower l)) with (initb "d" l).
  change (starts_with "e" (str_lower l)) with (initb "e" l). change (starts_with "o" (str_lower l)) with (initb "o" l).
  destruct H as [l k v b E Hi Hs|l k v b E Hi Hs|l k v x E Hi Hs|l k v x E Hi Hs|l k v E H1 H2 H3 H4];
    rewrite !(initb_first _ _ _ _ T E).
  - apply initb_spec in Hi. rewrite Hi. unfold read_bool, bind, lift, item, ret. rewrite E. simpl.
    rewrite (says_mem v b Hs). reflexivity.
  - apply initb_spec in Hi. rewrite (initb_other "d" "s" k Hi) by discriminate. rewrite Hi.
    unfold read_bool, bind, lift, item, ret. rewrite E. simpl. rewrite (says_mem v b Hs). reflexivity.
  - apply initb_spec in Hi. rewrite (initb_other "e" "s" k Hi), (initb_other "e" "d" k Hi) by discriminate. rewrite Hi.
    unfold read_number, bind, lift, item, py_float. rewrite E. simpl. rewrite Hs. reflexivity.
  - apply initb_spec in Hi. rewrite (initb_other "o" "s" k Hi), (initb_other "o" "d" k Hi), (initb_other "o" "e" k Hi) by discriminate.
    rewrite Hi. unfold read_number, bind, lift, item, py_float. rewrite E. simpl. rewrite Hs. reflexivity.
  - apply initb_false in H1. apply initb_false in H2. apply initb_false in H3. apply initb_false in H4.
    rewrite H1, H2, H3, H4. reflexivity.
Qed.
Lemma read_properties ls ps : Forall2 (property_text X) ls ps -> Forall clean ls ->
  forall w, for_each ls (read_notation_line X) w = for_each ps set_property w.
Proof.
  induction 1 as [|l p ls ps H _ IH]; intros C w; [reflexivity|]. inversion C; subst. cbn [for_each]. unfold bind.
  rewrite (read_property l p H H2 w). destruct (set_property p w) as [w' [u|e]]; [|reflexivity]. apply IH. assumption.
Qed.

End Read.
