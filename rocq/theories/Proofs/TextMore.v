(** Units, mirrors, cells and notation of loaded files. *)
From Coq Require Import String Ascii List Bool ZArith Arith Lia Permutation.
From Coq Require Import Ring Field Field_theory Ring_theory.
From Verif.Base Require Import Scalar Linear3 PyDict PyString PyText.
From Verif.Spec Require Import HamSpec HistorySpec TxtSpec TxtFormat.
From Verif.Model Require Import MatrixParam Hamiltonian TxtVerify TxtRead.
From Verif.Proofs Require Import DictProofs HamBasics HistoryProofs TextBasics SectionProofs TxtReadProofs TextGlue VerifyProofs LoadProofs FileProofs TotalProofs.
Import ListNotations.
Local Open Scope string_scope.

Section More.
Context {F : Type} {SF : Scalar F}.
Add Field F_field : (@f_field F SF).
Variable X : externals F.

(** [f] is a file with the sections [secs] that loads as [L]. *)
Variables (f ts : list string) (secs : list (list string)) (L : @loaded F).
Hypothesis HX : sane X.
Hypothesis Hf : file_shows f ts.
Hypothesis Hl : laid_out secs ts.
Hypothesis Hn : NoDup (map section_name secs).
Hypothesis HL : load_txt X f = Ret L.

Let Hlow := sane_case X HX.
Let co := loaded_contents X Hlow secs ts f L Hf Hl Hn HL.

(** ** Units *)
Lemma initb_excl c d u : initial c u -> c <> d -> starts_with (String d "") (str_lower u) = false.
Proof. intros H N. apply initb_false. intros H'. apply N. eapply initial_fun; eauto. Qed.
Lemma initb_incl c u : initial c u -> starts_with (String c "") (str_lower u) = true.
Proof. intros H. apply initb_spec. exact H. Qed.

Lemma on_site_unit hdr u : energy_unit X hdr u -> on_site_units X (units_word hdr) = Ret (fdiv u (ENERGY X)).
Proof.
  assert (W : forall k v, py_split hdr = [k; v] -> units_word hdr = str_lower v) by (intros k v E; unfold units_word; rewrite py_split_lower, E; reflexivity).
  unfold on_site_units. intros H; inversion H as [? k E|? k v E I|? k v E I|? k v E I|? k v E I|? k v E I]; subst; try rewrite (W _ _ E).
  1:{ unfold units_word. rewrite py_split_lower, E. reflexivity. }
  all: repeat match goal with I0 : initial _ ?v0 |- context [starts_with (String ?d "") (str_lower ?v0)] =>
    first [rewrite (initb_incl d v0 I0)|rewrite (initb_excl _ d v0 I0 ltac:(discriminate))] end; reflexivity.
Qed.
Lemma mscale_div (u e : F) (m : M3 F) : e <> f0 -> mscale e (mscale (fdiv u e) m) = mscale u m.
Proof. intros He. destruct m. unfold mscale, mmap. cbn. f_equal; field; exact He. Qed.

Lemma on_site_converted s es u a : fmul (c_milli X) (c_electron_volt X) <> f0 ->
  has_section secs "on-site" s -> on_site_text X (tl s) es -> energy_unit X (hd "" s) u -> In a (h_atoms (w_ham (ld_ham L))) ->
  match last_entry (a_name a) es with
  | Some A => exists m, onsite_value (ld_ham L) a = Some m /\ mscale (fmul (c_milli X) (c_electron_volt X)) m = mscale u A
  | None => onsite_value (ld_ham L) a = None
  end.
Proof.
  intros He Hs Ht Hu Ia. rewrite (co_on_site X secs L co s es _ a Hs Ht (on_site_unit _ _ Hu) Ia).
  destruct (last_entry (a_name a) es) as [A|]; [|reflexivity]. eexists. split; [reflexivity|]. apply mscale_div. exact He.
Qed.

Lemma exchange_as_written s bs k : has_section secs "exchange" s -> exchange_text X (tl s) bs ->
  In (b_from k) (h_atoms (w_ham (ld_ham L))) -> In (b_to k) (h_atoms (w_ham (ld_ham L))) ->
  bond_value (ld_ham L) k = match last_for k bs with
    | Some b => Some (described (bn_data b))
    | None => match h_dc (w_ham (ld_ham L)) with
              | Some true => option_map (fun b => mtrans (described (firstn 1 (bn_data b)))) (first_for (mirror k) bs)
              | _ => None
              end
    end.
Proof. intros. eapply (co_bonds X secs L co); eauto. Qed.

(** ** Mirrors *)
Lemma mirror_of_single s bs b k : has_section secs "exchange" s -> exchange_text X (tl s) bs ->
  In (b_from k) (h_atoms (w_ham (ld_ham L))) -> In (b_to k) (h_atoms (w_ham (ld_ham L))) ->
  h_dc (w_ham (ld_ham L)) = Some true -> filter (is_entry k) bs = [b] -> filter (is_entry (mirror k)) bs = [] -> mirror k <> k ->
  bond_value (ld_ham L) k = Some (described (bn_data b))
  /\ bond_value (ld_ham L) (mirror k) = Some (mtrans (described (firstn 1 (bn_data b)))).
Proof.
  intros Hs Ht I1 I2 Dc Fk Fm Nk.
  assert (Lk : forall k' l, filter (is_entry k') bs = l -> last_for k' bs = match rev l with x :: _ => Some x | [] => None end).
  { intros k' l <-. clear. unfold last_for. induction bs as [|x bs IH] using rev_ind; [reflexivity|].
    rewrite last_some_snoc, filter_app. simpl. destruct (is_entry k' x); [rewrite rev_app_distr; reflexivity|rewrite app_nil_r; exact IH]. }
  assert (Fi : forall l, filter (is_entry k) bs = l -> first_for k bs = match l with x :: _ => Some x | [] => None end).
  { intros l <-. clear. unfold first_for. induction bs as [|x bs IH]; [reflexivity|]. simpl. destruct (is_entry k x); [reflexivity|exact IH]. }
  split.
  - rewrite (exchange_as_written s bs k Hs Ht I1 I2), (Lk k _ Fk). reflexivity.
  - rewrite (exchange_as_written s bs (mirror k) Hs Ht); [|destruct k; exact I2|destruct k; exact I1].
    rewrite (Lk _ _ Fm). cbn [rev]. rewrite Dc, mirror_invol, (Fi _ Fk). reflexivity.
Qed.
Lemma mirror_one_line s bs b d k : has_section secs "exchange" s -> exchange_text X (tl s) bs ->
  In (b_from k) (h_atoms (w_ham (ld_ham L))) -> In (b_to k) (h_atoms (w_ham (ld_ham L))) ->
  h_dc (w_ham (ld_ham L)) = Some true -> filter (is_entry k) bs = [b] -> filter (is_entry (mirror k)) bs = [] -> mirror k <> k ->
  bn_data b = [d] ->
  exists J, bond_value (ld_ham L) k = Some J /\ bond_value (ld_ham L) (mirror k) = Some (mtrans J) /\ J = described [d].
Proof.
  intros Hs Ht I1 I2 Dc Fk Fm Nk Hb. destruct (mirror_of_single s bs b k Hs Ht I1 I2 Dc Fk Fm Nk) as [A B]. rewrite Hb in A, B. cbn [firstn] in B. eauto.
Qed.

(** ** Notation *)
Lemma last_some_unique {A B} (g : A -> option B) l y : (exists x, In x l /\ g x = Some y) -> (forall x z, In x l -> g x = Some z -> z = y) ->
  last_some g l = Some y.
Proof.
  induction l as [|x l IH] using rev_ind; intros (x0 & I & E) U; [destruct I|]. rewrite last_some_snoc. destruct (g x) as [z|] eqn:Ex.
  - f_equal. apply (U x); [apply in_or_app; right; left; reflexivity|exact Ex].
  - apply in_app_or in I. destruct I as [I|[->|[]]]; [|congruence]. apply IH; [eauto|]. intros x' z' I' E'. apply (U x'); [apply in_or_app; left; exact I'|exact E'].
Qed.
Lemma letter_inj lines l l' : NoDup (map letter lines) -> In l lines -> In l' lines -> letter l = letter l' -> l = l'.
Proof.
  induction lines as [|x lines IH]; simpl; intros N I I' E; [contradiction|]. inversion N; subst.
  destruct I as [->|I], I' as [->|I']; auto; exfalso; apply H1; [rewrite E|rewrite <- E]; apply in_map; assumption.
Qed.
Lemma letter_of l k w c : py_split l = [k; w] -> initial c k -> letter l = Some c.
Proof. intros E H. unfold letter. rewrite E. apply char0_initial. exact H. Qed.
Lemma says_fun w b b' : says w b -> says w b' -> b = b'.
Proof.
  unfold says. destruct b, b'; auto; simpl; intros H1 H2; exfalso; repeat (destruct H1 as [H1|H1]; [rewrite <- H1 in H2; intuition discriminate|]); destruct H1.
Qed.
Lemma property_fun l p p' : property_text X l p -> property_text X l p' -> p = p'.
Proof.
  intros H H'; inversion H; subst; inversion H'; subst;
    match goal with E1 : py_split l = _, E2 : py_split l = _ |- _ => rewrite E1 in E2; inversion E2; subst end;
    try match goal with Ha : initial ?a ?k, Hb : initial ?b ?k |- _ => pose proof (initial_fun _ _ _ Ha Hb) as Ec; discriminate Ec end; try contradiction;
    try reflexivity; f_equal; try (eapply says_fun; eauto); congruence.
Qed.

Lemma boolean_read n l k w : has_parameters secs -> has_section secs "notation" n -> In l (tl n) -> py_split l = [k; w] ->
  (initial "d" k -> exists b, says w b /\ h_dc (w_ham (ld_ham L)) = Some b) /\ (initial "s" k -> exists b, says w b /\ h_sn (w_ham (ld_ham L)) = Some b).
Proof.
  intros Hp Hs Il E. destruct (load_inv X _ _ _ _ Hf Hl Hn HL) as (V & _).
  destruct (accepted_inv X _ _ _ Hl Hn V) as (_ & _ & sc & sa & allowed & _ & _ & _ & Vs).
  assert (Hne : section_name n <> "atoms") by (rewrite (proj2 Hs); discriminate).
  pose proof (Vs _ (proj1 Hs) Hne) as Vv. rewrite (proj2 Hs) in Vv. unfold verify_section in Vv. cbn in Vv.
  destruct (section_clean _ _ _ _ _ Hf Hl Hs) as (hdr & lines & -> & _ & _). cbn [tl] in Il.
  destruct (notation_ok X Hlow _ _ _ _ _ _ Vv) as (ps & P & Nl & _).
  destruct (co_notation X secs L co lines _ ps Hp Hs eq_refl P) as (Cd & Csn & _).
  assert (G : forall l0, In l0 lines -> exists p, In p ps /\ property_text X l0 p).
  { clear - P. induction P as [|x p xs ps Hx _ IH]; intros l0 I; [destruct I|]. destruct I as [->|I]; [exists p; split; [left; reflexivity|exact Hx]|].
    destruct (IH l0 I) as (p' & I' & H'). exists p'. split; [right; exact I'|exact H']. }
  assert (G' : forall p, In p ps -> exists l0, In l0 lines /\ property_text X l0 p).
  { clear - P. induction P as [|x p xs ps Hx _ IH]; intros l0 I; [destruct I|]. destruct I as [->|I]; [exists x; split; [left; reflexivity|exact Hx]|].
    destruct (IH l0 I) as (p' & I' & H'). exists p'. split; [right; exact I'|exact H']. }
  destruct (G l Il) as (p & Ip & Hp').
  assert (Uniq : forall p', In p' ps -> forall c, (forall l0, property_text X l0 p' -> exists k1 w1, py_split l0 = [k1; w1] /\ initial c k1) ->
     initial c k -> p' = p).
  { intros p' I' c Hc Hk. destruct (G' p' I') as (l0 & I0 & H0). destruct (Hc l0 H0) as (k1 & w1 & E1 & Hk1).
    assert (l0 = l) by (eapply letter_inj; eauto; rewrite (letter_of _ _ _ _ E1 Hk1), (letter_of _ _ _ _ E Hk); reflexivity). subst l0. eapply property_fun; eauto. }
  split; intros Hk.
  - inversion Hp'; subst; match goal with E2 : py_split l = _ |- _ => rewrite E in E2; inversion E2; subst end;
      try (match goal with Ha : initial ?a ?kk, Hb : initial "d" ?kk |- _ => pose proof (initial_fun _ _ _ Ha Hb) as Ec; discriminate Ec end); [|contradiction].
    eexists. split; [eassumption|]. rewrite Cd. apply last_some_unique; [exists (PDouble b); split; [exact Ip|reflexivity]|].
    intros x z Ix Ex. destruct x; try discriminate. inversion Ex; subst. assert (Q : @PDouble F z = PDouble b); [|inversion Q; reflexivity].
    apply (Uniq _ Ix "d"%char); [|exact Hk]. intros l0 Hl0. inversion Hl0; subst. eauto.
  - inversion Hp'; subst; match goal with E2 : py_split l = _ |- _ => rewrite E in E2; inversion E2; subst end;
      try (match goal with Ha : initial ?a ?kk, Hb : initial "s" ?kk |- _ => pose proof (initial_fun _ _ _ Ha Hb) as Ec; discriminate Ec end); [|contradiction].
    eexists. split; [eassumption|]. rewrite Csn. apply last_some_unique; [exists (PSpin b); split; [exact Ip|reflexivity]|].
    intros x z Ix Ex. destruct x; try discriminate. inversion Ex; subst. assert (Q : @PSpin F z = PSpin b); [|inversion Q; reflexivity].
    apply (Uniq _ Ix "s"%char); [|exact Hk]. intros l0 Hl0. inversion Hl0; subst. eauto.
Qed.

(** ** Cell *)
Lemma length_read hdr u : length_unit X hdr u ->
  exists v, (match py_split hdr with [_] => Ret "Angstrom"%string | [_; u] => Ret u | _ => Raise UnboundLocalError end) = Ret v
    /\ length_units X (str_lower v) = Ret (fdiv u (LENGTH X)).
Proof.
  intros H; inversion H as [? k E|? k v E I|? k v E I]; subst; rewrite E.
  - exists "Angstrom". split; reflexivity.
  - exists v. split; [reflexivity|]. unfold length_units. rewrite (initb_excl _ "b" v I ltac:(discriminate)), (initb_incl _ _ I). reflexivity.
  - exists v. split; [reflexivity|]. unfold length_units. rewrite (initb_incl _ _ I). reflexivity.
Qed.
Lemma vec_eq (a b : V3 F) : vx a = vx b -> vy a = vy b -> vz a = vz b -> a = b.
Proof. destruct a, b; cbn; congruence. Qed.

Lemma cell_scaled hdr sl r1 r2 r3 u s a b c d e g h i j :
  has_section secs "cell" (hdr :: sl ++ [r1; r2; r3])%list -> length_unit X hdr u -> scale_text X sl s ->
  numbers X (py_split r1) [a; b; c] -> numbers X (py_split r2) [d; e; g] -> numbers X (py_split r3) [h; i; j] ->
  vscale (c_angstrom X) (mrow1 (ld_cell L)) = scaled_row u s a b c
  /\ vscale (c_angstrom X) (mrow2 (ld_cell L)) = scaled_row u s d e g
  /\ vscale (c_angstrom X) (mrow3 (ld_cell L)) = scaled_row u s h i j.
Proof.
  intros Hs Hu Hsc N1 N2 N3. destruct (load_inv X _ _ _ _ Hf Hl Hn HL) as (_ & scale & w1 & w2 & (sc & Hsc' & Rc) & _).
  rewrite (has_section_fun _ _ _ _ Hn Hsc' Hs) in Rc. clear sc Hsc'.
  destruct (length_read hdr u Hu) as (v & Hv & Hlu). pose proof (proj1 (sane_lengths X HX)) as La.
  unfold read_cell in Rc. inversion Hsc; subst; cbn [app item nth_error of_option obind] in Rc; rewrite Hv in Rc; cbn [obind] in Rc; rewrite Hlu in Rc;
    cbn [obind List.length Nat.eqb Nat.add item nth_error of_option] in Rc; rewrite (read_row_numbers X _ _ _ _ N1), (read_row_numbers X _ _ _ _ N2), (read_row_numbers X _ _ _ _ N3) in Rc; cbn [obind] in Rc.
  - injection Rc as Ec _. rewrite <- Ec. unfold scaled_row, rows, scale_row, vscale, vmap, mrow1, mrow2, mrow3, LENGTH. cbn.
    split; [|split]; apply vec_eq; cbn; field; exact La.
  - unfold read_scale in Rc. pose proof (Forall2_length_eq _ _ _ H) as Lw. destruct (py_split l) as [|w [|]]; try discriminate. inversion H; subst.
    unfold py_float in Rc. rewrite H4 in Rc. cbn [of_option obind] in Rc. rewrite H0 in Rc. cbn [obind] in Rc. injection Rc as Ec _. rewrite <- Ec.
    unfold scaled_row, rows, scale_row, vscale, vmap, mrow1, mrow2, mrow3, LENGTH. cbn. split; [|split]; apply vec_eq; cbn; field; exact La.
  - unfold read_scale in Rc. pose proof (Forall2_length_eq _ _ _ H) as Lw. destruct (py_split l) as [|q1 [|q2 [|q3 [|]]]]; try discriminate.
    inversion H; subst. inversion H5; subst. inversion H7; subst. unfold py_float in Rc. rewrite H3, H4, H6 in Rc. cbn [of_option obind] in Rc. injection Rc as Ec _. rewrite <- Ec.
    unfold scaled_row, rows, scale_row, vscale, vmap, mrow1, mrow2, mrow3, LENGTH. cbn. split; [|split]; apply vec_eq; cbn; field; exact La.
Qed.

Lemma cell_negative hdr l r1 r2 r3 u s a b c d e g h i j :
  has_section secs "cell" [hdr; l; r1; r2; r3] -> length_unit X hdr u -> numbers X (py_split l) [s] -> fltb s f0 = true ->
  numbers X (py_split r1) [a; b; c] -> numbers X (py_split r2) [d; e; g] -> numbers X (py_split r3) [h; i; j] ->
  let V := fmul (fmul (fdiv u (c_angstrom X)) (fmul (fdiv u (c_angstrom X)) (fdiv u (c_angstrom X)))) (mdet (mkM a b c d e g h i j)) in
  let r := fdiv (fopp s) (if fltb V f0 then fopp V else V) in
  mdet (ld_cell L) = fmul (fmul r (fmul r r)) V.
Proof.
  intros Hs Hu Ns Neg N1 N2 N3. destruct (load_inv X _ _ _ _ Hf Hl Hn HL) as (_ & scale & w1 & w2 & (sc & Hsc' & Rc) & _).
  rewrite (has_section_fun _ _ _ _ Hn Hsc' Hs) in Rc. clear sc Hsc'.
  destruct (length_read hdr u Hu) as (v & Hv & Hlu). pose proof (proj1 (sane_lengths X HX)) as La.
  unfold read_cell in Rc. cbn [item nth_error of_option obind] in Rc; rewrite Hv in Rc; cbn [obind] in Rc; rewrite Hlu in Rc;
    cbn [obind List.length Nat.eqb Nat.add item nth_error of_option] in Rc; rewrite (read_row_numbers X _ _ _ _ N1), (read_row_numbers X _ _ _ _ N2), (read_row_numbers X _ _ _ _ N3) in Rc; cbn [obind] in Rc.
  pose proof (Forall2_length_eq _ _ _ Ns) as Lw. unfold read_scale in Rc. destruct (py_split l) as [|w [|]]; try discriminate. inversion Ns; subst.
  unfold py_float in Rc. rewrite H2 in Rc. cbn [of_option obind] in Rc. rewrite Neg in Rc. unfold fabs at 1 in Rc. rewrite Neg in Rc.
  set (V := fmul _ (mdet _)).
  replace (mdet (rows (vscale (fdiv u (LENGTH X)) (mkV a b c)) (vscale (fdiv u (LENGTH X)) (mkV d e g)) (vscale (fdiv u (LENGTH X)) (mkV h i j)))) with V in Rc
    by (unfold V, rows, vscale, vmap, mdet, LENGTH; cbn; ring).
  destruct (feq_dec V f0) as [|HV]; [discriminate|]. cbn [obind] in Rc. unfold fabs in Rc.
  set (r := fdiv (fopp s) (if fltb V f0 then fopp V else V)) in *. injection Rc as Ec _. rewrite <- Ec. cbv zeta.
  fold r. clearbody r. unfold V, rows, scale_row, vscale, vmap, mdet, LENGTH. cbn. ring.
Qed.

End More.

(** ** Over [is_file] *)
Section Files.
Context {F : Type} {SF : Scalar F}.
Variable X : externals F.
Local Notation bond_value := (@HamSpec.bond_value F).

Theorem accepted_loads_file : sane X -> forall secs f, is_file secs f -> accepts X f ->
  (has_parameters secs -> exists n, has_section secs "notation" n) -> undashed secs -> not_joule secs ->
  true_cell X secs -> true_axis X secs -> exists L, load_txt X f = Ret L.
Proof. intros HX secs f (ts & A & B & C). intros. eapply accepted_loads; eauto. Qed.

Theorem on_site_converted_file : sane X -> forall secs f L s es u a, is_file secs f -> load_txt X f = Ret L ->
  fmul (c_milli X) (c_electron_volt X) <> f0 ->
  has_section secs "on-site" s -> on_site_text X (tl s) es -> energy_unit X (hd "" s) u -> In a (h_atoms (w_ham (ld_ham L))) ->
  match last_entry (a_name a) es with
  | Some A => exists m, onsite_value (ld_ham L) a = Some m /\ mscale (fmul (c_milli X) (c_electron_volt X)) m = mscale u A
  | None => onsite_value (ld_ham L) a = None
  end.
Proof. intros HX secs f L s es u a (ts & A & B & C) HL. intros. eapply on_site_converted; eauto. Qed.

Theorem exchange_as_written_file : sane X -> forall secs f L s bs k, is_file secs f -> load_txt X f = Ret L ->
  has_section secs "exchange" s -> exchange_text X (tl s) bs ->
  In (b_from k) (h_atoms (w_ham (ld_ham L))) -> In (b_to k) (h_atoms (w_ham (ld_ham L))) ->
  bond_value (ld_ham L) k = match last_for k bs with
    | Some b => Some (described (bn_data b))
    | None => match h_dc (w_ham (ld_ham L)) with
              | Some true => option_map (fun b => mtrans (described (firstn 1 (bn_data b)))) (first_for (mirror k) bs)
              | _ => None
              end
    end.
Proof. intros HX secs f L s bs k (ts & A & B & C) HL. intros. eapply exchange_as_written; eauto. Qed.

Theorem exchange_converted_file : sane X -> forall secs f L s bs k b, is_file secs f -> load_txt X f = Ret L ->
  has_section secs "exchange" s -> exchange_text X (tl s) bs -> energy_unit X (hd "" s) (fmul (c_milli X) (c_electron_volt X)) ->
  In (b_from k) (h_atoms (w_ham (ld_ham L))) -> In (b_to k) (h_atoms (w_ham (ld_ham L))) -> last_for k bs = Some b ->
  exists m, bond_value (ld_ham L) k = Some m
    /\ mscale (fmul (c_milli X) (c_electron_volt X)) m = mscale (fmul (c_milli X) (c_electron_volt X)) (described (bn_data b)).
Proof.
  intros HX secs f L s bs k b If HL Hs Ht _ I1 I2 E. pose proof (exchange_as_written_file HX secs f L s bs k If HL Hs Ht I1 I2) as H. rewrite E in H.
  eexists. split; [exact H|reflexivity].
Qed.

Theorem mirror_of_single_file : sane X -> forall secs f L s bs b k, is_file secs f -> load_txt X f = Ret L ->
  has_section secs "exchange" s -> exchange_text X (tl s) bs ->
  In (b_from k) (h_atoms (w_ham (ld_ham L))) -> In (b_to k) (h_atoms (w_ham (ld_ham L))) ->
  h_dc (w_ham (ld_ham L)) = Some true -> filter (is_entry k) bs = [b] -> filter (is_entry (mirror k)) bs = [] -> mirror k <> k ->
  bond_value (ld_ham L) k = Some (described (bn_data b))
  /\ bond_value (ld_ham L) (mirror k) = Some (mtrans (described (firstn 1 (bn_data b)))).
Proof. intros HX secs f L s bs b k (ts & A & B & C) HL. intros. eapply mirror_of_single; eauto. Qed.

Theorem mirror_one_line_file : sane X -> forall secs f L s bs b d k, is_file secs f -> load_txt X f = Ret L ->
  has_section secs "exchange" s -> exchange_text X (tl s) bs ->
  In (b_from k) (h_atoms (w_ham (ld_ham L))) -> In (b_to k) (h_atoms (w_ham (ld_ham L))) ->
  h_dc (w_ham (ld_ham L)) = Some true -> filter (is_entry k) bs = [b] -> filter (is_entry (mirror k)) bs = [] -> mirror k <> k ->
  bn_data b = [d] ->
  exists J, bond_value (ld_ham L) k = Some J /\ bond_value (ld_ham L) (mirror k) = Some (mtrans J) /\ J = described [d].
Proof. intros HX secs f L s bs b d k (ts & A & B & C) HL. intros. eapply mirror_one_line; eauto. Qed.

Theorem cell_scaled_file : sane X -> forall secs f L hdr sl r1 r2 r3 u s a b c d e g h i j, is_file secs f -> load_txt X f = Ret L ->
  has_section secs "cell" (hdr :: sl ++ [r1; r2; r3])%list -> length_unit X hdr u -> scale_text X sl s ->
  numbers X (py_split r1) [a; b; c] -> numbers X (py_split r2) [d; e; g] -> numbers X (py_split r3) [h; i; j] ->
  vscale (c_angstrom X) (mrow1 (ld_cell L)) = scaled_row u s a b c
  /\ vscale (c_angstrom X) (mrow2 (ld_cell L)) = scaled_row u s d e g
  /\ vscale (c_angstrom X) (mrow3 (ld_cell L)) = scaled_row u s h i j.
Proof. intros HX secs f L hdr sl r1 r2 r3 u s a b c d e g h i j (ts & A & B & C) HL. intros. eapply cell_scaled; eauto. Qed.

Theorem cell_negative_file : sane X -> forall secs f L hdr l r1 r2 r3 u s a b c d e g h i j, is_file secs f -> load_txt X f = Ret L ->
  has_section secs "cell" [hdr; l; r1; r2; r3] -> length_unit X hdr u -> numbers X (py_split l) [s] -> fltb s f0 = true ->
  numbers X (py_split r1) [a; b; c] -> numbers X (py_split r2) [d; e; g] -> numbers X (py_split r3) [h; i; j] ->
  let V := fmul (fmul (fdiv u (c_angstrom X)) (fmul (fdiv u (c_angstrom X)) (fdiv u (c_angstrom X)))) (mdet (mkM a b c d e g h i j)) in
  let r := fdiv (fopp s) (if fltb V f0 then fopp V else V) in
  mdet (ld_cell L) = fmul (fmul r (fmul r r)) V.
Proof. intros HX secs f L hdr l r1 r2 r3 u s a b c d e g h i j (ts & A & B & C) HL. intros. eapply cell_negative; eauto. Qed.

Theorem boolean_read_file : sane X -> forall secs f L n l k w, is_file secs f -> load_txt X f = Ret L ->
  has_parameters secs -> has_section secs "notation" n -> In l (tl n) -> py_split l = [k; w] ->
  (initial "d" k -> exists b, says w b /\ h_dc (w_ham (ld_ham L)) = Some b)
  /\ (initial "s" k -> exists b, says w b /\ h_sn (w_ham (ld_ham L)) = Some b).
Proof. intros HX secs f L n l k w (ts & A & B & C) HL. intros. eapply boolean_read; eauto. Qed.

Theorem bool_words w : is_bool w = true <-> exists b, says w b.
Proof. apply is_bool_says. Qed.
Theorem bool_unambiguous w b b' : says w b -> says w b' -> b = b'.
Proof. apply says_fun. Qed.
Theorem bool_case w w' b : str_lower w = str_lower w' -> says w b -> says w' b.
Proof. unfold says. intros <-. auto. Qed.
Theorem bool_value l k w b (wd : @world F) : py_split l = [k; w] -> says w b -> read_bool l wd = (wd, Ret b).
Proof. intros E H. unfold read_bool, bind, lift, item, ret. rewrite E. simpl. rewrite (says_mem w b H). reflexivity. Qed.
End Files.
