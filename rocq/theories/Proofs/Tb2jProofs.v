(** The TB2J loader on files of the documented form. *)
From Coq Require Import String Ascii List Bool ZArith Arith Lia Ring Field.
From Verif.Base Require Import Scalar Linear3 PyDict PyString PyText PyText2.
From Verif.Spec Require Import HamSpec ParameterSpec HistorySpec TxtFormat Tb2jSpec.
From Verif.Model Require Import MatrixParam Hamiltonian TxtVerify TxtRead Tb2j.
From Verif.Proofs Require Import DictProofs ParameterProofs HamBasics HamSetters HistoryProofs CallProofs TxtReadProofs LoadProofs.
Import ListNotations.
Local Open Scope string_scope.

(** ** Substrings *)
Lemma prefix_app p s : String.prefix p (p ++ s) = true.
Proof. induction p as [|c p IH]; [destruct s; reflexivity|]. simpl. destruct (ascii_dec c c); [exact IH|congruence]. Qed.
Lemma prefix_inv p s : String.prefix p s = true -> exists t, s = p ++ t.
Proof.
  revert s. induction p as [|c p IH]; intros s H; [exists s; reflexivity|]. destruct s as [|a s]; [discriminate|]. simpl in H.
  destruct (ascii_dec c a); [|discriminate]. destruct (IH s H) as [t ->]. subst. exists t. reflexivity.
Qed.
Lemma has_sub_spec p s : has_sub p s = true <-> contains p s.
Proof.
  unfold contains. split.
  - induction s as [|c s IH]; intros H; cbn [has_sub] in H; apply orb_prop in H; destruct H as [H|H].
    + apply prefix_inv in H. destruct H as [t E]. exists "", t. exact E.
    + discriminate.
    + apply prefix_inv in H. destruct H as [t E]. exists "", t. exact E.
    + destruct (IH H) as (a & b & ->). exists (String c a), b. reflexivity.
  - intros (a & b & ->). induction a as [|c a IH].
    + change ("" ++ p ++ b) with (p ++ b). pose proof (prefix_app p b) as E. destruct (p ++ b); cbn [has_sub]; rewrite E; reflexivity.
    + change (String c a ++ p ++ b) with (String c (a ++ p ++ b)). cbn [has_sub]. rewrite IH. apply orb_true_r.
Qed.
Lemma has_sub_no p s : ~ contains p s -> has_sub p s = false.
Proof. rewrite <- has_sub_spec. destruct (has_sub p s); congruence. Qed.
Lemma has_sub_yes p s : contains p s -> has_sub p s = true.
Proof. apply has_sub_spec. Qed.
Lemma mem_str_spec w l : mem_str w l = true <-> In w l.
Proof. unfold mem_str. destruct (in_dec string_dec w l); split; congruence. Qed.
Lemma mem_str_no w l : ~ In w l -> mem_str w l = false.
Proof. unfold mem_str. destruct (in_dec string_dec w l); congruence. Qed.

Section Tb2j.
Context {F : Type} {SF : Scalar F}.
Variable X : externals F.
Notation world := (@world F).
Notation M := (@M F).
Notation call := (@call F).
Local Open Scope py_scope.
Local Open Scope fld_scope.
Add Field F_field : (@f_field F SF).

Lemma floats_of ws xs : numbers X ws xs -> py_floats X ws = Ret xs.
Proof.
  induction 1 as [|w x ws xs E _ IH]; [reflexivity|]. cbn [py_floats]. unfold py_float. rewrite E. cbn. rewrite IH. reflexivity.
Qed.
Lemma three_of ws a b c : numbers X ws [a; b; c] -> three_floats X ws = Ret (mkV a b c).
Proof. intros H. unfold three_floats. rewrite (floats_of _ _ H). reflexivity. Qed.
Lemma numbers_length ws xs : numbers X ws xs -> List.length ws = List.length xs.
Proof. induction 1; simpl; congruence. Qed.

(** ** The data of a bond *)
Definition mlist (m : M3 F) : list (list F) := [[mxx m; mxy m; mxz m]; [myx m; myy m; myz m]; [mzx m; mzy m; mzz m]].
Definition or_now {A} (later now : option A) : option A := match later with Some x => Some x | None => now end.
Definition over (b : @block F) i a d : block :=
  mkBl (or_now i (bl_iso b)) (or_now (option_map mlist a) (bl_aniso b)) (or_now (option_map (@vlist F) d) (bl_dmi b)).

Definition rest_of (rest : list string) : pyline * list string :=
  match rest with [] => (LEnd, []) | l :: t => (LStr l, t) end.
Definition at_end (rest : list string) : Prop := match rest with [] => True | l :: _ => separator l end.

Lemma block_read ls i a d : data_lines X ls i a d -> forall rest, at_end rest -> forall fuel line b,
  (List.length ls + List.length rest + 1 <= fuel)%nat -> truthy line = true -> is_in minor_sep line = false ->
  read_block X fuel line (ls ++ rest) b = Ret (rest_of rest, over b i a d).
Proof.
  induction 1 as [|l x ls i a d C1 N2 N3 N4 Ex _ IH|l r1 r2 r3 a1 a2 a3 b1 b2 b3 c1 c2 c3 ls i a d C1 N2 N3 N4 E1 E2 E3 _ IH
    |l front ws x y z ls i a d C1 N2 N3 N4 Ew Ex _ IH|l ls i a d N1 N4 _ IH];
    intros rest Hr fuel line b Hf Ht Hs; (destruct fuel as [|fuel]; [cbn in Hf; lia|]); cbn [read_block]; rewrite Ht, Hs;
    cbn [negb orb app]; cbn [List.length] in Hf.
  - destruct rest as [|l t].
    + destruct b; reflexivity.
    + destruct Hr as [Hs1 Hs2]. unfold data_flag in Hs2. unfold read_block_line.
      rewrite (has_sub_no iso_flag), (has_sub_no aniso_flag), (has_sub_no dmi_flag) by (unfold iso_flag, aniso_flag, dmi_flag; tauto).
      cbn [obind]. destruct fuel as [|fuel]; [cbn in Hf; lia|]. cbn [read_block truthy negb orb is_in].
      change minor_sep with dashes88. rewrite (has_sub_yes _ _ Hs1). destruct b; reflexivity.
  - unfold read_block_line, iso_flag, aniso_flag, dmi_flag. rewrite (has_sub_yes _ _ C1), (has_sub_no _ _ N2), (has_sub_no _ _ N3).
    unfold last_word, py_float. rewrite Ex. cbn [obind of_option].
    rewrite IH; [|exact Hr|lia|reflexivity|cbn; apply has_sub_no; exact N4]. destruct i; reflexivity.
  - unfold read_block_line, iso_flag, aniso_flag, dmi_flag. rewrite (has_sub_yes _ _ C1), (has_sub_no _ _ N2), (has_sub_no _ _ N3).
    cbn [nth app obind skipn]. fold (bare_words r1) (bare_words r2) (bare_words r3).
    change (py_split (ungarbage r1)) with (bare_words r1). change (py_split (ungarbage r2)) with (bare_words r2). change (py_split (ungarbage r3)) with (bare_words r3).
    rewrite (floats_of _ _ E1), (floats_of _ _ E2), (floats_of _ _ E3). cbn [obind].
    rewrite IH; [|exact Hr|lia|reflexivity|cbn; apply has_sub_no; exact N4]. destruct a; reflexivity.
  - unfold read_block_line, iso_flag, aniso_flag, dmi_flag. rewrite (has_sub_yes _ _ C1), (has_sub_no _ _ N2), (has_sub_no _ _ N3).
    cbn [obind]. change (py_split (ungarbage l)) with (bare_words l). rewrite Ew. unfold last_three.
    pose proof (numbers_length _ _ Ex) as El. cbn [List.length] in El. rewrite app_length.
    replace (List.length front + List.length ws - 3)%nat with (List.length front) by lia.
    rewrite skipn_app, skipn_all, Nat.sub_diag. cbn [skipn app]. rewrite (floats_of _ _ Ex). cbn [obind].
    rewrite IH; [|exact Hr|lia|reflexivity|cbn; apply has_sub_no; exact N4]. destruct d; reflexivity.
  - unfold data_flag in N1. unfold read_block_line.
    rewrite (has_sub_no iso_flag), (has_sub_no aniso_flag), (has_sub_no dmi_flag) by (unfold iso_flag, aniso_flag, dmi_flag; tauto).
    cbn [obind]. rewrite IH; [|exact Hr|lia|reflexivity|cbn; apply has_sub_no; exact N4]. destruct b; reflexivity.
Qed.

Definition entry_matrix (e : @entry F) : M3 F := p_init None (e_iso e) (e_ani e) (e_dmi e).
Definition call_of (e : @entry F) : call := (e_from e, e_to e, e_cell e, Some (entry_matrix e)).
Lemma over_matrix i a d : block_matrix (over (mkBl None None None) i a d) = Some (p_init None i a d).
Proof. unfold block_matrix, over. destruct i, a as [[]|], d as [[]|]; reflexivity. Qed.

Ltac m3 := cbv beta iota zeta delta [dmi_form mvec mrow1 mrow2 mrow3 dot madd msub mopp mscale mid mmap2 mmap vx vy vz mxx mxy mxz myx myy myz mzx mzy mzz].
Lemma base_matrix iso dmi : composed (p_init None iso None dmi) (match iso with Some x => x | None => 0 end) (mkM 0 0 0 0 0 0 0 0 0)
  (match dmi with Some d => d | None => mkV 0 0 0 end).
Proof.
  pose proof (init_composed None iso None dmi ltac:(discriminate)) as H. cbv beta iota zeta in H.
  assert (Z : composed (mzero : M3 F) 0 (mkM 0 0 0 0 0 0 0 0 0) (mkV 0 0 0)).
  { unfold composed, symmetric, traceless, dmi_form, mzero, mtrans, mtrace, madd, mscale, mid. cbn. split; [repeat split|]. split; [ring|]. unfold mmap2, mmap. cbn. f_equal; ring. }
  destruct (composed_parts _ _ _ _ Z) as (Z1 & Z2 & Z3). rewrite Z1, Z2, Z3 in H. exact H.
Qed.
Lemma entry_matrix_sum e : entry_matrix e = madd (madd (mscale (iso_part e) mid) (dmi_form (dmi_part e))) (ani_part e).
Proof.
  unfold entry_matrix, iso_part, ani_part, dmi_part. pose proof (base_matrix (e_iso e) (e_dmi e)) as B.
  destruct (e_ani e) as [a|].
  - change (p_init None (e_iso e) (Some a) (e_dmi e)) with (p_set_aniso (p_init None (e_iso e) None (e_dmi e)) a).
    destruct (composed_parts _ _ _ _ B) as (_ & B2 & _). unfold p_set_aniso. rewrite B2. destruct B as (_ & _ & ->).
    destruct a, (match e_dmi e with Some d => d | None => _ end). m3. f_equal; ring.
  - destruct B as (_ & _ & ->). destruct (match e_dmi e with Some d => d | None => _ end). m3. f_equal; ring.
Qed.
Lemma entry_energy e : energy_of_entry e (entry_matrix e).
Proof.
  intros u v. rewrite entry_matrix_sum. destruct u, v, (dmi_part e), (ani_part e). m3. ring.
Qed.
Lemma energy_determines (e : @entry F) m m' : energy_of_entry e m -> energy_of_entry e m' -> m = m'.
Proof.
  intros H H'. assert (E : forall u v, dot u (mvec m v) = dot u (mvec m' v)) by (intros u v; rewrite H, H'; reflexivity).
  clear H H'. destruct m as [m1 m2 m3 m4 m5 m6 m7 m8 m9], m' as [n1 n2 n3 n4 n5 n6 n7 n8 n9].
  pose proof (E (mkV 1 0 0) (mkV 1 0 0)) as E1. pose proof (E (mkV 1 0 0) (mkV 0 1 0)) as E2. pose proof (E (mkV 1 0 0) (mkV 0 0 1)) as E3.
  pose proof (E (mkV 0 1 0) (mkV 1 0 0)) as E4. pose proof (E (mkV 0 1 0) (mkV 0 1 0)) as E5. pose proof (E (mkV 0 1 0) (mkV 0 0 1)) as E6.
  pose proof (E (mkV 0 0 1) (mkV 1 0 0)) as E7. pose proof (E (mkV 0 0 1) (mkV 0 1 0)) as E8. pose proof (E (mkV 0 0 1) (mkV 0 0 1)) as E9.
  clear E. cbv beta iota zeta delta [mvec mrow1 mrow2 mrow3 dot vx vy vz mxx mxy mxz myx myy myz mzx mzy mzz] in E1, E2, E3, E4, E5, E6, E7, E8, E9.
  f_equal; [revert E1|revert E2|revert E3|revert E4|revert E5|revert E6|revert E7|revert E8|revert E9]; clear; intros E;
    (eapply eq_trans; [|eapply eq_trans; [exact E|]]); ring.
Qed.

(** ** The exchange loop *)
Lemma item_at {A} (l : list A) n x (w : world) (k : A -> M unit) : nth_error l n = Some x -> (y <- lift (item l n) ;; k y) w = k x w.
Proof. intros H. unfold bind, lift, item. rewrite H. reflexivity. Qed.

Lemma bind_lift {A B} (a : A) (k : A -> M B) (w : world) : (x <- lift (Ret a) ;; k x) w = k a w.
Proof. reflexivity. Qed.

Lemma skip_gap line gap sep tail : truthy line = true -> is_in minor_sep line = false -> Forall (fun l => ~ contains dashes88 l) gap -> separator sep ->
  skip_to_sep line (gap ++ sep :: tail)%list = (LStr sep, tail).
Proof.
  intros Ht Hs Hg [Hc _]. revert line Ht Hs. induction Hg as [|l gap Hl _ IH]; intros line Ht Hs; cbn [app skip_to_sep]; rewrite Ht, Hs; cbn [negb orb].
  - destruct tail; cbn [skip_to_sep truthy negb orb is_in]; change minor_sep with dashes88; rewrite (has_sub_yes _ _ Hc); reflexivity.
  - apply IH; [reflexivity|]. cbn [is_in]. change minor_sep with dashes88. apply has_sub_no, Hl.
Qed.
Lemma skip_sep sep tail : separator sep -> skip_to_sep (LStr sep) tail = (LStr sep, tail).
Proof. intros [Hc _]. destruct tail; cbn [skip_to_sep truthy negb orb is_in]; change minor_sep with dashes88; rewrite (has_sub_yes _ _ Hc); reflexivity. Qed.

(** The loop at a separator and one entry further. *)
Lemma entry_step sep s e rest fuel line file (w : world) : truthy line = true -> skip_to_sep line file = (LStr sep, s ++ rest)%list ->
  entry_text X s e -> at_end rest ->
  read_exchanges X (S fuel) line file w
  = (do_call (call_of e) ;;; read_exchanges X fuel (fst (rest_of rest)) (snd (rest_of rest))) w.
Proof.
  intros Ht Es (hdr & data & wi & wj & wk & i & j & k & more & dist & -> & Ew & Ei & Ej & Ek & Ec & Ed & Hs & Hd) Hr.
  cbn [read_exchanges]. rewrite Ht, Es. cbn [negb app readline text_of].
  change (py_split (ungarbage hdr)) with (bare_words hdr).
  rewrite (item_at _ 0 (e_from e)) by (rewrite Ew; reflexivity). rewrite (item_at _ 1 (e_to e)) by (rewrite Ew; reflexivity).
  assert (E3 : int3 X (firstn 3 (skipn 2 (bare_words hdr))) = Ret (Some (e_cell e))).
  { rewrite Ew, Ec. cbn [skipn firstn int3]. unfold py_int. rewrite Ei, Ej, Ek. reflexivity. }
  rewrite E3, bind_lift. unfold last_word, py_float. rewrite Ed. cbn [of_option]. rewrite bind_lift.
  assert (T : truthy (LWords (bare_words hdr)) = true) by (rewrite Ew; reflexivity).
  rewrite (block_read _ _ _ _ Hd rest Hr); [|rewrite app_length; lia|exact T|cbn; apply mem_str_no, Hs].
  rewrite bind_lift, over_matrix. destruct (rest_of rest) as [line' file']. reflexivity.
Qed.

Lemma entries_read ls es : entries_text X ls es -> forall fuel line file sep tail, (List.length ls <= fuel)%nat ->
  ls = sep :: tail -> truthy line = true -> skip_to_sep line file = (LStr sep, tail) ->
  forall w, read_exchanges X fuel line file w = for_each (map call_of es) do_call w.
Proof.
  induction 1 as [sep s e Hs He|sep s e ls es Hs He Hr IH]; intros fuel line file sep' tail Hf El Ht Es w; inversion El; subst sep' tail; clear El;
    (destruct fuel as [|fuel]; [cbn in Hf; lia|]).
  - rewrite (entry_step sep s e [] fuel line file w Ht) by (rewrite ?app_nil_r; auto; exact I). cbn [rest_of fst snd map for_each].
    unfold bind. destruct (do_call (call_of e) w) as [w1 [u|ex]]; [|reflexivity]. destruct fuel; reflexivity.
  - assert (Hne : exists sep' tail', ls = sep' :: tail' /\ separator sep') by (inversion Hr; subst; eauto).
    destruct Hne as (sep' & tail' & -> & Hs'). rewrite (entry_step sep s e (sep' :: tail') fuel line file w Ht Es He Hs').
    cbn [rest_of fst snd map for_each]. unfold bind. destruct (do_call (call_of e) w) as [w1 [u|ex]]; [|reflexivity].
    apply (IH fuel (LStr sep') tail' sep' tail'); [cbn [List.length] in Hf |- *; rewrite app_length in Hf; cbn in Hf; lia|reflexivity|reflexivity|apply skip_sep, Hs'].
Qed.

(** ** The head of the file *)
Definition row_atom (i : Z) (r : @table_row F) : @tb_atom F := mkTA (tr_name r) i (tr_position r) (tr_charge r) (tr_magmom r).
Fixpoint table_atoms (i : Z) (rs : list (@table_row F)) : list (@tb_atom F) :=
  match rs with [] => [] | r :: t => row_atom i r :: table_atoms (i + 1)%Z t end.
Lemma row_read i l r : row_text X l r -> read_tb_atom X i (py_split l) = Ret (row_atom i r).
Proof.
  intros (_ & pos & more & a & b & c & E & Np & Ep & H). unfold read_tb_atom. rewrite E.
  pose proof (numbers_length _ _ Np) as Lp. destruct pos as [|p1 [|p2 [|p3 [|p4 pos]]]]; try discriminate. clear Lp.
  assert (P : three_floats X (firstn 3 (skipn 1 (tr_name r :: ([p1; p2; p3] ++ more)%list))) = Ret (tr_position r)).
  { cbn [app skipn firstn]. rewrite Ep. apply three_of, Np. }
  destruct H as [(-> & Eq & Em)|[(w & q & ws & -> & Hl & Ew & Eq & Em)|(w & q & ws & rest & x & y & z & -> & Ew & Nm & Eq & Em)]].
  - rewrite P. cbn. unfold row_atom. rewrite Eq, Em. reflexivity.
  - assert (N7 : nth_error (tr_name r :: [p1; p2; p3] ++ w :: ws)%list 7 = None) by (apply nth_error_None; cbn; lia).
    rewrite N7, P. cbn [app nth_error obind]. unfold py_float. rewrite Ew. cbn. unfold row_atom. rewrite Eq, Em. reflexivity.
  - pose proof (numbers_length _ _ Nm) as Lm. destruct ws as [|q1 [|q2 [|q3 [|q4 ws]]]]; try discriminate.
    rewrite P. cbn [app nth_error obind skipn firstn]. rewrite (three_of _ _ _ _ Nm). cbn [obind]. unfold py_float. rewrite Ew. cbn. unfold row_atom.
    rewrite Eq, Em. reflexivity.
Qed.
Lemma row_words l r : row_text X l r -> nonempty (py_split l) = true /\ mem_str atom_end_flag (py_split l) = false.
Proof.
  intros (N & pos & more & a & b & c & E & _). split; [rewrite E; reflexivity|]. apply mem_str_no. exact N.
Qed.
Lemma table_read table rs : Forall2 (row_text X) table rs -> forall i total rest acc,
  In "Total" (py_split total) \/ py_split total = [] ->
  match (table ++ total :: rest)%list with
  | [] => True
  | l :: t => read_tb_atoms X i (py_split l) t acc = Ret (LWords (py_split total), rest, (acc ++ table_atoms i rs)%list)
  end.
Proof.
  induction 1 as [|l r table rs Hr _ IH]; intros i total rest acc Ht.
  - cbn [app table_atoms]. rewrite app_nil_r.
    assert (G : (negb (nonempty (py_split total)) || mem_str atom_end_flag (py_split total))%bool = true).
    { destruct Ht as [Ht|Ht]; [|rewrite Ht; reflexivity]. apply mem_str_spec in Ht. unfold atom_end_flag. rewrite Ht. apply orb_true_r. }
    destruct rest; cbn [read_tb_atoms]; rewrite G; reflexivity.
  - cbn [app]. specialize (IH (i + 1)%Z total rest (acc ++ [row_atom i r])%list Ht). destruct (row_words _ _ Hr) as [W1 W2].
    destruct (table ++ total :: rest)%list as [|l' t'] eqn:E; [destruct table; discriminate|].
    cbn [read_tb_atoms]. rewrite W1, W2. cbn [negb orb]. rewrite (row_read _ _ _ Hr). cbn [obind]. rewrite IH. cbn [table_atoms].
    rewrite <- app_assoc. reflexivity.
Qed.

Lemma head_plain pre : Forall plain pre -> forall fuel file cell atoms, (List.length pre <= fuel)%nat ->
  read_head X fuel (pre ++ file) cell atoms = read_head X (fuel - List.length pre) file cell atoms.
Proof.
  induction 1 as [|l pre (P1 & P2 & P3) _ IH]; intros fuel file cell atoms Hf; [cbn; rewrite Nat.sub_0_r; reflexivity|].
  destruct fuel as [|fuel]; [cbn in Hf; lia|]. cbn [app read_head readline is_in].
  unfold cell_flag, atoms_flag, exchange_flag. rewrite (has_sub_no _ _ P1), (has_sub_no _ _ P2).
  cbn [obind truthy andb is_in List.length Nat.sub]. rewrite (has_sub_no _ _ P3). apply IH. cbn in Hf. lia.
Qed.

Ltac lens := repeat (rewrite app_length || cbn [List.length]); lia.
(** Cell, atoms, whatever stands before exchange: common to complete and broken files. *)
Lemma head_table pre hcell ra rb rc a1 a2 a3 b1 b2 b3 c1 c2 c3 mid hatoms x y table rs total rest fuel :
  Forall plain pre -> Forall plain mid ->
  contains "Cell (Angstrom):" hcell -> ~ contains "Atoms:" hcell -> ~ contains "Exchange:" hcell ->
  numbers X (py_split ra) [a1; a2; a3] -> numbers X (py_split rb) [b1; b2; b3] -> numbers X (py_split rc) [c1; c2; c3] ->
  contains "Atoms:" hatoms -> ~ contains "Cell (Angstrom):" hatoms ->
  Forall2 (row_text X) table rs -> In "Total" (py_split total) \/ py_split total = [] ->
  (List.length pre + List.length mid + 2 <= fuel)%nat ->
  read_head X fuel (pre ++ [hcell; ra; rb; rc] ++ mid ++ [hatoms; x; y] ++ table ++ [total] ++ rest)%list None []
  = (let line := LWords (py_split total) in
     if (truthy line && is_in exchange_flag line)%bool then Ret (line, rest, Some (mkM a1 a2 a3 b1 b2 b3 c1 c2 c3), table_atoms 1 rs)
     else if truthy line then read_head X (fuel - (List.length pre + List.length mid + 2)) rest (Some (mkM a1 a2 a3 b1 b2 b3 c1 c2 c3)) (table_atoms 1 rs)
     else Ret (line, rest, Some (mkM a1 a2 a3 b1 b2 b3 c1 c2 c3), table_atoms 1 rs)).
Proof.
  intros Hp Hm C1 C2 C3 Na Nb Nc A1 A2 Ht Hto Hf. rewrite (head_plain _ Hp) by lia.
  destruct (fuel - List.length pre)%nat as [|fuel1] eqn:E1; [lia|]. cbn [app read_head readline is_in]. unfold cell_flag, atoms_flag, words_at.
  rewrite (has_sub_yes _ _ C1), (has_sub_no _ _ C2). cbn [nth]. rewrite (three_of _ _ _ _ Na), (three_of _ _ _ _ Nb), (three_of _ _ _ _ Nc).
  cbn [obind skipn truthy andb is_in]. unfold exchange_flag at 1. rewrite (has_sub_no _ _ C3). rewrite (head_plain _ Hm) by lia.
  destruct (fuel1 - List.length mid)%nat as [|fuel2] eqn:E2; [lia|]. cbn [app read_head readline is_in]. unfold cell_flag, atoms_flag, words_at.
  rewrite (has_sub_yes _ _ A1), (has_sub_no _ _ A2). cbn [obind].
  pose proof (table_read table rs Ht 1%Z total rest [] Hto) as T.
  destruct (table ++ total :: rest)%list as [|l t] eqn:El; [destruct table; discriminate|]. cbn [nth skipn]. rewrite T. cbn [obind app].
  replace (fuel - (List.length pre + List.length mid + 2))%nat with fuel2 by lia. reflexivity.
Qed.

(** ** The Hamiltonian before exchange *)
Definition tb_ham (atoms : list atom) : @ham F := mkHam [] [] atoms [] (Some true) (Some true) (Some (- (1))) (Some (- (1))).
Lemma notation_set : run_out (set_notation (NStr "TB2J")) (mkW [] (new_ham [] []) : world) = Ret (mkW [] (tb_ham [])).
Proof. reflexivity. Qed.
Definition atoms_of (l : list (@tb_atom F)) : list atom := map (fun a => mkAtom (ta_name a) (ta_index a)) l.
Fixpoint numbered (i : Z) (names : list string) : list atom :=
  match names with [] => [] | n :: t => mkAtom n i :: numbered (i + 1)%Z t end.
Lemma atoms_of_table i rs : atoms_of (table_atoms i rs) = numbered i (map tr_name rs).
Proof. revert i. induction rs as [|r rs IH]; intros i; [reflexivity|]. cbn. f_equal. apply IH. Qed.
Lemma numbered_index i names a : In a (numbered i names) -> (i <= a_index a)%Z.
Proof. revert i. induction names as [|n t IH]; intros i H; [contradiction|]. destruct H as [<-|H]; [cbn; lia|]. apply IH in H. lia. Qed.
Lemma numbered_names i names : map a_name (numbered i names) = names.
Proof. revert i. induction names as [|n t IH]; intros i; [reflexivity|]. cbn. f_equal. apply IH. Qed.
Lemma atoms_added l : forall at0 : list atom, NoDup (at0 ++ atoms_of l) ->
  add_tb_atoms l (mkW [] (tb_ham at0)) = (mkW [] (tb_ham (at0 ++ atoms_of l)), Ret tt).
Proof.
  unfold add_tb_atoms. induction l as [|a l IH]; intros at0 N; [cbn; rewrite app_nil_r; reflexivity|]. cbn [for_each].
  assert (Hn : mem_atom (mkAtom (ta_name a) (ta_index a)) at0 = false).
  { unfold mem_atom. destruct (in_dec eq_dec _ at0) as [I|]; [|reflexivity]. exfalso. cbn in N. apply NoDup_remove_2 in N. apply N, in_or_app. left. exact I. }
  unfold bind at 1. unfold bind at 1. cbn [gets w_ham tb_ham h_atoms]. rewrite Hn. cbn [add_atom].
  change (add_atom (mkAtom (ta_name a) (ta_index a)) (mkW [] (tb_ham at0))) with (mkW [] (tb_ham (at0 ++ [mkAtom (ta_name a) (ta_index a)])), Ret tt : out unit).
  cbv iota beta. rewrite IH by (rewrite <- app_assoc; exact N). rewrite <- app_assoc. reflexivity.
Qed.
Lemma numbered_nodup i names : NoDup (numbered i names).
Proof.
  revert i. induction names as [|n t IH]; intros i; cbn; constructor; [|apply IH]. intros H. apply numbered_index in H. cbn in H. lia.
Qed.
Lemma tb_Inv atoms : Inv (mkW [] (tb_ham atoms) : world).
Proof.
  split; [|intros _ k []]. unfold wf, bonds, sites. cbn. repeat split; try constructor; intros; contradiction.
Qed.

Definition after_atoms (rs : list (@table_row F)) : world := mkW [] (tb_ham (numbered 1 (map tr_name rs))).
(** A file up to the bonds. *)
Definition head_of (f : list string) cell (rs : list (@table_row F)) (gap bonds : list string) : Prop :=
  exists pre hcell ra rb rc a1 a2 a3 b1 b2 b3 c1 c2 c3 mid hatoms x y table total mid' hexch,
    f = (pre ++ [hcell; ra; rb; rc] ++ mid ++ [hatoms; x; y] ++ table ++ [total] ++ mid' ++ [hexch] ++ gap ++ bonds)%list
    /\ Forall plain pre /\ Forall plain mid /\ Forall plain mid'
    /\ contains "Cell (Angstrom):" hcell /\ ~ contains "Atoms:" hcell /\ ~ contains "Exchange:" hcell
    /\ numbers X (py_split ra) [a1; a2; a3] /\ numbers X (py_split rb) [b1; b2; b3] /\ numbers X (py_split rc) [c1; c2; c3]
    /\ cell = mkM a1 a2 a3 b1 b2 b3 c1 c2 c3
    /\ contains "Atoms:" hatoms /\ ~ contains "Cell (Angstrom):" hatoms
    /\ Forall2 (row_text X) table rs
    /\ In "Total" (py_split total) /\ ~ In "Exchange:" (py_split total)
    /\ contains "Exchange:" hexch /\ ~ contains "Cell (Angstrom):" hexch /\ ~ contains "Atoms:" hexch /\ ~ contains dashes88 hexch.
Lemma head_calls f cell rs gap bonds : head_of f cell rs gap bonds -> exists hexch, ~ contains dashes88 hexch /\
  load_tb2j X f = obind (run_out (read_exchanges X (S (List.length (gap ++ bonds))) (LStr hexch) (gap ++ bonds)%list) (after_atoms rs))
    (fun w => Ret (mkTL (Some cell) (table_atoms 1 rs) w)).
Proof.
  intros (pre & hcell & ra & rb & rc & a1 & a2 & a3 & b1 & b2 & b3 & c1 & c2 & c3 & mid & hatoms & x & y & table & total & mid' & hexch & -> &
    Hp & Hm & Hm' & C1 & C2 & C3 & Na & Nb & Nc & -> & A1 & A2 & Ht & T1 & T2 & X1 & X2 & X3 & X4). exists hexch. split; [exact X4|].
  unfold load_tb2j. rewrite notation_set. cbn [obind].
  erewrite (head_table pre hcell ra rb rc) by (eauto; rewrite !app_length; cbn; lia). cbv zeta.
  assert (T3 : truthy (LWords (py_split total)) = true) by (destruct (py_split total); [contradiction|reflexivity]).
  rewrite T3. cbn [is_in]. unfold exchange_flag at 1. rewrite (mem_str_no _ _ T2). cbn [andb].
  rewrite (head_plain _ Hm') by lens.
  match goal with |- context [read_head X ?n _ _ _] => destruct n as [|fuel] eqn:E end.
  { exfalso. revert E. lens. }
  cbn [app read_head readline is_in]. unfold cell_flag, atoms_flag, exchange_flag. rewrite (has_sub_no _ _ X2), (has_sub_no _ _ X3).
  cbn [obind truthy andb is_in]. rewrite (has_sub_yes _ _ X1). cbn [obind].
  unfold run_out at 1. rewrite atoms_added by (rewrite atoms_of_table; apply numbered_nodup). cbn [obind app]. rewrite atoms_of_table. reflexivity.
Qed.
Lemma file_head f cell rs es : is_tb2j_file X f cell rs es -> exists gap bonds, Forall (fun l => ~ contains dashes88 l) gap /\ entries_text X bonds es /\
  forall extra, head_of (f ++ extra)%list cell rs gap (bonds ++ extra)%list.
Proof.
  intros (pre & hcell & ra & rb & rc & a1 & a2 & a3 & b1 & b2 & b3 & c1 & c2 & c3 & mid & hatoms & x & y & table & total & mid' & hexch & gap & bonds & -> &
    Hp & Hm & Hm' & C1 & C2 & C3 & Na & Nb & Nc & -> & A1 & A2 & Ht & T1 & T2 & X1 & X2 & X3 & X4 & Hg & He).
  exists gap, bonds. split; [exact Hg|]. split; [exact He|]. intros extra.
  exists pre, hcell, ra, rb, rc, a1, a2, a3, b1, b2, b3, c1, c2, c3, mid, hatoms, x, y, table, total, mid', hexch.
  split; [repeat (rewrite <- app_assoc || cbn [app]); reflexivity|]. tauto.
Qed.
Lemma file_calls f cell rs es : is_tb2j_file X f cell rs es ->
  load_tb2j X f = obind (run_out (for_each (map call_of es) do_call) (after_atoms rs)) (fun w => Ret (mkTL (Some cell) (table_atoms 1 rs) w)).
Proof.
  intros H. destruct (file_head _ _ _ _ H) as (gap & bonds & Hg & He & Hh). specialize (Hh []). rewrite !app_nil_r in Hh.
  destruct (head_calls _ _ _ _ _ Hh) as (hexch & X4 & ->).
  assert (Hne : exists sep tail, bonds = sep :: tail /\ separator sep) by (inversion He; subst; eauto). destruct Hne as (sep & tail & -> & Hs).
  unfold run_out. rewrite (entries_read _ _ He _ _ _ sep tail); [reflexivity|rewrite app_length; lia|reflexivity|reflexivity|].
  apply skip_gap; auto. cbn. apply has_sub_no, X4.
Qed.

(** ** What is in the Hamiltonian *)
Lemma after_names rs : NoDup (map tr_name rs) -> names_ok (after_atoms rs).
Proof. intros N. unfold names_ok. cbn. rewrite numbered_names. exact N. Qed.
Lemma named_atom rs n : In n (map (@tr_name F) rs) -> exists a, In a (h_atoms (w_ham (after_atoms rs))) /\ a_name a = n.
Proof.
  intros H. cbn. rewrite <- (numbered_names 1 (map tr_name rs)) in H. apply in_map_iff in H. destruct H as (a & E & I). eauto.
Qed.
Definition tb_loads (f : list string) cell (rs : list (@table_row F)) (es : list (@entry F)) r : Prop :=
  is_tb2j_file X f cell rs es /\ consistent rs es /\ load_tb2j X f = Ret r.

Lemma tb_total f cell rs es : is_tb2j_file X f cell rs es -> consistent rs es -> exists r, load_tb2j X f = Ret r.
Proof.
  intros Hf [N C]. rewrite (file_calls _ _ _ _ Hf).
  destruct (calls_total (after_atoms rs) (tb_Inv _) (after_names rs N) (map call_of es)) as [w Hw].
  { rewrite Forall_map. eapply Forall_impl; [|exact C]. intros e [H1 H2]. cbn [call_of fst snd]. split; [apply named_atom, H1|]. split; [apply named_atom, H2|discriminate]. }
  unfold run_out. rewrite Hw. cbn. eauto.
Qed.

(** Keys of the calls and entries. *)
Definition ent_key (e : @entry F) (kc : @keyed F) : Prop := about (fst kc) e /\ snd kc = entry_matrix e.
Lemma tb_effect f cell rs es r : tb_loads f cell rs es r ->
  tl_cell r = Some cell /\ tl_atoms r = table_atoms 1 rs /\
  exists ks, Forall2 ent_key es ks
    /\ Forall (fun kc => In (b_from (fst kc)) (numbered 1 (map tr_name rs)) /\ In (b_to (fst kc)) (numbered 1 (map tr_name rs))) ks
    /\ same_frame (after_atoms rs) (tl_ham r) /\ wf (tl_ham r) /\ (forall k, bond_value (tl_ham r) k = calls_value (Some true) ks k)
    /\ sites (tl_ham r) = [].
Proof.
  intros (Hf & [N C] & Hl). rewrite (file_calls _ _ _ _ Hf) in Hl. unfold run_out in Hl.
  destruct (for_each (map call_of es) do_call (after_atoms rs)) as [w [[]|ex]] eqn:Hw; [|discriminate]. cbn in Hl. injection Hl as <-. cbn.
  split; [reflexivity|]. split; [reflexivity|].
  destruct (calls_effect (after_atoms rs) (tb_Inv _) eq_refl _ _ Hw) as (ks & K & A & I & Fr & V & _ & S).
  { rewrite Forall_map. apply Forall_forall. discriminate. }
  exists ks. split; [|split; [exact A|split; [exact Fr|split; [apply I|split; [exact V|exact S]]]]].
  clear - K. remember (map call_of es) as cs eqn:E. revert es E. induction K as [|c kc cs ks [H1 H2] _ IH]; intros [|e es] E; try discriminate; constructor.
  - inversion E; subst c. cbn in H1, H2. split; [exact H1|]. injection H2 as H2. symmetry. exact H2.
  - apply IH. inversion E. reflexivity.
Qed.

Lemma about_key atoms k k0 (e : @entry F) : NoDup (map a_name atoms) -> In (b_from k) atoms -> In (b_to k) atoms -> In (b_from k0) atoms -> In (b_to k0) atoms ->
  about k0 e -> about k e -> k0 = k.
Proof.
  intros N I1 I2 J1 J2 (A1 & A2 & A3) (B1 & B2 & B3). destruct k as [p q c], k0 as [p0 q0 c0]; cbn in *.
  rewrite (name_inj atoms p0 p N J1 I1), (name_inj atoms q0 q N J2 I2) by congruence. congruence.
Qed.

Section Values.
Variable atoms : list atom.
Hypothesis N : NoDup (map a_name atoms).
Notation inside ks := (Forall (fun kc : @keyed F => In (b_from (fst kc)) atoms /\ In (b_to (fst kc)) atoms) ks).

Lemma no_key es ks k : Forall2 ent_key es ks -> Forall (fun e => ~ about k e) es -> Forall (fun kc => fst kc <> k) ks.
Proof.
  intros H. induction H as [|e kc es ks [Hk Hm] _ IH]; intros A; [constructor|]. inversion A; subst. constructor; [intros <-; contradiction|auto].
Qed.
Lemma last_key_none k (ks : list (@keyed F)) : Forall (fun kc : @keyed F => fst kc <> k) ks -> forall pre : list (@keyed F), last_key k (pre ++ ks)%list = last_key k pre.
Proof.
  induction ks as [|kc ks IH] using rev_ind; intros H pre; [rewrite app_nil_r; reflexivity|]. apply Forall_app in H. destruct H as [H1 H2].
  rewrite app_assoc, last_key_snoc. inversion H2; subst. destruct (eq_dec (fst kc) k); [contradiction|]. apply IH, H1.
Qed.
Lemma first_key_none k (ks post : list (@keyed F)) : Forall (fun kc : @keyed F => fst kc <> k) ks -> first_key k (ks ++ post)%list = first_key k post.
Proof.
  unfold first_key. induction 1 as [|kc ks H _ IH]; [reflexivity|]. cbn [app find]. destruct (eq_dec (fst kc) k); [contradiction|exact IH].
Qed.
Lemma key_of_entry es ks k e : Forall2 ent_key es ks -> inside ks -> In (b_from k) atoms -> In (b_to k) atoms -> about k e ->
  forall before after, es = (before ++ e :: after)%list ->
  exists kb ka, ks = (kb ++ (k, entry_matrix e) :: ka)%list /\ Forall2 ent_key before kb /\ Forall2 ent_key after ka.
Proof.
  intros H A I1 I2 Ha before after ->. apply Forall2_app_inv_l in H. destruct H as (kb & k2 & Hb & H & ->).
  inversion H as [|? [k0 m] ? ka [Hk Hm] Hr]; subst. cbn in Hk, Hm. subst m. exists kb, ka. split; [|split; assumption].
  apply Forall_app in A. destruct A as [_ A]. inversion A as [|? ? [J1 J2] _]; subst. cbn in J1, J2.
  rewrite (about_key atoms k k0 e) by assumption. reflexivity.
Qed.
Lemma last_value es ks k e dc : Forall2 ent_key es ks -> inside ks -> In (b_from k) atoms -> In (b_to k) atoms -> last_about k es e ->
  calls_value dc ks k = Some (entry_matrix e).
Proof.
  intros H A I1 I2 (before & after & E & Ha & Hn). destruct (key_of_entry es ks k e H A I1 I2 Ha before after E) as (kb & ka & -> & _ & Hka).
  assert (L : last_key k ((kb ++ [(k, entry_matrix e)]) ++ ka)%list = Some (entry_matrix e)).
  { eapply eq_trans; [apply last_key_none; eapply no_key; eauto|]. eapply eq_trans; [apply last_key_snoc|]. cbn. destruct (eq_dec k k); [reflexivity|congruence]. }
  rewrite <- app_assoc in L. unfold calls_value. cbn [app] in L |- *. rewrite L. reflexivity.
Qed.
Lemma mirror_value es ks k e : Forall2 ent_key es ks -> inside ks -> In (b_from k) atoms -> In (b_to k) atoms ->
  Forall (fun e' => ~ about k e') es -> first_about (mirror k) es e -> calls_value (Some true) ks k = Some (mtrans (entry_matrix e)).
Proof.
  intros H A I1 I2 Hno (before & after & E & Ha & Hn).
  destruct (key_of_entry es ks (mirror k) e H A I2 I1 Ha before after E) as (kb & ka & Ek & Hkb & _).
  unfold calls_value. pose proof (last_key_none k ks (no_key _ _ _ H Hno) []) as L. cbn [app] in L. rewrite L. cbn.
  rewrite Ek, first_key_none by (eapply no_key; eauto). unfold first_key. cbn. destruct (eq_dec (mirror k) (mirror k)); [reflexivity|congruence].
Qed.
Lemma last_key_some k (ks : list (@keyed F)) (m : M3 F) : last_key k ks = Some m -> In (k, m) ks.
Proof.
  induction ks as [|kc ks IH] using rev_ind; intros H; [discriminate|]. rewrite last_key_snoc in H. apply in_or_app.
  destruct (eq_dec (fst kc) k) as [<-|]; [right; left; destruct kc; cbn in *; congruence|left; auto].
Qed.
Lemma first_key_some k (ks : list (@keyed F)) (m : M3 F) : first_key k ks = Some m -> In (k, m) ks.
Proof.
  unfold first_key. intros H. match type of H with context [find ?g ks] => destruct (find g ks) as [[k0 m0]|] eqn:E end; [|discriminate]. apply find_some in E. destruct E as [I E].
  cbn in *. destruct (eq_dec k0 k); [congruence|discriminate].
Qed.
Lemma in_entry es ks k m : Forall2 ent_key es ks -> In (k, m) ks -> exists e, In e es /\ about k e.
Proof.
  induction 1 as [|e kc es ks [Hk Hm] _ IH]; intros I; [contradiction|]. destruct I as [->|I]; [exists e; split; [left; reflexivity|exact Hk]|].
  destruct (IH I) as (e' & I' & A). exists e'. split; [right; exact I'|exact A].
Qed.
Lemma value_entry es ks k J : Forall2 ent_key es ks -> calls_value (Some true) ks k = Some J -> exists e, In e es /\ (about k e \/ about (mirror k) e).
Proof.
  intros H. unfold calls_value. destruct (last_key k ks) as [m|] eqn:E.
  - intros _. apply last_key_some in E. destruct (in_entry _ _ _ _ H E) as (e & I & A). eauto.
  - destruct (first_key (mirror k) ks) as [m|] eqn:E'; [|discriminate]. intros _. apply first_key_some in E'.
    destruct (in_entry _ _ _ _ H E') as (e & I & A). eauto.
Qed.
End Values.

Lemma tb_frame f cell rs es r : tb_loads f cell rs es r ->
  tl_cell r = Some cell
  /\ map ta_name (tl_atoms r) = map tr_name rs /\ map ta_position (tl_atoms r) = map tr_position rs
  /\ map ta_charge (tl_atoms r) = map tr_charge rs /\ map ta_magmom (tl_atoms r) = map tr_magmom rs
  /\ (forall n row, nth_error rs n = Some row -> nth_error (h_atoms (w_ham (tl_ham r))) n = Some (mkAtom (tr_name row) (Z.of_nat n + 1)))
  /\ List.length (h_atoms (w_ham (tl_ham r))) = List.length rs
  /\ notation_is (tl_ham r) true true (- (1)) (- (1)) /\ sites (tl_ham r) = [].
Proof.
  intros H. destruct (tb_effect _ _ _ _ _ H) as (Ec & Ea & ks & _ & _ & (F1 & _ & F3 & F4 & F5 & F6) & _ & _ & S).
  split; [exact Ec|]. rewrite Ea, F1.
  assert (G : forall (A : Type) (p : @tb_atom F -> A) (q : @table_row F -> A), (forall i row, p (row_atom i row) = q row) -> forall l i, map p (table_atoms i l) = map q l).
  { intros A p q Hpq l. induction l as [|row l IH]; intros i; [reflexivity|]. cbn. rewrite Hpq. f_equal. apply IH. }
  do 4 (split; [apply G; reflexivity|]). cbn [after_atoms w_ham tb_ham h_atoms].
  assert (Q : forall l i n row, nth_error l n = Some row -> nth_error (numbered i (map (@tr_name F) l)) n = Some (mkAtom (tr_name row) (i + Z.of_nat n))).
  { induction l as [|r0 l IH]; intros i [|n] row Hn; try discriminate.
    - cbn in *. injection Hn as ->. rewrite Z.add_0_r. reflexivity.
    - cbn in Hn |- *. rewrite (IH _ _ _ Hn). do 2 f_equal. lia. }
  split; [intros n row Hn; rewrite (Q _ _ _ _ Hn); do 2 f_equal; lia|].
  split; [rewrite <- (map_length a_name), numbered_names, map_length; reflexivity|]. split; [|exact S].
  unfold notation_is. rewrite F3, F4, F5, F6. cbn. tauto.
Qed.
Lemma tb_entry f cell rs es r k e : tb_loads f cell rs es r -> In (b_from k) (h_atoms (w_ham (tl_ham r))) -> In (b_to k) (h_atoms (w_ham (tl_ham r))) ->
  last_about k es e -> exists m, bond_value (tl_ham r) k = Some m /\ energy_of_entry e m.
Proof.
  intros H I1 I2 L. pose proof H as (_ & [N _] & _). destruct (tb_effect _ _ _ _ _ H) as (_ & _ & ks & K & A & (F1 & _) & _ & V & _).
  rewrite F1 in I1, I2. exists (entry_matrix e). split; [|apply entry_energy]. rewrite V.
  apply (last_value (numbered 1 (map tr_name rs))) with (es := es); auto. rewrite numbered_names. exact N.
Qed.
Lemma tb_mirror f cell rs es r k e : tb_loads f cell rs es r -> In (b_from k) (h_atoms (w_ham (tl_ham r))) -> In (b_to k) (h_atoms (w_ham (tl_ham r))) ->
  Forall (fun e' => ~ about k e') es -> first_about (mirror k) es e -> exists m, bond_value (tl_ham r) k = Some (mtrans m) /\ energy_of_entry e m.
Proof.
  intros H I1 I2 No L. pose proof H as (_ & [N _] & _). destruct (tb_effect _ _ _ _ _ H) as (_ & _ & ks & K & A & (F1 & _) & _ & V & _).
  rewrite F1 in I1, I2. exists (entry_matrix e). split; [|apply entry_energy]. rewrite V.
  apply (mirror_value (numbered 1 (map tr_name rs))) with (es := es); auto. rewrite numbered_names. exact N.
Qed.
Lemma tb_only f cell rs es r k J : tb_loads f cell rs es r -> bond_value (tl_ham r) k = Some J -> exists e, In e es /\ (about k e \/ about (mirror k) e).
Proof.
  intros H V0. destruct (tb_effect _ _ _ _ _ H) as (_ & _ & ks & K & A & _ & _ & V & _). rewrite V in V0. eapply value_entry; eauto.
Qed.

(** ** Files that end badly *)
Lemma entries_trailing ls es l : entries_text X ls es -> separator l -> forall fuel line file sep tail, (List.length ls < fuel)%nat ->
  (ls ++ [l])%list = sep :: tail -> truthy line = true -> skip_to_sep line file = (LStr sep, tail) ->
  forall w, read_exchanges X fuel line file w = (for_each (map call_of es) do_call ;;; raise IndexError) w.
Proof.
  intros H Hl. induction H as [sep s e Hs He|sep s e ls es Hs He Hr IH]; intros fuel line file sep' tail Hf El Ht Es w; cbn [app] in El; inversion El; subst sep' tail; clear El;
    (destruct fuel as [|fuel]; [cbn in Hf; lia|]).
  - rewrite (entry_step sep s e [l] fuel line file w Ht Es He Hl). cbn [rest_of fst snd map for_each].
    unfold bind. destruct (do_call (call_of e) w) as [w1 [u|ex]]; [|reflexivity]. destruct fuel as [|fuel]; [cbn in Hf; lia|].
    cbn [read_exchanges]. cbn [truthy negb]. rewrite (skip_sep _ _ Hl). reflexivity.
  - rewrite <- app_assoc in *. assert (Hne : exists sep' tail', ls = sep' :: tail' /\ separator sep') by (inversion Hr; subst; eauto).
    destruct Hne as (sep' & tail' & -> & Hs'). rewrite (entry_step sep s e ((sep' :: tail') ++ [l])%list fuel line file w Ht Es He Hs').
    cbn [app rest_of fst snd map for_each]. unfold bind. destruct (do_call (call_of e) w) as [w1 [u|ex]]; [|reflexivity].
    rewrite (IH fuel (LStr sep') (tail' ++ [l])%list sep' (tail' ++ [l])%list); [reflexivity|cbn [List.length] in Hf |- *; rewrite app_length in Hf; cbn in Hf; lia|reflexivity|reflexivity|apply skip_sep, Hs'].
Qed.
Lemma tb_trailing f cell rs es l : is_tb2j_file X f cell rs es -> consistent rs es -> separator l -> load_tb2j X (f ++ [l]) = Raise IndexError.
Proof.
  intros H C Hl. destruct (tb_total _ _ _ _ H C) as [r Hr]. rewrite (file_calls _ _ _ _ H) in Hr.
  destruct (file_head _ _ _ _ H) as (gap & bonds & Hg & He & Hh). specialize (Hh [l]).
  destruct (head_calls _ _ _ _ _ Hh) as (hexch & X4 & ->).
  assert (Hne : exists sep tail, bonds = sep :: tail /\ separator sep) by (inversion He; subst; eauto). destruct Hne as (sep & tail & -> & Hs).
  unfold run_out in *. rewrite (entries_trailing _ _ l He Hl _ _ _ sep (tail ++ [l])%list).
  - unfold bind. destruct (for_each (map call_of es) do_call (after_atoms rs)) as [w [u|ex]]; [reflexivity|discriminate].
  - rewrite !app_length. cbn. lia.
  - reflexivity.
  - reflexivity.
  - cbn [app]. apply skip_gap; auto. cbn. apply has_sub_no, X4.
Qed.
(** The table of atoms ends with an empty line instead of the line with the total. *)
Lemma tb_blank pre hcell ra rb rc a1 a2 a3 b1 b2 b3 c1 c2 c3 mid hatoms x y table rs blank rest :
  Forall plain pre -> Forall plain mid ->
  contains "Cell (Angstrom):" hcell -> ~ contains "Atoms:" hcell -> ~ contains "Exchange:" hcell ->
  numbers X (py_split ra) [a1; a2; a3] -> numbers X (py_split rb) [b1; b2; b3] -> numbers X (py_split rc) [c1; c2; c3] ->
  contains "Atoms:" hatoms -> ~ contains "Cell (Angstrom):" hatoms ->
  Forall2 (row_text X) table rs -> py_split blank = [] ->
  exists r, load_tb2j X (pre ++ [hcell; ra; rb; rc] ++ mid ++ [hatoms; x; y] ++ table ++ [blank] ++ rest) = Ret r /\ bonds (tl_ham r) = [].
Proof.
  intros Hp Hm C1 C2 C3 Na Nb Nc A1 A2 Ht Hb. unfold load_tb2j. rewrite notation_set. cbn [obind].
  erewrite (head_table pre hcell ra rb rc) by (eauto; rewrite !app_length; cbn; lia). cbv zeta. rewrite Hb. cbn [truthy andb obind].
  unfold run_out at 1. rewrite atoms_added by (rewrite atoms_of_table; apply numbered_nodup). cbn [obind app].
  eexists. split; [reflexivity|]. reflexivity.
Qed.
End Tb2j.
