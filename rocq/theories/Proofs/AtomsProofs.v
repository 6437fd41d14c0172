(** Atoms, cone axis and spiral vector of a loaded file. *)
From Coq Require Import String Ascii List Bool ZArith Arith Lia.
From Coq Require Import Ring Field Field_theory Ring_theory.
From Verif.Base Require Import Scalar Linear3 PyDict PyString PyText.
From Verif.Spec Require Import HamSpec TxtSpec TxtFormat AtomsSpec.
From Verif.Model Require Import MatrixParam Hamiltonian TxtVerify TxtRead.
From Verif.Proofs Require Import TextBasics SectionProofs TxtReadProofs TextGlue VerifyProofs LoadProofs FileProofs TotalProofs TextMore.
Import ListNotations.
Local Open Scope string_scope.

Lemma mem_column cols key : mem_str key (py_split (str_lower cols)) = true <-> has_column cols key.
Proof.
  unfold mem_str, has_column. rewrite py_split_lower. destruct (in_dec string_dec key _) as [I|N]; split; intros H; try discriminate; try reflexivity.
  - apply in_map_iff in I. destruct I as (h & E & I). eauto.
  - exfalso. apply N. destruct H as (h & I & E). apply in_map_iff. eauto.
Qed.
Lemma mem_column_no cols key : mem_str key (py_split (str_lower cols)) = false -> ~ has_column cols key.
Proof. intros H K. apply mem_column in K. congruence. Qed.
Lemma index_column cols line key n w : index_of key (py_split (str_lower cols)) = Some n -> nth_error (py_split line) n = Some w -> in_column cols line key w.
Proof.
  intros H E. apply index_of_nth in H. rewrite py_split_lower, nth_error_map in H. destruct (nth_error (py_split cols) n) as [h|] eqn:Eh; [|discriminate].
  exists n, h. split; [exact Eh|]. split; [injection H as H; exact H|exact E].
Qed.

Ltac combination H1 H2 H3 a b c :=
  match type of H1 with ?l1 = _ => match type of H2 with ?l2 = _ => match type of H3 with ?l3 = _ =>
    transitivity (fadd (fadd (fmul l1 a) (fmul l2 b)) (fmul l3 c)); [|rewrite H1, H2, H3] end end end.

Section Atoms.
Context {F : Type} {SF : Scalar F}.
Add Field F_field : (@f_field F SF).
Variable X : externals F.

Lemma column_value cols line key x : column X (py_split (str_lower cols)) (py_split line) key = Ret x -> value X cols line key x.
Proof.
  unfold column, item, py_float. intros H. apply obind_inv in H. destruct H as (n & Hn & H). destruct (index_of key _) as [n'|] eqn:E; [|discriminate]. injection Hn as ->.
  apply obind_inv in H. destruct H as (w & Hw & H). destruct (nth_error (py_split line) n) as [w'|] eqn:Ew; [|discriminate]. injection Hw as ->.
  exists w. split; [eapply index_column; eassumption|]. destruct (x_float X w); [injection H as ->; reflexivity|discriminate].
Qed.
Lemma position_read cell scale u cols line p : (forall c v p, x_abs_to_rel X c v = Some p -> vmat p c = v) -> c_angstrom X <> f0 ->
  read_position X cell scale (fdiv u (LENGTH X)) (py_split (str_lower cols)) (py_split line) = Ret p -> position_said X cell u scale cols line p.
Proof.
  intros Hr Ha H. unfold read_position in H. destruct (mem_str "r1" _) eqn:M; split; intros K.
  - repeat (apply obind_inv in H; let a := fresh "a" in let Ea := fresh "Ea" in destruct H as (a & Ea & H); apply column_value in Ea). injection H as <-. repeat split; assumption.
  - exfalso. apply K, mem_column, M.
  - exfalso. apply mem_column in K. congruence.
  - repeat (apply obind_inv in H; let a := fresh "a" in let Ea := fresh "Ea" in destruct H as (a & Ea & H); apply column_value in Ea).
    exists (mkV a a0 a1). split; [repeat split; assumption|]. destruct (x_abs_to_rel X cell _) as [p'|] eqn:E; [|discriminate]. injection H as ->.
    rewrite (Hr _ _ _ E). unfold vscale, vmap, scaled_row, LENGTH. cbn [vx vy vz]. f_equal; field; exact Ha.
Qed.
Lemma spin_read cols line v : read_spin X (py_split (str_lower cols)) (py_split line) = Ret v -> spin_said X cols line v.
Proof.
  intros H. unfold read_spin in H. unfold spin_said. destruct (mem_str "sx" _) eqn:Mx; [|destruct (mem_str "sp" _) eqn:Mp; [|destruct (mem_str "s" _) eqn:Ms]];
    repeat match goal with M : mem_str _ _ = true |- _ => apply mem_column in M | M : mem_str _ _ = false |- _ => apply mem_column_no in M end;
    repeat (apply obind_inv in H; let a := fresh "a" in let Ea := fresh "Ea" in destruct H as (a & Ea & H); apply column_value in Ea); injection H as <-;
    (split; [intros K; try contradiction|split; [intros K K'; try contradiction|split; [intros K K' K''; try contradiction|intros K K' K''; try contradiction]]]).
  - repeat split; assumption.
  - exists a1, a0, a. repeat (split; [assumption|]). unfold vscale, vmap. cbn [vx vy vz]. f_equal; ring.
  - repeat split; assumption.
  - reflexivity.
Qed.
Lemma number_read cols line key d x : (if mem_str key (py_split (str_lower cols)) then column X (py_split (str_lower cols)) (py_split line) key else Ret d) = Ret x ->
  number_said X cols line key d x.
Proof.
  intros H. destruct (mem_str key _) eqn:M; split; intros K.
  - apply column_value, H.
  - exfalso. apply K, mem_column, M.
  - exfalso. apply mem_column in K. congruence.
  - injection H as <-. reflexivity.
Qed.
Lemma atom_read cell scale u cols line a : (forall c v p, x_abs_to_rel X c v = Some p -> vmat p c = v) -> c_angstrom X <> f0 ->
  read_atom X cell scale (fdiv u (LENGTH X)) (py_split (str_lower cols)) line = Ret a -> atom_said X cell u scale cols line a.
Proof.
  intros Hr Ha H. pose proof (read_atom_name _ _ _ _ _ _ _ H) as (ni & Hi & En). unfold read_atom in H. cbv zeta in H.
  apply obind_inv in H. destruct H as (n & Hn & H). apply obind_inv in H. destruct H as (nm & Hm & H). apply obind_inv in H. destruct H as (p & Hp & H).
  apply obind_inv in H. destruct H as (q & Hq & H). apply obind_inv in H. destruct H as (g & Hg & H). apply obind_inv in H. destruct H as (s & Hs & H).
  injection H as <-. unfold atom_said. cbn [ad_name ad_position ad_spin ad_charge ad_g] in *.
  split; [eapply index_column; eassumption|]. split; [eapply position_read; eassumption|]. split; [apply spin_read, Hs|].
  split; [apply number_read, Hq|apply number_read, Hg].
Qed.

Section File.
Hypothesis HX : sane X.
Variable tau : F.
Hypothesis HG : geometry X tau.
Variables (secs : list (list string)) (f : list string) (L : @loaded F).
Hypothesis Hf : is_file secs f.
Hypothesis HL : load_txt X f = Ret L.

Lemma file_parts : NoDup (map section_name secs) /\ (exists ts, verify_model_file (isfloat X) (isint X) (x_float X) true ts = Ret (dict_of secs) /\ laid_out secs ts)
  /\ exists scale w1 w2, stages X secs L scale w1 w2.
Proof.
  destruct Hf as (ts & A & B & C). split; [exact C|]. destruct (load_inv X secs ts f L A B C HL) as [V S]. split; [exists ts; split; assumption|exact S].
Qed.
Lemma scale_read hdr sl r1 r2 r3 u s cell scale :
  length_unit X hdr u -> scale_text X sl s -> read_cell X (hdr :: sl ++ [r1; r2; r3])%list = Ret (cell, scale) -> scale = s.
Proof.
  intros Hu Hsc Rc. destruct (length_read X hdr u Hu) as (v & Hv & Hlu). unfold read_cell in Rc.
  inversion Hsc; subst; cbn [app item nth_error of_option obind] in Rc; rewrite Hv in Rc; cbn [obind] in Rc; rewrite Hlu in Rc;
    cbn [obind List.length Nat.eqb Nat.add item nth_error of_option] in Rc;
    do 3 (apply obind_inv in Rc; let r := fresh "r" in destruct Rc as (r & _ & Rc)); cbn [obind] in Rc.
  - injection Rc as _ <-. reflexivity.
  - unfold read_scale in Rc. pose proof (Forall2_length_eq _ _ _ H) as Lw. destruct (py_split l) as [|w [|]]; try discriminate. inversion H; subst.
    unfold py_float in Rc. rewrite H4 in Rc. cbn [of_option obind] in Rc. rewrite H0 in Rc. cbn [obind] in Rc. injection Rc as _ <-. f_equal; ring.
  - unfold read_scale in Rc. pose proof (Forall2_length_eq _ _ _ H) as Lw. destruct (py_split l) as [|q1 [|q2 [|q3 [|]]]]; try discriminate.
    inversion H; subst. inversion H5; subst. inversion H7; subst. unfold py_float in Rc. rewrite H3, H4, H6 in Rc. cbn [of_option obind] in Rc. injection Rc as _ <-. reflexivity.
Qed.
Lemma atoms_unit hdr u : length_unit X hdr u -> atoms_units X hdr = Ret (fdiv u (LENGTH X)).
Proof.
  pose proof (proj1 (sane_lengths X HX)) as La.
  intros H; inversion H as [? k E|? k v E I|? k v E I]; subst; unfold atoms_units; rewrite py_split_lower, E; cbn [map].
  - cbn. f_equal. unfold LENGTH. field. exact La.
  - rewrite (initb_excl _ "r" v I ltac:(discriminate)), (initb_excl _ "b" v I ltac:(discriminate)), (initb_incl _ _ I). reflexivity.
  - rewrite (initb_excl _ "r" v I ltac:(discriminate)), (initb_incl _ _ I). reflexivity.
Qed.
Theorem file_atoms hc sl r1 r2 r3 uc s hdr cols lines u :
  has_section secs "cell" (hc :: sl ++ [r1; r2; r3])%list -> length_unit X hc uc -> scale_text X sl s ->
  has_section secs "atoms" (hdr :: cols :: lines) -> length_unit X hdr u ->
  NoDup (map str_lower (py_split cols)) /\ Forall2 (atom_said X (ld_cell L) u s cols) lines (ld_atoms L).
Proof.
  intros Hc Huc Hs Ha Hu. destruct file_parts as (N & (ts & V & La) & scale & w1 & w2 & (sc & Hsc & Rc) & (sa & Hsa & Ra) & _).
  rewrite (has_section_fun _ _ _ _ N Hsc Hc) in Rc. rewrite (has_section_fun _ _ _ _ N Hsa Ha) in Ra. clear sc Hsc sa Hsa.
  apply scale_read with (u := uc) (s := s) in Rc; try assumption. subst scale. split.
  - destruct (accepted_inv X _ _ _ La N V) as (_ & _ & sc & sa & allowed & Hsc & Hsa & Va & _). rewrite (has_section_fun _ _ _ _ N Hsa Ha) in Va.
    apply verify_atoms_inv in Va. destruct Va as (l0 & l1 & ls & ni & E & _ & _ & _ & Vh & _). injection E as <- <- <-.
    unfold verify_atoms_data_header in Vh. cbn [snd] in Vh. rewrite py_split_lower in Vh. repeat (apply orb_false_elim in Vh; destruct Vh as [Vh _]).
    apply negb_false_iff, Nat.eqb_eq in Vh. apply nodup_len_NoDup. symmetry. exact Vh.
  - unfold read_atoms in Ra. cbn [item nth_error of_option obind skipn] in Ra. rewrite (atoms_unit _ _ Hu) in Ra. cbn [obind] in Ra.
    revert Ra. generalize (ld_atoms L). clear Ha. induction lines as [|l ls IH]; intros atoms Ra; cbn [read_atom_lines] in Ra; [injection Ra as <-; constructor|].
    apply obind_inv in Ra. destruct Ra as (a & Ea & Ra). apply obind_inv in Ra. destruct Ra as (r & Er & Ra). injection Ra as <-. constructor.
    + eapply atom_read; [apply HG|apply HX|exact Ea].
    + apply IH, Er.
Qed.
(** The atoms of the Hamiltonian and the lengths of their spins. *)
Lemma numbered_nth l : forall n i a, nth_error l i = Some a -> nth_error (number_atoms n l) i = Some (mkAtom (ad_name a) (n + Z.of_nat i), a : @atom_data F).
Proof.
  induction l as [|b l IH]; intros n [|i] a H; try discriminate; cbn in H |- *.
  - injection H as ->. rewrite Z.add_0_r. reflexivity.
  - rewrite (IH (n + 1)%Z i a H). do 3 f_equal. lia.
Qed.
Lemma numbered_get (g : @atom_data F -> F) l : forall n i a, nth_error l i = Some a ->
  dget (map (fun p => (fst p, g (snd p))) (number_atoms n l)) (mkAtom (ad_name a) (n + Z.of_nat i)) = Some (g a).
Proof.
  induction l as [|b l IH]; intros n [|i] a H; try discriminate; cbn [nth_error] in H; cbn [number_atoms map dget fst snd].
  - injection H as ->. rewrite Z.add_0_r. destruct (eq_dec _ _) as [_|K]; [reflexivity|congruence].
  - match goal with |- context [eq_dec ?x ?y] => destruct (eq_dec x y) as [E|_] end; [apply (f_equal a_index) in E; cbn [a_index] in E; lia|].
    specialize (IH (n + 1)%Z i a H). replace (n + Z.of_nat (S i))%Z with (n + 1 + Z.of_nat i)%Z by lia. exact IH.
Qed.
Theorem file_spins i a : nth_error (ld_atoms L) i = Some a ->
  nth_error (h_atoms (w_ham (ld_ham L))) i = Some (mkAtom (ad_name a) (Z.of_nat i + 1))
  /\ dget (h_spins (w_ham (ld_ham L))) (mkAtom (ad_name a) (Z.of_nat i + 1)) = Some (x_norm X (ad_spin a)).
Proof.
  intros H. destruct Hf as (ts & A & B & C). pose proof (loaded_contents X (sane_case X HX) secs ts f L A B C HL) as Co.
  rewrite (co_atoms _ _ _ Co), (co_spins _ _ _ Co), nth_error_map, (numbered_nth _ 1%Z i a H). rewrite (Z.add_comm (Z.of_nat i) 1). split; [reflexivity|].
  apply (numbered_get (fun a => x_norm X (ad_spin a)) _ 1%Z i a H).
Qed.

(** ** Cone axis and spiral vector *)
Lemma absolute_read hdr : says_absolute hdr -> relative_units hdr = Ret false.
Proof.
  intros (k & u & ws & E & I). unfold relative_units. rewrite py_split_lower, E. cbn [map nth]. rewrite (initb_excl _ "r" u I ltac:(discriminate)), (initb_incl _ _ I). reflexivity.
Qed.
Lemma relative_read hdr : says_relative hdr -> relative_units hdr = Ret true.
Proof.
  intros [(k & E)|(k & u & ws & E & I)]; unfold relative_units; rewrite py_split_lower, E; cbn [map nth]; [reflexivity|]. rewrite (initb_incl _ _ I). reflexivity.
Qed.
Lemma axis_set v n : set_cone_axis X (vlist v) = Ret n -> x_norm X v = f1 -> n = v.
Proof.
  intros H E. destruct v as [a b c]. unfold vlist, set_cone_axis in H. cbn [vx vy vz] in H. destruct (x_close0 X _); [discriminate|]. rewrite E in H.
  destruct (feq_dec f1 f0) as [Z|_]; [discriminate|]. injection H as <-. unfold vscale, vmap. cbn [vx vy vz]. f_equal; field; apply one_neq_0.
Qed.
Lemma axis_unit v n : (if feq_dec (x_norm X v) f0 then Raise NonFinite else set_cone_axis X (vlist (vscale (fdiv f1 (x_norm X v)) v))) = Ret n -> unit_along X n v.
Proof.
  intros H. destruct (feq_dec (x_norm X v) f0) as [|N]; [discriminate|].
  assert (Nv : v <> mkV f0 f0 f0).
  { intros Z. assert (E : vscale (fdiv f1 (x_norm X v)) v = mkV f0 f0 f0) by (rewrite Z at 2; unfold vscale, vmap; cbn [vx vy vz]; f_equal; ring).
    rewrite E in H. unfold set_cone_axis, vlist in H. cbn [vx vy vz] in H. rewrite (sane_zero X HX) in H. discriminate. }
  pose proof (geo_unit X tau HG v Nv) as U. rewrite (axis_set _ _ H U). split; [|exact U].
  destruct v as [a b c]. unfold vscale, vmap. cbn [vx vy vz]. f_equal; field; exact N.
Qed.
Lemma cone_of hdr l : has_section secs "cone-axis" [hdr; l] -> exists n, ld_cone L = Some n /\ read_cone_axis X (ld_cell L) [hdr; l] = Ret n.
Proof.
  intros H. destruct file_parts as (_ & _ & scale & w1 & w2 & _ & _ & _ & _ & _ & _ & (S1 & _) & _). specialize (S1 _ H).
  apply obind_inv in S1. destruct S1 as (n & E & S1). injection S1 as S1. exists n. auto.
Qed.
Theorem cone_vector hdr l a b c : has_section secs "cone-axis" [hdr; l] -> numbers X (py_split l) [a; b; c] ->
  (says_absolute hdr -> exists n, ld_cone L = Some n /\ unit_along X n (mkV a b c))
  /\ (says_relative hdr -> exists n, ld_cone L = Some n /\ unit_along X n (vmat (mkV a b c) (ld_cell L))).
Proof.
  intros H N. destruct (cone_of _ _ H) as (n & E & R). unfold read_cone_axis in R. cbn [item nth_error of_option obind] in R. rewrite (py_floats_numbers X _ _ N) in R.
  split; intros U; exists n; (split; [exact E|]).
  - rewrite (absolute_read _ U) in R. cbn [obind] in R. apply axis_unit, R.
  - rewrite (relative_read _ U) in R. cbn [obind] in R. apply axis_unit, R.
Qed.
Theorem cone_angles hdr l alpha beta : has_section secs "cone-axis" [hdr; l] -> numbers X (py_split l) [alpha; beta] ->
  ld_cone L = Some (direction X alpha beta).
Proof.
  intros H N. destruct (cone_of _ _ H) as (n & E & R). rewrite E. unfold read_cone_axis in R. cbn [item nth_error of_option obind] in R. rewrite (py_floats_numbers X _ _ N) in R.
  apply obind_inv in R. destruct R as (rel & _ & R). cbn [obind] in R. f_equal.
  assert (D : [fmul (x_cos X beta) (x_sin X alpha); fmul (x_sin X beta) (x_sin X alpha); x_cos X alpha] = vlist (direction X alpha beta)).
  { unfold vlist, direction. cbn [vx vy vz]. f_equal; [ring|]. f_equal. ring. }
  rewrite D in R. apply (axis_set _ _ R). apply HG.
Qed.
Theorem no_cone : (forall s, ~ has_section secs "cone-axis" s) -> ld_cone L = None.
Proof. intros H. destruct file_parts as (_ & _ & scale & w1 & w2 & _ & _ & _ & _ & _ & _ & (_ & S2) & _). apply S2, H. Qed.
Lemma spiral_of hdr l : has_section secs "spiral-vector" [hdr; l] -> exists n, ld_spiral L = Some n /\ read_spiral_vector X (ld_cell L) [hdr; l] = Ret n.
Proof.
  intros H. destruct file_parts as (_ & _ & scale & w1 & w2 & _ & _ & _ & _ & _ & _ & _ & (S1 & _)). specialize (S1 _ H).
  apply obind_inv in S1. destruct S1 as (n & E & S1). injection S1 as S1. exists n. auto.
Qed.
Theorem spiral_vector hdr l a b c : has_section secs "spiral-vector" [hdr; l] -> numbers X (py_split l) [a; b; c] ->
  (says_absolute hdr -> ld_spiral L = Some (mkV a b c))
  /\ (says_relative hdr -> exists q, ld_spiral L = Some q /\ mvec (ld_cell L) q = vscale tau (mkV a b c)).
Proof.
  intros H N. destruct (spiral_of _ _ H) as (q & E & R). unfold read_spiral_vector in R. cbn [item nth_error of_option obind] in R. rewrite (py_floats_numbers X _ _ N) in R.
  split; intros U.
  - rewrite (absolute_read _ U) in R. cbn [obind] in R. injection R as <-. exact E.
  - rewrite (relative_read _ U) in R. cbn [obind] in R. exists q. split; [exact E|]. destruct (x_reciprocal X (ld_cell L)) as [r|] eqn:Er; [|discriminate]. cbn [of_option obind] in R. injection R as <-.
    pose proof (geo_reciprocal X tau HG _ _ Er) as G. destruct (ld_cell L), r. unfold mmul, mtrans, mrow1, mrow2, mrow3, dot in G. cbn in G. injection G as G1 G2 G3 G4 G5 G6 G7 G8 G9.
    unfold mvec, vmat, mvec, mtrans, mrow1, mrow2, mrow3, dot, vscale, vmap. cbn. f_equal.
    + combination G1 G2 G3 a b c; ring.
    + combination G4 G5 G6 a b c; ring.
    + combination G7 G8 G9 a b c; ring.
Qed.
Theorem no_spiral : (forall s, ~ has_section secs "spiral-vector" s) -> ld_spiral L = None.
Proof. intros H. destruct file_parts as (_ & _ & scale & w1 & w2 & _ & _ & _ & _ & _ & _ & _ & (_ & S2)). apply S2, H. Qed.
End File.
End Atoms.
