(** A verified file loads, but for the shortcomings named in [loadable]. *)
From Coq Require Import String Ascii List Bool ZArith Arith Lia Permutation.
From Coq Require Import Ring Field Field_theory Ring_theory.
From Verif.Base Require Import Scalar Linear3 PyDict PyString PyText.
From Verif.Spec Require Import HamSpec HistorySpec TxtSpec TxtFormat.
From Verif.Model Require Import MatrixParam Hamiltonian TxtVerify TxtRead.
From Verif.Proofs Require Import DictProofs HamBasics HistoryProofs TextBasics SectionProofs TxtReadProofs TextGlue VerifyProofs LoadProofs FileProofs.
Import ListNotations.
Local Open Scope string_scope.

Section Total.
Context {F : Type} {SF : Scalar F}.
Add Field F_field : (@f_field F SF).
Variable X : externals F.
Hypothesis HX : sane X.
Notation world := (@world F).
Let Hlow := sane_case X HX.

(** ** Fields *)
Lemma one_neq_0 : (f1 : F) <> f0.
Proof. apply (F_1_neq_0 f_field). Qed.
Lemma prod_neq_0 (x y : F) : x <> f0 -> y <> f0 -> fmul x y <> f0.
Proof. intros Hx Hy E. apply Hx. replace x with (fdiv (fmul x y) y) by (field; exact Hy). rewrite E. field. exact Hy. Qed.
Lemma quot_neq_0 (x y : F) : x <> f0 -> y <> f0 -> fdiv x y <> f0.
Proof. intros Hx Hy E. apply Hx. replace x with (fmul (fdiv x y) y) by (field; exact Hy). rewrite E. ring. Qed.
Lemma fabs_neq_0 (x : F) : x <> f0 -> fabs x <> f0.
Proof. unfold fabs. intros Hx. destruct (fltb x f0); [|exact Hx]. intros E. apply Hx. replace x with (fopp (fopp x)) by ring. rewrite E. ring. Qed.

(** ** Numbers *)
Lemma numbers_some ws amounts : verify_numbers (isfloat X) (map str_lower ws) amounts = false ->
  exists xs, numbers X ws xs /\ In (List.length xs) amounts /\ List.length xs = List.length ws.
Proof.
  unfold verify_numbers. intros H. apply orb_false_elim in H. destruct H as [H1 H2]. destruct (floats_numbers X Hlow ws H2) as (xs & N & L).
  exists xs. split; [exact N|]. split; [|exact L]. apply negb_false_iff in H1. apply existsb_exists in H1. destruct H1 as (n & I & E).
  rewrite map_length in E. apply Nat.eqb_eq in E. congruence.
Qed.
Lemma block_some l amounts : verify_data_block (isfloat X) [l] [amounts] = false ->
  exists xs, numbers X (py_split l) xs /\ In (List.length xs) amounts /\ List.length xs = List.length (py_split l).
Proof.
  unfold verify_data_block. simpl. intros H. rewrite orb_false_r in H. rewrite py_split_lower in H. apply numbers_some. exact H.
Qed.

(** ** Cell *)
Lemma length_header l0 : verify_section_header l0 ["a"; "b"] = false ->
  exists conv u, conv <> f0 /\ (match py_split l0 with [_] => Ret "Angstrom"%string | [_; u] => Ret u | _ => Raise UnboundLocalError end) = Ret u
    /\ length_units X (str_lower u) = Ret conv.
Proof.
  destruct (sane_lengths X HX) as [La Lb]. unfold verify_section_header. rewrite py_split_lower. destruct (py_split l0) as [|k [|u [|]]]; cbn [map]; try discriminate; intros H.
  - exists (fdiv (c_angstrom X) (LENGTH X)), "Angstrom". split; [apply quot_neq_0; assumption|]. split; reflexivity.
  - apply negb_false_iff in H. rewrite str_lower_idem in H. unfold length_units. cbn [existsb] in H.
    destruct (starts_with "b" (str_lower u)) eqn:Eb.
    + exists (fdiv (c_bohr_radius X) (LENGTH X)), u. rewrite Eb. split; [apply quot_neq_0; assumption|]. split; reflexivity.
    + destruct (starts_with "a" (str_lower u)) eqn:Ea; [|discriminate].
      exists (fdiv (c_angstrom X) (LENGTH X)), u. rewrite Eb, Ea. split; [apply quot_neq_0; assumption|]. split; reflexivity.
Qed.

Lemma read_row_numbers l a b c : numbers X (py_split l) [a; b; c] -> read_row X l = Ret (mkV a b c).
Proof.
  intros N. unfold read_row. pose proof (Forall2_length_eq _ _ _ N) as L. rewrite firstn_all2 by (rewrite L; simpl; lia).
  rewrite (py_floats_numbers X _ _ N). reflexivity.
Qed.

Lemma det_rows conv (s : V3 F) a b c d e f g h i : conv <> f0 -> vx s <> f0 -> vy s <> f0 -> vz s <> f0 -> mdet (mkM a b c d e f g h i) <> f0 ->
  mdet (rows (scale_row s (vscale conv (mkV a b c))) (scale_row s (vscale conv (mkV d e f))) (scale_row s (vscale conv (mkV g h i)))) <> f0.
Proof.
  intros Hc H1 H2 H3 Hd.
  replace (mdet (rows _ _ _)) with (fmul (fmul (fmul conv (fmul conv conv)) (fmul (vx s) (fmul (vy s) (vz s)))) (mdet (mkM a b c d e f g h i))).
  - repeat apply prod_neq_0; assumption.
  - unfold rows, scale_row, vscale, vmap, mdet. cbn. ring.
Qed.
Lemma det_rows1 conv a b c d e f g h i : conv <> f0 -> mdet (mkM a b c d e f g h i) <> f0 ->
  mdet (rows (vscale conv (mkV a b c)) (vscale conv (mkV d e f)) (vscale conv (mkV g h i))) <> f0.
Proof.
  intros Hc Hd. replace (mdet (rows _ _ _)) with (fmul (fmul conv (fmul conv conv)) (mdet (mkM a b c d e f g h i))).
  - repeat apply prod_neq_0; assumption.
  - unfold rows, vscale, vmap, mdet. cbn. ring.
Qed.

Lemma float_zero w x : x_float X w = Some x -> float_is_zero (x_float X) w = false -> x <> f0.
Proof. unfold float_is_zero. intros ->. destruct (feq_dec x f0); [discriminate|auto]. Qed.
Lemma float_positive w x : x_float X w = Some x -> float_not_positive (x_float X) w = false -> x <> f0.
Proof. unfold float_not_positive. intros ->. intros H. apply orb_false_elim in H. destruct H as [_ H]. destruct (feq_dec x f0); [discriminate|auto]. Qed.

Lemma read_scale_total cell line : mdet cell <> f0 -> verify_data_block (isfloat X) [line] [[1; 3]]%nat = false ->
  (Nat.eqb (List.length (py_split line)) 1 && float_is_zero (x_float X) (nth 0 (py_split line) "") = false)%bool ->
  (Nat.eqb (List.length (py_split line)) 3 && (float_not_positive (x_float X) (nth 0 (py_split line) "")
      || float_not_positive (x_float X) (nth 1 (py_split line) "") || float_not_positive (x_float X) (nth 2 (py_split line) "")) = false)%bool ->
  exists s, read_scale X cell line = Ret s /\ vx s <> f0 /\ vy s <> f0 /\ vz s <> f0.
Proof.
  intros Hd V Z P. destruct (block_some _ _ V) as (xs & N & I & L). unfold read_scale.
  destruct (py_split line) as [|w1 [|w2 [|w3 [|]]]]; simpl in L; inversion N; subst; try (simpl in I; lia).
  - inversion H3; subst. unfold py_float. rewrite H1. cbn [of_option obind]. cbn in Z.
    pose proof (float_zero _ _ H1 Z) as Hy. destruct (fltb y f0).
    + destruct (feq_dec (mdet cell) f0); [contradiction|]. cbn [obind]. eexists. split; [reflexivity|]. cbn [vx vy vz].
      assert (G : fmul f1 (fdiv (fabs y) (fabs (mdet cell))) <> f0) by (apply prod_neq_0; [apply one_neq_0|apply quot_neq_0; apply fabs_neq_0; assumption]). auto.
    + cbn [obind]. eexists. split; [reflexivity|]. cbn [vx vy vz]. assert (G : fmul f1 y <> f0) by (apply prod_neq_0; [apply one_neq_0|exact Hy]). auto.
  - exfalso. inversion H3; subst. inversion H5; subst. simpl in I. lia.
  - inversion H3; subst. inversion H5; subst. inversion H7; subst. unfold py_float. rewrite H1, H2, H4. cbn [of_option obind]. cbn in P.
    apply orb_false_elim in P. destruct P as [P P3]. apply orb_false_elim in P. destruct P as [P1 P2].
    eexists. split; [reflexivity|]. cbn [vx vy vz]. split; [|split]; eapply float_positive; eauto.
  - exfalso. apply Forall2_length_eq in H3. simpl in *. lia.
Qed.

Lemma read_cell_total secs s : has_section secs "cell" s -> true_cell X secs -> verify_cell (isfloat X) (x_float X) s = false ->
  exists cell scale, read_cell X s = Ret (cell, scale) /\ mdet cell <> f0.
Proof.
  intros Hs Tc V. unfold verify_cell in V. destruct (verify_size_exact s [4; 5]%nat) eqn:Es; [discriminate|].
  unfold verify_size_exact in Es. apply negb_false_iff in Es. cbn [existsb] in Es. unfold read_cell.
  destruct (Nat.eqb (List.length s) 5) eqn:E5.
  - apply Nat.eqb_eq in E5. destruct s as [|l0 [|ls [|l1 [|l2 [|l3 [|]]]]]]; try discriminate. clear Es. cbn [hd nth skipn List.length] in V.
    apply orb_false_elim in V. destruct V as [V Vr]. apply orb_false_elim in V. destruct V as [V V3]. apply orb_false_elim in V. destruct V as [V V2].
    apply orb_false_elim in V. destruct V as [Vh Vs]. rewrite Vs in V2, V3. cbn [negb andb] in V2, V3.
    destruct (length_header l0 Vh) as (conv & u & Hc & Hu & Hl).
    destruct (rows_ok X Hlow _ _ _ Vr) as (a & b & c & d & e & f & g & h & i & N1 & N2 & N3).
    pose proof (Tc _ [l0; ls] l1 l2 l3 _ _ _ _ _ _ _ _ _ Hs eq_refl N1 N2 N3) as Hd.
    cbn [item nth_error of_option obind List.length Nat.eqb Nat.add]. rewrite Hu. cbn [obind]. rewrite Hl. cbn [obind].
    rewrite (read_row_numbers _ _ _ _ N1), (read_row_numbers _ _ _ _ N2), (read_row_numbers _ _ _ _ N3). cbn [obind].
    destruct (read_scale_total _ ls (det_rows1 conv _ _ _ _ _ _ _ _ _ Hc Hd) Vs V2 V3) as (sv & Es & S1 & S2 & S3). rewrite Es. cbn [obind].
    eexists _, _. split; [reflexivity|]. apply det_rows; assumption.
  - rewrite orb_false_r in Es. apply Nat.eqb_eq in Es. destruct s as [|l0 [|l1 [|l2 [|l3 [|]]]]]; try discriminate. cbn [hd nth skipn List.length] in V.
    apply orb_false_elim in V. destruct V as [Vh Vr].
    destruct (length_header l0 Vh) as (conv & u & Hc & Hu & Hl).
    destruct (rows_ok X Hlow _ _ _ Vr) as (a & b & c & d & e & f & g & h & i & N1 & N2 & N3).
    pose proof (Tc _ [l0] l1 l2 l3 _ _ _ _ _ _ _ _ _ Hs eq_refl N1 N2 N3) as Hd.
    cbn [item nth_error of_option obind List.length Nat.eqb Nat.add]. rewrite Hu. cbn [obind]. rewrite Hl. cbn [obind].
    rewrite (read_row_numbers _ _ _ _ N1), (read_row_numbers _ _ _ _ N2), (read_row_numbers _ _ _ _ N3). cbn [obind].
    eexists _, _. split; [reflexivity|]. apply det_rows; try assumption; apply one_neq_0.
Qed.

(** ** Atoms *)
Lemma index_of_In w l : In w l -> exists n, index_of w l = Some n /\ nth_error l n = Some w.
Proof.
  induction l as [|x l IH]; simpl; intros H; [contradiction|]. destruct (string_dec x w) as [->|Hn]; [exists 0%nat; auto|].
  destruct H as [->|H]; [congruence|]. destruct (IH H) as (n & -> & E). exists (S n). auto.
Qed.
Lemma index_of_nth w l n : index_of w l = Some n -> nth_error l n = Some w.
Proof.
  revert n. induction l as [|x l IH]; simpl; intros n H; [discriminate|]. destruct (string_dec x w) as [->|Hn]; [inversion H; reflexivity|].
  destruct (index_of w l) as [m|]; [|discriminate]. inversion H; subst. simpl. auto.
Qed.

Lemma blocks_ok ni ws n w : verify_blocks (isfloat X) (Some ni) ws = false -> nth_error ws n = Some w -> n <> ni -> w <> "-" -> exists x, x_float X w = Some x.
Proof.
  unfold verify_blocks. intros V E Hn Hd.
  assert (I : In (n, w) (combine (seq 0 (List.length ws)) ws)).
  { assert (G : forall k, nth_error (combine (seq k (List.length ws)) ws) n = Some ((k + n)%nat, w)).
    { clear - E. revert n E. induction ws as [|x ws IH]; intros n E k; [destruct n; discriminate|]. destruct n as [|n]; cbn in *; [inversion E; subst; f_equal; f_equal; lia|].
      rewrite (IH n E (S k)). f_equal. f_equal. lia. }
    apply (nth_error_In _ n). rewrite (G 0%nat). reflexivity. }
  assert (G : (negb (Nat.eqb n ni) && negb (isfloat X w) && (if string_dec w "-" then false else true))%bool = false).
  { destruct (negb (Nat.eqb n ni) && negb (isfloat X w) && (if string_dec w "-" then false else true))%bool eqn:Eb; [|reflexivity].
    rewrite <- V. symmetry. apply existsb_exists. exists (n, w). split; [exact I|exact Eb]. }
  destruct (string_dec w "-"); [congruence|]. destruct (Nat.eqb_spec n ni); [congruence|]. cbn in G. rewrite andb_true_r in G.
  apply negb_false_iff in G. unfold isfloat in G. destruct (x_float X w); [eauto|discriminate].
Qed.

Lemma column_total header ws ni key : index_of "name" header = Some ni -> key <> "name" -> In key header -> List.length ws = List.length header ->
  verify_blocks (isfloat X) (Some ni) ws = false -> ~ In "-" ws -> exists x, column X header ws key = Ret x.
Proof.
  intros Hi Hk I L V Hd. unfold column. destruct (index_of_In key header I) as (n & -> & En). cbn [of_option obind]. unfold item.
  destruct (nth_error ws n) as [w|] eqn:Ew.
  2:{ apply nth_error_None in Ew. assert (n < List.length header)%nat by (apply nth_error_Some; congruence). lia. }
  cbn [of_option obind]. assert (n <> ni) by (intros ->; rewrite (index_of_nth _ _ _ Hi) in En; congruence).
  destruct (blocks_ok ni ws n w V Ew H) as [x Ex]; [intros ->; apply Hd; apply (nth_error_In _ _ Ew)|].
  unfold py_float. rewrite Ex. eexists. reflexivity.
Qed.

Lemma insert_In w l x : In x (insert_str w l) <-> x = w \/ In x l.
Proof.
  induction l as [|y l IH]; simpl; [intuition|]. destruct (String.leb w y); simpl; [intuition|]. rewrite IH. intuition.
Qed.
Lemma sort_In l x : In x (sort_str l) <-> In x l.
Proof. induction l as [|y l IH]; simpl; [tauto|]. rewrite insert_In, IH. intuition. Qed.
Lemma remove_In w l x : In x (remove_str w l) -> In x l.
Proof. induction l as [|y l IH]; simpl; [tauto|]. destruct (string_dec y w); simpl; intuition. Qed.
Lemma In_remove w l x : In x l -> x <> w -> In x (remove_str w l).
Proof. induction l as [|y l IH]; simpl; [tauto|]. destruct (string_dec y w); simpl; intuition congruence. Qed.

Lemma header_position l1 : snd (verify_atoms_data_header l1) = false ->
  let h := py_split (str_lower l1) in
  (In "r1" h -> In "r2" h /\ In "r3" h) /\ (~ In "r1" h -> In "x" h /\ In "y" h /\ In "z" h).
Proof.
  unfold verify_atoms_data_header. cbv zeta. cbn [snd]. set (h := py_split (str_lower l1)). intros V.
  apply orb_false_elim in V. destruct V as [V _]. apply orb_false_elim in V. destruct V as [V _]. apply orb_false_elim in V. destruct V as [V _].
  apply orb_false_elim in V. destruct V as [_ V]. apply negb_false_iff in V. apply existsb_exists in V. destruct V as (e & I & E).
  destruct (list_eq_dec _ _ _) as [Ee|]; [|discriminate]. clear E.
  assert (G : forall k, In k e -> In k h).
  { intros k Ik. rewrite <- Ee in Ik. apply (proj1 (sort_In _ _)) in Ik. apply filter_In in Ik. destruct Ik as [Ik _]. do 3 apply remove_In in Ik. exact Ik. }
  assert (G' : In "r1" h -> In "r1" e).
  { intros Ik. rewrite <- Ee. apply (proj2 (sort_In _ _)). apply filter_In. split; [|reflexivity]. repeat apply In_remove; try assumption; discriminate. }
  destruct I as [<-|[<-|[<-|[]]]].
  - split; [intros _; split; apply G; simpl; tauto|]. intros Hn. exfalso. apply Hn, G. simpl. tauto.
  - split; [intros I; apply G' in I; simpl in I; exfalso; intuition discriminate|]. intros _. repeat split; apply G; simpl; tauto.
  - split; [intros _; split; apply G; simpl; tauto|]. intros Hn. exfalso. apply Hn, G. simpl. tauto.
Qed.
Lemma header_spin l1 : snd (verify_atoms_data_header l1) = false ->
  let h := py_split (str_lower l1) in
  (In "sx" h -> In "sy" h /\ In "sz" h) /\ (In "sp" h -> In "st" h /\ In "s" h).
Proof.
  unfold verify_atoms_data_header. cbv zeta. cbn [snd]. set (h := py_split (str_lower l1)). intros V.
  apply orb_false_elim in V. destruct V as [V _]. apply orb_false_elim in V. destruct V as [V _]. apply orb_false_elim in V. destruct V as [_ V].
  unfold verify_vector_keyword in V. apply negb_false_iff in V. apply existsb_exists in V. destruct V as (e & I & E).
  destruct (list_eq_dec _ _ _) as [Ee|]; [|discriminate]. clear E.
  assert (G : forall k, In k e -> In k h).
  { intros k Ik. rewrite <- Ee in Ik. apply (proj1 (sort_In _ _)) in Ik. apply filter_In in Ik. destruct Ik as [Ik _]. do 3 apply remove_In in Ik. exact Ik. }
  assert (G' : forall k, is_spin k = true -> k <> "name" -> k <> "q" -> k <> "g" -> In k h -> In k e).
  { intros k Hk N1 N2 N3 Ik. rewrite <- Ee. apply (proj2 (sort_In _ _)). apply filter_In. split; [|exact Hk]. repeat apply In_remove; assumption. }
  split; intros Ik; apply G' in Ik; try reflexivity; try discriminate.
  - repeat (destruct I as [<-|I]; [first [solve [split; apply G; simpl; tauto]|exfalso; simpl in Ik; intuition discriminate]|]). destruct I.
  - repeat (destruct I as [<-|I]; [first [solve [split; apply G; simpl; tauto]|exfalso; simpl in Ik; intuition discriminate]|]). destruct I.
Qed.

Lemma mem_str_false w l : mem_str w l = false <-> ~ In w l.
Proof. unfold mem_str. destruct (in_dec string_dec w l); split; congruence || tauto. Qed.

Lemma read_atom_total cell scale conv l1 ni l : mdet cell <> f0 -> snd (verify_atoms_data_header l1) = false ->
  index_of "name" (py_split (str_lower l1)) = Some ni -> List.length (py_split l) = List.length (py_split l1) ->
  verify_blocks (isfloat X) (Some ni) (py_split l) = false -> ~ In "-" (py_split l) ->
  exists a, read_atom X cell scale conv (py_split (str_lower l1)) l = Ret a.
Proof.
  intros Hd V Hi L B Nd. destruct (header_position l1 V) as [P1 P2]. destruct (header_spin l1 V) as [S1 S2].
  assert (L' : List.length (py_split l) = List.length (py_split (str_lower l1))) by (rewrite py_split_lower, map_length; exact L).
  set (h := py_split (str_lower l1)) in *.
  assert (C : forall key, key <> "name" -> In key h -> exists x, column X h (py_split l) key = Ret x) by (intros key Hk I; eapply column_total; eauto).
  unfold read_atom. rewrite Hi. cbn [of_option obind]. unfold item.
  destruct (nth_error (py_split l) ni) as [name|] eqn:En.
  2:{ apply nth_error_None in En. assert (ni < List.length h)%nat by (apply nth_error_Some; rewrite (index_of_nth _ _ _ Hi); discriminate). lia. }
  cbn [of_option obind].
  assert (P : exists v, read_position X cell scale conv h (py_split l) = Ret v).
  { unfold read_position. destruct (mem_str "r1" h) eqn:Er.
    - apply mem_str_In in Er. destruct (P1 Er) as [I2 I3]. destruct (C "r1" ltac:(discriminate) Er) as [a ->]. cbn [obind].
      destruct (C "r2" ltac:(discriminate) I2) as [b ->]. cbn [obind]. destruct (C "r3" ltac:(discriminate) I3) as [c ->]. eexists. reflexivity.
    - apply mem_str_false in Er. destruct (P2 Er) as (I1 & I2 & I3). destruct (C "x" ltac:(discriminate) I1) as [a ->]. cbn [obind].
      destruct (C "y" ltac:(discriminate) I2) as [b ->]. cbn [obind]. destruct (C "z" ltac:(discriminate) I3) as [c ->]. cbn [obind].
      match goal with |- context [x_abs_to_rel X cell ?v] => pose proof (sane_relative X HX cell v Hd); destruct (x_abs_to_rel X cell v) end; [eexists; reflexivity|congruence]. }
  destruct P as [v ->]. cbn [obind].
  assert (Q : exists x, (if mem_str "q" h then column X h (py_split l) "q" else Ret f0) = Ret x).
  { destruct (mem_str "q" h) eqn:E; [|eexists; reflexivity]. apply C; [discriminate|]. apply mem_str_In. exact E. }
  destruct Q as [x ->]. cbn [obind].
  assert (G : exists x, (if mem_str "g" h then column X h (py_split l) "g" else Ret f2) = Ret x).
  { destruct (mem_str "g" h) eqn:E; [|eexists; reflexivity]. apply C; [discriminate|]. apply mem_str_In. exact E. }
  destruct G as [x' ->]. cbn [obind].
  assert (S : exists v, read_spin X h (py_split l) = Ret v).
  { unfold read_spin. destruct (mem_str "sx" h) eqn:Ex; [|destruct (mem_str "sp" h) eqn:Ep; [|destruct (mem_str "s" h) eqn:Es; [|eexists; reflexivity]]].
    - apply mem_str_In in Ex. destruct (S1 Ex) as [I2 I3]. destruct (C "sx" ltac:(discriminate) Ex) as [a ->]. cbn [obind].
      destruct (C "sy" ltac:(discriminate) I2) as [b ->]. cbn [obind]. destruct (C "sz" ltac:(discriminate) I3) as [c ->]. eexists. reflexivity.
    - apply mem_str_In in Ep. destruct (S2 Ep) as [I2 I3]. destruct (C "sp" ltac:(discriminate) Ep) as [a ->]. cbn [obind].
      destruct (C "st" ltac:(discriminate) I2) as [b ->]. cbn [obind]. destruct (C "s" ltac:(discriminate) I3) as [c ->]. eexists. reflexivity.
    - apply mem_str_In in Es. destruct (C "s" ltac:(discriminate) Es) as [a ->]. eexists. reflexivity. }
  destruct S as [sv ->]. eexists. reflexivity.
Qed.

Lemma read_atoms_total secs cell scale s allowed : mdet cell <> f0 -> has_section secs "atoms" s -> undashed secs ->
  verify_atoms (isfloat X) s = Ret (allowed, false) -> exists atoms, read_atoms X cell scale s = Ret atoms.
Proof.
  intros Hd Hs U V. destruct (verify_atoms_inv X s allowed V) as (l0 & l1 & lines & ni & -> & _ & Vh & Hi & Vd & _ & Hn).
  unfold read_atoms. cbn [item nth_error of_option obind skipn].
  assert (Hc : exists conv, atoms_units X l0 = Ret conv).
  { unfold atoms_units. unfold verify_section_header in Vh. destruct (py_split (str_lower l0)) as [|k [|u [|]]] eqn:El; try discriminate.
    - eexists. reflexivity.
    - assert (Eu : str_lower u = u).
      { rewrite py_split_lower in El. destruct (py_split l0) as [|k' [|u' [|]]]; try discriminate. inversion El; subst. apply str_lower_idem. }
      rewrite Eu in Vh. apply negb_false_iff in Vh. cbn [existsb] in Vh. destruct (starts_with "r" u); [eexists; reflexivity|].
      destruct (starts_with "b" u); [eexists; reflexivity|]. destruct (starts_with "a" u); [eexists; reflexivity|discriminate]. }
  destruct Hc as [conv ->]. cbn [obind].
  assert (U' : forall l, In l lines -> ~ In "-" (py_split l)) by (intros l I; eapply U; [exact Hs|right; right; exact I]).
  clear Hs V U. revert U' Hn. generalize allowed. induction lines as [|l lines IH]; intros al U' Hn; [eexists; reflexivity|].
  inversion Hn as [|? n ? al' (L & _ & B) Hr]; subst. cbn [read_atom_lines].
  destruct (read_atom_total cell scale conv l1 ni l Hd Vd Hi L B (U' l (or_introl eq_refl))) as [a ->]. cbn [obind].
  destruct (IH al') as [r ->]; [intros x Hx; apply U'; right; exact Hx|exact Hr|]. eexists. reflexivity.
Qed.

(** ** Parameters *)
Lemma energy_word hdr : verify_section_header hdr energy_units = false -> exists u, units_word hdr = u
  /\ (starts_with "m" u || starts_with "e" u || starts_with "j" u || starts_with "k" u || starts_with "r" u = true)%bool
  /\ (starts_with "j" u = true -> exists k u', py_split hdr = [k; u'] /\ initial "j" u').
Proof.
  intros V. unfold verify_section_header in V. unfold units_word. rewrite py_split_lower in *. destruct (py_split hdr) as [|k [|u [|]]]; cbn [map] in V; try discriminate; cbn [map nth].
  - exists "meV". split; [reflexivity|]. split; [reflexivity|]. intros E. cbn in E. discriminate.
  - exists (str_lower u). split; [reflexivity|]. rewrite str_lower_idem in V. apply negb_false_iff in V. unfold energy_units in V. cbn [existsb] in V.
    rewrite orb_false_r, !orb_assoc in V. split; [exact V|]. intros Ej. exists k, u. split; [reflexivity|]. apply initb_spec. exact Ej.
Qed.
Lemma on_site_units_total hdr : verify_section_header hdr energy_units = false -> exists conv, on_site_units X (units_word hdr) = Ret conv.
Proof.
  intros V. destruct (energy_word hdr V) as (u & -> & H & _). unfold on_site_units.
  destruct (starts_with "r" u); [eexists; reflexivity|]. destruct (starts_with "j" u); [eexists; reflexivity|].
  destruct (starts_with "k" u); [eexists; reflexivity|]. destruct (starts_with "e" u); [eexists; reflexivity|].
  destruct (starts_with "m" u); [eexists; reflexivity|discriminate].
Qed.
Lemma exchange_units_total hdr : verify_section_header hdr energy_units = false ->
  (forall k u, py_split hdr = [k; u] -> ~ initial "j" u) -> exists conv, exchange_units X (units_word hdr) = Ret conv.
Proof.
  intros V Nj. destruct (energy_word hdr V) as (u & -> & H & J). unfold exchange_units.
  destruct (starts_with "r" u); [eexists; reflexivity|].
  destruct (starts_with "j" u) eqn:Ej. { destruct (J eq_refl) as (k & u' & E & I). destruct (Nj k u' E I). }
  destruct (starts_with "k" u); [eexists; reflexivity|]. destruct (starts_with "e" u); [eexists; reflexivity|].
  destruct (starts_with "m" u); [eexists; reflexivity|discriminate].
Qed.

(** ** Cone axis and spiral vector *)
Lemma relative_total hdr : verify_section_header hdr ["a"; "r"] = false -> exists b, relative_units hdr = Ret b.
Proof.
  unfold verify_section_header, relative_units. rewrite py_split_lower. destruct (py_split hdr) as [|k [|u [|]]]; cbn [map nth]; try discriminate; intros H.
  - exists true. reflexivity.
  - rewrite str_lower_idem in H. apply negb_false_iff in H. cbn [existsb] in H. destruct (starts_with "r" (str_lower u)); [eexists; reflexivity|].
    destruct (starts_with "a" (str_lower u)); [eexists; reflexivity|discriminate].
Qed.
Lemma vmat_nonzero v (c : M3 F) : mdet c <> f0 -> v <> mkV f0 f0 f0 -> vmat v c <> mkV f0 f0 f0.
Proof.
  intros Hd Hv E. apply Hv. destruct v as [a b c']. destruct c as [m11 m12 m13 m21 m22 m23 m31 m32 m33].
  unfold vmat, mvec, mtrans, dot, mrow1, mrow2, mrow3 in E. cbn in E. injection E as E1 E2 E3.
  set (d := mdet _) in *.
  assert (Ed : d = mdet (mkM m11 m12 m13 m21 m22 m23 m31 m32 m33)) by reflexivity. unfold mdet in Ed. cbn in Ed.
  assert (Z : forall x, fmul d x = f0 -> x = f0).
  { intros x Ex. replace x with (fdiv (fmul d x) d) by (field; exact Hd). rewrite Ex. field. exact Hd. }
  set (e1 := fadd (fadd (fmul m11 a) (fmul m21 b)) (fmul m31 c')) in *.
  set (e2 := fadd (fadd (fmul m12 a) (fmul m22 b)) (fmul m32 c')) in *.
  set (e3 := fadd (fadd (fmul m13 a) (fmul m23 b)) (fmul m33 c')) in *.
  f_equal; apply Z.
  - replace (fmul d a) with (fadd (fadd (fmul (fsub (fmul m22 m33) (fmul m23 m32)) e1) (fmul (fsub (fmul m23 m31) (fmul m21 m33)) e2)) (fmul (fsub (fmul m21 m32) (fmul m22 m31)) e3)).
    + rewrite E1, E2, E3. ring.
    + rewrite Ed. unfold e1, e2, e3. ring.
  - replace (fmul d b) with (fadd (fadd (fmul (fsub (fmul m13 m32) (fmul m12 m33)) e1) (fmul (fsub (fmul m11 m33) (fmul m13 m31)) e2)) (fmul (fsub (fmul m12 m31) (fmul m11 m32)) e3)).
    + rewrite E1, E2, E3. ring.
    + rewrite Ed. unfold e1, e2, e3. ring.
  - replace (fmul d c') with (fadd (fadd (fmul (fsub (fmul m12 m23) (fmul m13 m22)) e1) (fmul (fsub (fmul m13 m21) (fmul m11 m23)) e2)) (fmul (fsub (fmul m11 m22) (fmul m12 m21)) e3)).
    + rewrite E1, E2, E3. ring.
    + rewrite Ed. unfold e1, e2, e3. ring.
Qed.
Lemma close0_nonzero v : x_close0 X v = false -> v <> mkV f0 f0 f0.
Proof. intros H ->. rewrite (sane_zero X HX) in H. discriminate. Qed.
Lemma norm_nonzero v : v <> mkV f0 f0 f0 -> x_norm X v <> f0.
Proof. intros H E. apply H. apply (sane_norm X HX). exact E. Qed.
Lemma set_cone_axis_total a b c : x_close0 X (mkV a b c) = false -> exists n, set_cone_axis X [a; b; c] = Ret n.
Proof.
  intros H. unfold set_cone_axis. rewrite H. destruct (feq_dec (x_norm X (mkV a b c)) f0) as [E|]; [|eexists; reflexivity].
  exfalso. exact (norm_nonzero _ (close0_nonzero _ H) E).
Qed.
Lemma read_cone_total secs cell s : has_section secs "cone-axis" s -> true_axis X secs -> mdet cell <> f0 -> verify_cone_axis (isfloat X) s = false ->
  exists n, read_cone_axis X cell s = Ret n.
Proof.
  intros Hs Ta Hd V. unfold verify_cone_axis in V. destruct (verify_size_exact s [2]%nat) eqn:Es; [discriminate|].
  unfold verify_size_exact in Es. apply negb_false_iff in Es. cbn [existsb] in Es. rewrite orb_false_r in Es. apply Nat.eqb_eq in Es.
  destruct s as [|hdr [|l [|]]]; try discriminate. cbn [hd nth] in V. apply orb_false_elim in V. destruct V as [Vh Vd].
  destruct (block_some _ _ Vd) as (xs & N & I & _). destruct (relative_total hdr Vh) as [b Eb].
  unfold read_cone_axis. cbn [item nth_error of_option obind]. rewrite Eb. cbn [obind]. rewrite (py_floats_numbers X _ _ N). cbn [obind].
  destruct xs as [|x [|y [|z [|]]]]; simpl in I; try lia.
  - apply set_cone_axis_total. apply (sane_angles X HX).
  - pose proof (Ta _ hdr l x y z Hs eq_refl N) as Nz. cbv zeta.
    set (v' := if b then vmat (mkV x y z) cell else mkV x y z).
    assert (Nv : v' <> mkV f0 f0 f0) by (unfold v'; destruct b; [apply vmat_nonzero; assumption|exact Nz]).
    destruct (feq_dec (x_norm X v') f0) as [E|_]; [exfalso; exact (norm_nonzero _ Nv E)|].
    pose proof (sane_unit X HX v' Nv) as Hu. unfold vlist. destruct (vscale (fdiv f1 (x_norm X v')) v') as [p q r]. cbn [vx vy vz]. apply set_cone_axis_total. exact Hu.
Qed.
Lemma read_spiral_total cell s : mdet cell <> f0 -> verify_spiral_vector (isfloat X) s = false -> exists n, read_spiral_vector X cell s = Ret n.
Proof.
  intros Hd V. unfold verify_spiral_vector in V. destruct (verify_size_exact s [2]%nat) eqn:Es; [discriminate|].
  unfold verify_size_exact in Es. apply negb_false_iff in Es. cbn [existsb] in Es. rewrite orb_false_r in Es. apply Nat.eqb_eq in Es.
  destruct s as [|hdr [|l [|]]]; try discriminate. cbn [hd nth] in V. apply orb_false_elim in V. destruct V as [Vh Vd].
  destruct (block_some _ _ Vd) as (xs & N & I & _). destruct (relative_total hdr Vh) as [b Eb].
  unfold read_spiral_vector. cbn [item nth_error of_option obind]. rewrite Eb. cbn [obind]. rewrite (py_floats_numbers X _ _ N). cbn [obind].
  destruct xs as [|x [|y [|z [|]]]]; simpl in I; try lia. cbv zeta. destruct b; [|eexists; reflexivity].
  pose proof (sane_reciprocal X HX cell Hd) as R. destruct (x_reciprocal X cell); [eexists; reflexivity|congruence].
Qed.

(** ** The file *)
Lemma run_out_val {A} (m : @M F A) w w' a : m w = (w', Ret a) -> run_out m w = Ret w'.
Proof. unfold run_out. intros ->. reflexivity. Qed.

Theorem accepted_loads secs ts f : file_shows f ts -> laid_out secs ts -> NoDup (map section_name secs) -> accepts X f ->
  (has_parameters secs -> exists n, has_section secs "notation" n) -> undashed secs -> not_joule secs -> true_cell X secs -> true_axis X secs ->
  exists L, load_txt X f = Ret L.
Proof.
  intros S La N [found V] Hnot U Nj Tc Ta. rewrite (filter_of f ts S) in V. cbn [fst] in V.
  destruct (accepted_inv X _ _ _ La N V) as (-> & _ & sc & sa & allowed & Hsc & Hsa & Va & Vs).
  assert (Vsec : forall n s, has_section secs n s -> n <> "atoms" -> verify_section (isfloat X) (isint X) (x_float X) (dict_of secs) allowed n s = false).
  { intros n s [I <-] Hn. apply Vs; assumption. }
  pose proof (Vsec "cell" sc Hsc ltac:(discriminate)) as Vc. unfold verify_section in Vc. cbn in Vc.
  destruct (read_cell_total secs sc Hsc Tc Vc) as (cell & scale & Rc & Hd).
  destruct (read_atoms_total secs cell scale sa allowed Hd Hsa U Va) as (atoms & Ra).
  pose proof (read_atoms_names X _ _ _ _ _ Va Ra) as En. destruct (verify_atoms_inv X _ _ Va) as (_ & _ & _ & _ & _ & _ & _ & _ & _ & Nd & _).
  set (w0 := crystal_of X atoms) in *.
  (* notation *)
  assert (W1 : exists h1, (has_parameters secs -> exists sn, has_section secs "notation" sn /\ run_out (read_notation X sn) w0 = Ret (mkW [] h1))
     /\ (~ has_parameters secs -> h1 = w_ham w0) /\ h_exch h1 = [] /\ h_ons h1 = [] /\ h_atoms h1 = h_atoms (w_ham w0)).
  { assert (D : has_parameters secs \/ ~ has_parameters secs).
    { destruct (section_dec secs "exchange" N) as [[s Hs]|Hex]; [left; exists s; tauto|]. destruct (section_dec secs "on-site" N) as [[s Hs]|Hos]; [left; exists s; tauto|].
      right. intros [s [Hs|Hs]]; [exact (Hex s Hs)|exact (Hos s Hs)]. }
    destruct D as [D|D].
    - destruct (Hnot D) as [sn Hsn]. destruct (section_clean _ _ _ _ _ S La Hsn) as (hdr & lines & -> & _ & C).
      pose proof (Vsec _ _ Hsn ltac:(discriminate)) as Vv. unfold verify_section in Vv. cbn in Vv.
      destruct (notation_ok X Hlow _ _ _ _ _ _ Vv) as (ps & P & _). exists (noted ps (w_ham w0)).
      destruct (noted_rest ps (w_ham w0)) as (A & B & Cc & _). split; [|split; [intros Hn; contradiction|split; [exact A|split; [exact B|exact Cc]]]].
      intros _. exists (hdr :: lines). split; [exact Hsn|]. apply notation_stage; assumption.
    - exists (w_ham w0). split; [intros Hn; contradiction|]. repeat split. }
  destruct W1 as (h1 & Wn & Wn0 & He1 & Ho1 & Ha1).
  assert (I1 : Inv (mkW [] h1)) by (apply Inv_empty; assumption).
  assert (Nw1 : names_ok (mkW [] h1)). { unfold names_ok. cbn [w_ham]. rewrite Ha1. unfold w0. rewrite crystal_names, En. exact Nd. }
  assert (Al : forall n, In n allowed -> exists a, In a (h_atoms h1) /\ a_name a = n).
  { intros n I. rewrite Ha1. rewrite <- En, <- (crystal_names X) in I. apply in_map_iff in I. destruct I as (a & E & I). exists a. split; [exact I|exact E]. }
  (* exchange *)
  assert (W2 : exists w2, stage secs "exchange" (fun l => run_out (read_exchange X l) (mkW [] h1)) (mkW [] h1) w2 /\ Inv w2 /\ h_atoms (w_ham w2) = h_atoms h1).
  { destruct (section_dec secs "exchange" N) as [[s Hs]|Hex].
    2:{ exists (mkW [] h1). split; [split; [intros s Hs; destruct (Hex s Hs)|reflexivity]|]. split; [exact I1|reflexivity]. }
    destruct (section_clean _ _ _ _ _ S La Hs) as (hdr & lines & -> & _ & C).
    pose proof (Vsec _ _ Hs ltac:(discriminate)) as Vv. unfold verify_section in Vv. cbn in Vv.
    destruct (exchange_ok X Hlow _ _ _ Vv C) as (bs & Hbs & _ & Hall).
    assert (Vh : verify_section_header hdr energy_units = false).
    { unfold verify_exchange in Vv. cbv zeta in Vv. cbn [hd] in Vv. apply orb_false_elim in Vv. destruct Vv as [Vv _]. apply orb_false_elim in Vv. destruct Vv as [Vv _].
      apply orb_false_elim in Vv. apply Vv. }
    destruct (exchange_units_total hdr Vh) as [conv Hconv]. { intros k u E. apply (Nj _ k u Hs). exact E. }
    destruct (calls_total _ I1 Nw1 (flat_map bond_calls bs)) as [w2 Hw].
    { apply Forall_flat_map. rewrite Forall_forall in *. intros b Ib. destruct (Hall b Ib) as (J1 & J2 & _).
      pose proof (bond_calls_some b) as Sm. rewrite Forall_forall in *. intros c Ic. split; [|split; [|apply Sm; exact Ic]];
        unfold bond_calls in Ic; apply in_map_iff in Ic; destruct Ic as (bd & <- & _); cbn [fst snd]; apply Al; assumption. }
    exists w2. destruct (calls_effect _ I1 ltac:(unfold bonds; cbn; rewrite He1; reflexivity) _ _ Hw) as (ks & _ & _ & I2 & F2 & _).
    { apply Forall_flat_map. rewrite Forall_forall. intros b _. apply bond_calls_some. }
    split; [|split; [exact I2|apply F2]]. split; [|intros Hn; destruct (Hn _ Hs)].
    intros s' Hs'. assert (s' = hdr :: lines) by (eapply has_section_fun; eauto). subst s'.
    apply (run_out_val _ _ _ tt). rewrite (read_exchange_calls X hdr lines bs conv Hbs C Hconv). exact Hw. }
  destruct W2 as (w2 & St2 & I2 & Fa2).
  assert (Nw2 : names_ok w2) by (unfold names_ok; rewrite Fa2; exact Nw1).
  assert (W3 : exists w3, stage secs "on-site" (fun l => run_out (read_on_site X l) w2) w2 w3).
  { destruct (section_dec secs "on-site" N) as [[s Hs]|Hos].
    2:{ exists w2. split; [intros s Hs; destruct (Hos s Hs)|reflexivity]. }
    destruct (section_clean _ _ _ _ _ S La Hs) as (hdr & lines & -> & _ & C).
    pose proof (Vsec _ _ Hs ltac:(discriminate)) as Vv. unfold verify_section in Vv. cbn in Vv. unfold verify_on_site in Vv. cbn [tl hd] in Vv.
    destruct (verify_on_site_lines (isfloat X) allowed false lines) as [e c] eqn:Ev.
    apply orb_false_elim in Vv. destruct Vv as [Vv _]. apply orb_false_elim in Vv. destruct Vv as [Vh ->].
    destruct (on_site_ok X Hlow allowed (List.length lines) lines c (le_n _) Ev C) as (es & Hes & Hall).
    destruct (on_site_units_total hdr Vh) as [conv Hconv].
    destruct (os_calls_total conv w2 I2 Nw2 es) as [w3 Hw].
    { rewrite Fa2. rewrite Forall_forall in *. intros e Ie. apply Al. apply Hall. exact Ie. }
    exists w3. split; [|intros Hn; destruct (Hn _ Hs)]. intros s' Hs'. assert (s' = hdr :: lines) by (eapply has_section_fun; eauto). subst s'.
    apply (run_out_val _ _ _ tt). unfold read_on_site. cbn [item nth_error of_option tl]. unfold bind at 1 2, lift. rewrite Hconv.
    rewrite (read_on_site_calls X conv lines es Hes C). exact Hw. }
  destruct W3 as (w3 & St3).
  assert (W4 : exists cone, stage secs "cone-axis" (fun l => obind (read_cone_axis X cell l) (fun n => Ret (Some n))) None cone).
  { destruct (section_dec secs "cone-axis" N) as [[s Hs]|Hn].
    - pose proof (Vsec _ _ Hs ltac:(discriminate)) as Vv. unfold verify_section in Vv. cbn in Vv.
      destruct (read_cone_total secs cell s Hs Ta Hd Vv) as [n E]. exists (Some n). split; [|intros H; destruct (H _ Hs)].
      intros s' Hs'. rewrite (has_section_fun _ _ _ _ N Hs' Hs), E. reflexivity.
    - exists None. split; [intros s Hs; destruct (Hn s Hs)|reflexivity]. }
  destruct W4 as (cone & St4).
  assert (W5 : exists spiral, stage secs "spiral-vector" (fun l => obind (read_spiral_vector X cell l) (fun n => Ret (Some n))) None spiral).
  { destruct (section_dec secs "spiral-vector" N) as [[s Hs]|Hn].
    - pose proof (Vsec _ _ Hs ltac:(discriminate)) as Vv. unfold verify_section in Vv. cbn in Vv.
      destruct (read_spiral_total cell s Hd Vv) as [n E]. exists (Some n). split; [|intros H; destruct (H _ Hs)].
      intros s' Hs'. rewrite (has_section_fun _ _ _ _ N Hs' Hs), E. reflexivity.
    - exists None. split; [intros s Hs; destruct (Hn s Hs)|reflexivity]. }
  destruct W5 as (spiral & St5).
  exists (mkL cell atoms w3 cone spiral). unfold load_txt. cbn [filter_txt_file obind]. rewrite (filter_of f ts S). cbn [fst]. rewrite V. cbn [obind].
  apply (load_sections_stages X secs _ N). exists scale, (mkW [] h1), w2. unfold stages. cbn [ld_cell ld_atoms ld_ham ld_cone ld_spiral].
  split; [exists sc; auto|]. split; [exists sa; auto|]. split; [exact Wn|]. split; [|auto].
  intros H. rewrite Wn0; [reflexivity|]. intros [s [Hs|Hs]]; [exact (proj1 (H s) Hs)|exact (proj2 (H s) Hs)].
Qed.

End Total.
