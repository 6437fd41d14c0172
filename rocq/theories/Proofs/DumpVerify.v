(** The verifier accepts dumped files. *)
From Coq Require Import String Ascii List Bool ZArith Arith Lia DecimalString.
From Verif.Base Require Import Scalar Linear3 PyDict PyString PyText.
From Verif.Spec Require Import HamSpec TxtSpec TxtFormat Hdf5Spec TxtDumpSpec.
From Verif.Model Require Import MatrixParam Hamiltonian TxtVerify TxtRead Hdf5 TxtDump.
From Verif.Proofs Require Import TextBasics SectionProofs TxtReadProofs TextGlue VerifyProofs LoadProofs FileProofs DumpText DumpWords.
Import ListNotations.
Local Open Scope string_scope.

(** ** Blocks between lines of dashes *)
Definition led (ws : list string) : Prop := match ws with w :: _ => solid w | [] => False end.
Lemma led_headed ws : led ws -> headed ws.
Proof. destruct ws; [contradiction|]. left. exact H. Qed.
Lemma sub_headed : headed sub_words.
Proof. right. reflexivity. Qed.
Lemma led_line l : clean l -> led (py_split l) -> is_subsep l = false /\ short_dash l = false.
Proof.
  intros [T _] H. destruct (py_split l) as [|w ws] eqn:E; [contradiction|]. destruct (solid_line l w ws T E H) as (_ & A & _ & B).
  split; [apply is_subsep_false, A|exact B].
Qed.
Lemma sub_not_short : short_dash SUBSEPARATOR = false.
Proof. reflexivity. Qed.
Lemma sub_is_sub : is_subsep SUBSEPARATOR = true.
Proof. reflexivity. Qed.
Lemma led_block s : Forall clean s -> Forall led (map py_split s) -> Forall (fun l => is_subsep l = false) s /\ existsb short_dash s = false.
Proof.
  induction s as [|l s IH]; intros C H; [split; [constructor|reflexivity]|]. inversion C; subst. cbn [map] in H. inversion H; subst.
  destruct (led_line l) as [A B]; [assumption|assumption|]. destruct IH as [IA IB]; [assumption|assumption|]. split; [constructor; assumption|cbn [existsb]; rewrite B, IB; reflexivity].
Qed.
Lemma blocks_words wb : Forall (fun b => b <> [] /\ Forall led b) wb -> forall ls, Forall clean ls ->
  map py_split ls = flat_map (fun b => b ++ [sub_words])%list wb ->
  map (map py_split) (split_runs is_subsep ls) = wb /\ Forall (Forall clean) (split_runs is_subsep ls) /\ existsb short_dash ls = false.
Proof.
  induction 1 as [|b wb [N H] _ IH]; intros ls C E.
  - apply map_eq_nil in E. subst. repeat split; constructor.
  - cbn [flat_map] in E. rewrite <- app_assoc in E. apply map_eq_app in E. destruct E as (b1 & r & -> & E1 & E2). cbn [app] in E2.
    destruct r as [|l r]; [discriminate|]. cbn [map] in E2. injection E2 as El E2. apply Forall_app in C. destruct C as [C1 C2]. inversion C2 as [|? ? Cl Cr]; subst.
    destruct (IH r Cr E2) as (A1 & A2 & A3). assert (Hl : l = SUBSEPARATOR) by (apply sub_line; [apply Cl|exact El]). subst l.
    destruct (led_block b1 C1) as [B1 B2]; [exact H|].
    rewrite split_runs_cons; [|intros ->; apply N; reflexivity|exact B1|exact sub_is_sub]. repeat split.
    + cbn [map]. rewrite A1. reflexivity.
    + constructor; assumption.
    + rewrite existsb_app, B2. cbn [existsb]. rewrite sub_not_short, A3. reflexivity.
Qed.
Lemma blocks_kept wb runs : map (map py_split) runs = wb -> Forall (fun b => b <> [] /\ Forall led b) wb -> Forall (Forall clean) runs ->
  filter TxtVerify.nonempty (map (drop_while short_dash) runs) = runs.
Proof.
  intros <- H C. induction C as [|s runs Cs _ IH]; [reflexivity|]. cbn [map] in H. inversion H as [|? ? [N L] H']; subst.
  destruct s as [|l s]; [cbn in N; congruence|]. inversion Cs; subst. inversion L; subst. destruct (led_line l) as [_ B]; [assumption|assumption|].
  cbn [map drop_while]. rewrite B. cbn [filter TxtVerify.nonempty]. rewrite IH; [reflexivity|assumption].
Qed.

Section Verify.
Context {F : Type} {SF : Scalar F}.
Variable X : externals F.
Variable P : printer F.
Variable rnd : nat -> F -> F.
Hypothesis HX : sane X.
Hypothesis HP : prints X P rnd.
Notation spinham := (@spinham F).
Notation site := (@site F).
Notation world := (@world F).
Notation isf := (isfloat X).
Notation w8 := (w8 P). Notation w4 := (w4 P). Notation w8v := (w8v P). Notation w4v := (w4v P).

(** ** Numbers *)
Lemma fixed_number p x : isf (pr_fixed P p x) = true.
Proof. unfold isfloat. rewrite (pn_fixed _ _ _ HP). reflexivity. Qed.
Lemma str_number x : isf (pr_str P x) = true.
Proof. unfold isfloat. rewrite (pn_str _ _ _ HP). reflexivity. Qed.
Lemma int_integer z : isint X (str_int z) = true.
Proof. unfold isint. unfold str_int. rewrite (pn_int _ _ _ HP). reflexivity. Qed.
Definition all_numbers (ws : list string) : Prop := Forall (fun w => isf w = true) ws.
Lemma numbers8 v : all_numbers (w8v v).
Proof. repeat constructor; apply fixed_number. Qed.
Lemma numbers4 v : all_numbers (w4v v).
Proof. repeat constructor; apply fixed_number. Qed.
Hint Resolve numbers8 numbers4 : core.
Lemma lower_numbers ws : all_numbers ws -> existsb (fun w => negb (isf w)) (map str_lower ws) = false.
Proof. induction 1 as [|w ws Hw _ IH]; [reflexivity|]. cbn [map existsb]. rewrite (isfloat_lower X (sane_case X HX)), Hw, IH. reflexivity. Qed.
Lemma verify_words ws amounts : all_numbers ws -> In (List.length ws) amounts -> verify_numbers isf (map str_lower ws) amounts = false.
Proof.
  intros H I. unfold verify_numbers. rewrite map_length, (lower_numbers ws H). replace (existsb (Nat.eqb (List.length ws)) amounts) with true; [reflexivity|].
  symmetry. apply existsb_exists. exists (List.length ws). split; [exact I|apply Nat.eqb_refl].
Qed.
Lemma block_words l ws amounts : py_split l = ws -> all_numbers ws -> In (List.length ws) amounts -> verify_data_block isf [l] [amounts] = false.
Proof. intros E H I. unfold verify_data_block. cbn [List.length Nat.eqb negb orb verify_number_lines]. rewrite py_split_lower, E, verify_words by assumption. reflexivity. Qed.
Lemma three_words l1 l2 l3 v1 v2 v3 : map py_split [l1; l2; l3] = [v1; v2; v3] -> all_numbers v1 -> all_numbers v2 -> all_numbers v3 ->
  List.length v1 = 3%nat -> List.length v2 = 3%nat -> List.length v3 = 3%nat -> verify_data_block isf [l1; l2; l3] [[3]; [3]; [3]]%nat = false.
Proof.
  intros E H1 H2 H3 L1 L2 L3. injection E as E1 E2 E3. unfold verify_data_block. cbn [List.length Nat.eqb negb orb verify_number_lines].
  rewrite !py_split_lower, E1, E2, E3, !verify_words by (try assumption; rewrite ?L1, ?L2, ?L3; left; reflexivity). reflexivity.
Qed.
Ltac invmap E := repeat match type of E with
  | map _ ?s = _ :: _ => is_var s; let l := fresh "l" in let s' := fresh "s" in destruct s as [|l s']; [discriminate E|]; cbn [map] in E;
      let E' := fresh "E" in injection E as E' E
  | map _ ?s = [] => apply map_eq_nil in E; subst s
  end.

(** ** Sections *)
Lemma header_words hdr a b units : py_split hdr = [a; b] -> existsb (fun e => starts_with e (str_lower b)) units = true -> verify_section_header hdr units = false.
Proof. intros E H. unfold verify_section_header. rewrite py_split_lower, E. cbn [map]. rewrite str_lower_idem, H. reflexivity. Qed.
Lemma header_alone hdr a units : py_split hdr = [a] -> verify_section_header hdr units = false.
Proof. intros E. unfold verify_section_header. rewrite py_split_lower, E. reflexivity. Qed.

Lemma cell_verified m s : map py_split s = w_cell P m -> verify_cell isf (x_float X) s = false.
Proof.
  unfold w_cell. intros E. invmap E. unfold verify_cell. cbn [verify_size_exact List.length existsb Nat.eqb orb negb hd skipn].
  rewrite (header_words l "Cell" "Angstrom" ["a"; "b"]) by (assumption || reflexivity). cbn [orb].
  apply (three_words _ _ _ (w8v (row1 m)) (w8v (row2 m)) (w8v (row3 m))); auto. cbn [map]. congruence.
Qed.
Lemma cone_verified n s : map py_split s = w_cone P n -> verify_cone_axis isf s = false.
Proof.
  unfold w_cone. intros E. invmap E. unfold verify_cone_axis. cbn [verify_size_exact List.length existsb Nat.eqb orb negb hd nth].
  rewrite (header_words l "Cone-axis" "absolute" ["a"; "r"]) by (assumption || reflexivity). apply (block_words _ (w8v n)); auto. left. reflexivity.
Qed.
Lemma spiral_verified n s : map py_split s = w_spiral P n -> verify_spiral_vector isf s = false.
Proof.
  unfold w_spiral. intros E. invmap E. unfold verify_spiral_vector. cbn [verify_size_exact List.length existsb Nat.eqb orb negb hd nth].
  rewrite (header_words l "Spiral-vector" "relative" ["a"; "r"]) by (assumption || reflexivity). apply (block_words _ (w8v n)); auto. left. reflexivity.
Qed.

(** *** Names *)
Lemma count_zero c w : all_chars (fun d => d <> c) w -> py_count c w = 0%nat.
Proof. induction w as [|d w IH]; [reflexivity|]. intros [A B]. cbn [py_count]. apply Ascii.eqb_neq in A. rewrite A. auto. Qed.
Lemma ends_with_inv suf s : ends_with suf s = true -> exists t, s = t ++ suf.
Proof.
  induction s as [|c s IH]; cbn [ends_with]; intros H.
  - destruct (string_dec suf "") as [->|]; [exists ""; reflexivity|discriminate].
  - destruct (string_dec suf (String c s)) as [<-|]; [exists ""; reflexivity|]. destruct (IH H) as [t ->]. exists (String c t). reflexivity.
Qed.
Lemma name_verified w : good_name w -> verify_atom_name w = false.
Proof.
  intros ((N & H) & (c & t & -> & L) & E). destruct (letter_facts c L) as (_ & _ & U & A). unfold verify_atom_name. cbn [char0]. rewrite A, count_zero.
  - cbn [Nat.eqb andb negb orb]. rewrite starts_with_cons. destruct (ascii_dec "_" c) as [<-|_]; [congruence|]. cbn [andb orb].
    destruct (ends_with "__" (String c t)) eqn:Ew; [|reflexivity]. exfalso. apply E. apply ends_with_inv. exact Ew.
  - revert H. apply all_impl. tauto.
Qed.

(** *** Atoms *)
Lemma atom_blocks fl (x : site) : st_spin x <> None -> verify_blocks isf (Some 0%nat) (w_atom P x) = false /\ List.length (w_atom P x) = List.length (w_header fl).
Proof.
  intros H. unfold w_atom, w_header. destruct (st_spin x) as [s|]; [|congruence]. destruct (fl_angles fl); (split; [|reflexivity]);
    unfold verify_blocks, DumpWords.w8v, DumpWords.w4v, DumpWords.w8, DumpWords.w4; cbn [app List.length seq combine existsb fst snd Nat.eqb negb andb orb]; rewrite !fixed_number; reflexivity.
Qed.
Definition spun (x : site) : Prop := good_name (a_name (st_atom x)) /\ st_spin x <> None.
Lemma atom_lines_verified fl l : Forall spun l -> forall lines, map py_split lines = map (w_atom P) l -> forall allowed,
  verify_atom_lines isf (List.length (w_header fl)) (Some 0%nat) lines allowed false = Ret (allowed ++ map (fun x => a_name (st_atom x)) l, false)%list.
Proof.
  induction 1 as [|x l [G S] _ IH]; intros lines E allowed.
  - apply map_eq_nil in E. subst. cbn. rewrite app_nil_r. reflexivity.
  - destruct lines as [|ln lines]; [discriminate|]. cbn [map] in E. injection E as E1 E2. cbn [verify_atom_lines]. rewrite E1.
    destruct (atom_blocks fl x S) as [B L]. rewrite L, Nat.eqb_refl, B. change (nth_error (w_atom P x) 0) with (Some (a_name (st_atom x))). cbn [negb orb].
    rewrite (name_verified _ G). cbn [orb]. rewrite (IH lines E2). rewrite <- app_assoc. reflexivity.
Qed.
Lemma data_header_verified fl l : py_split l = w_header fl -> fl_angles fl = false ->
  verify_atoms_data_header l = (List.length (w_header fl), Some 0%nat, false).
Proof.
  unfold w_header. intros E A. rewrite A in *. unfold verify_atoms_data_header. rewrite py_split_lower, E. reflexivity.
Qed.
Lemma nodup_id (l : list string) : NoDup l -> nodup string_dec l = l.
Proof. induction 1 as [|x l H _ IH]; [reflexivity|]. cbn [nodup]. destruct (in_dec string_dec x l); [contradiction|congruence]. Qed.
Lemma atoms_verified fl l s : fl_angles fl = false -> Forall spun l -> l <> [] -> NoDup (map (fun x => a_name (st_atom x)) l) ->
  map py_split s = w_atoms P fl l -> verify_atoms isf s = Ret (map (fun x => a_name (st_atom x)) l, false).
Proof.
  intros A Sp N D E. unfold w_atoms in E. destruct s as [|h [|d lines]]; try discriminate. cbn [map] in E. injection E as E1 E2 E3.
  unfold verify_atoms. assert (L : List.length lines = List.length l) by (apply (f_equal (@List.length _)) in E3; rewrite !map_length in E3; exact E3).
  replace (verify_size_at_least (h :: d :: lines) 3) with false by (symmetry; apply Nat.ltb_ge; cbn [List.length]; destruct l; [congruence|cbn in L; lia]).
  cbn [hd nth skipn]. rewrite (header_alone h "Atoms" _ E1), (data_header_verified fl d E2 A). cbn [orb].
  rewrite (atom_lines_verified fl l Sp lines E3). cbn [app List.length]. rewrite (nodup_id _ D), map_length, L.
  replace (S (S (List.length l)) - 2)%nat with (List.length l) by lia. rewrite Nat.eqb_refl. reflexivity.
Qed.

(** *** Notation *)
Lemma bool_verified b : is_bool (str_lower (str_bool b)) = true.
Proof. destruct b; reflexivity. Qed.
Lemma notation_verified (h : @ham F) s :
  let ex := Hdf5.nonempty (h_exch h) in let os := Hdf5.nonempty (h_ons h) in
  (ex || os = true -> h_sn h <> None) -> (ex = true -> h_dc h <> None /\ h_ef h <> None) -> (os = true -> h_of h <> None) ->
  map py_split s = ["Notation"] :: w_props P h -> verify_notation isf ex os ex (ex || os) s = false.
Proof.
  cbv zeta. unfold w_props. intros H1 H2 H3 E. destruct s as [|hd0 lines]; [discriminate|]. cbn [map] in E. injection E as E0 E.
  unfold verify_notation. cbn [hd tl]. rewrite (header_alone hd0 "Notation" _ E0).
  destruct (Hdf5.nonempty (h_exch h)), (Hdf5.nonempty (h_ons h)); cbn [orb] in *; try specialize (H1 eq_refl); try (specialize (H2 eq_refl); destruct H2 as [H2a H2b]); try specialize (H3 eq_refl);
    destruct (h_sn h) as [sn|]; try congruence; try (destruct (h_dc h) as [dc|]; [|congruence]);
    try (destruct (h_ef h) as [ef|]; [|congruence]); try (destruct (h_of h) as [of_|]; [|congruence]); cbn [opt app] in E; invmap E;
    cbn [find_properties]; rewrite ?py_split_lower, ?E1, ?E2, ?E3, ?E4, ?E5; cbn [map];
    repeat match goal with |- context [str_lower (pr_str P ?x)] =>
      let v := fresh "v" in let Hv := fresh "Hv" in
      assert (Hv : isf (str_lower (pr_str P x)) = true) by (rewrite (isfloat_lower X (sane_case X HX)); apply str_number);
      revert Hv; generalize (str_lower (pr_str P x)); intros v Hv end;
    repeat match goal with b : bool |- _ => destruct b end; lazy - [isfloat];
    repeat match goal with Hv : isf _ = true |- _ => rewrite Hv; clear Hv end; reflexivity.
Qed.

(** *** Bonds *)
Lemma lower_plain w c : plain_number w -> In c ["i"; "d"; "s"; "m"]%char -> starts_with (String c "") (str_lower w) = false.
Proof.
  intros (d & t & [-> | ->] & D & _) I; cbn [str_lower]; rewrite starts_with_cons.
  - assert (L : ascii_lower d = d).
    { unfold digit_char in D. clear - D. destruct d as [[] [] [] [] [] [] [] []]; cbn in D; try lia; reflexivity. }
    rewrite L. destruct (ascii_dec c d) as [->|]; [|reflexivity]. exfalso. unfold digit_char in D. repeat (destruct I as [<-|I]; [cbn in D; lia|]). exact I.
  - repeat (destruct I as [<-|I]; [reflexivity|]). destruct I.
Qed.
Lemma row_verified l v t : py_split l = w4v v -> verify_bond_data isf (l :: t) = verify_bond_data isf t.
Proof.
  intros E. cbn [verify_bond_data]. rewrite py_split_lower, E. cbn [map word0 hd DumpWords.w4v].
  assert (Q : plain_number (w4 (vx v))) by apply (pn_plain _ _ _ HP).
  rewrite !(lower_plain _ _ Q) by (cbn; tauto). destruct (verify_bond_data isf t) as [e [[[m s] d] i]]. reflexivity.
Qed.
Lemma keyword_verified k l kw ws n : py_split l = kw :: ws -> char0 (str_lower kw) = Some k -> all_numbers ws -> List.length ws = n ->
  verify_keyword_block isf k [l] [[n]] = false.
Proof.
  intros E C H L. unfold verify_keyword_block. cbn [List.length Nat.eqb negb orb]. rewrite py_split_lower, E. cbn [map word0 hd tl]. rewrite C, Ascii.eqb_refl.
  rewrite verify_words by (try assumption; left; auto). reflexivity.
Qed.
Lemma iso_verified l w t e m s d i : py_split l = ["Isotropic"; w] -> isf w = true -> verify_bond_data isf t = (e, (m, s, d, i)) ->
  verify_bond_data isf (l :: t) = (e, (m, s, d, S i)).
Proof.
  intros E W V. cbn [verify_bond_data]. rewrite (keyword_verified "i" l "Isotropic" [w] 1 E) by (try reflexivity; repeat constructor; exact W).
  rewrite V, py_split_lower, E. reflexivity.
Qed.
Lemma dmi_verified l v t e m s d i : py_split l = "DMI" :: w4v v -> verify_bond_data isf t = (e, (m, s, d, i)) ->
  verify_bond_data isf (l :: t) = (e, (m, s, S d, i)).
Proof.
  intros E V. cbn [verify_bond_data]. rewrite (keyword_verified "d" l "DMI" (w4v v) 3 E) by (try reflexivity; auto).
  rewrite V, py_split_lower, E. reflexivity.
Qed.
Lemma symm_verified l ws t e m s d i : py_split l = "Symmetric-anisotropy" :: ws -> all_numbers ws -> List.length ws = 5%nat -> verify_bond_data isf t = (e, (m, s, d, i)) ->
  verify_bond_data isf (l :: t) = (e, (m, S s, d, i)).
Proof.
  intros E W L V. cbn [verify_bond_data]. rewrite (keyword_verified "s" l "Symmetric-anisotropy" ws 5 E) by (try reflexivity; auto).
  rewrite V, py_split_lower, E. reflexivity.
Qed.
Lemma matrix_verified l r1 r2 r3 v1 v2 v3 t e m s d i : py_split l = ["Matrix"] -> py_split r1 = w4v v1 -> py_split r2 = w4v v2 -> py_split r3 = w4v v3 ->
  verify_bond_data isf t = (e, (m, s, d, i)) -> verify_bond_data isf (l :: r1 :: r2 :: r3 :: t) = (e, (S m, s, d, i)).
Proof.
  intros E E1 E2 E3 V. assert (V' : verify_bond_data isf (r1 :: r2 :: r3 :: t) = (e, (m, s, d, i))) by (rewrite (row_verified r1 v1), (row_verified r2 v2), (row_verified r3 v3) by assumption; exact V).
  assert (K : verify_keyword_block isf "m" [l; r1; r2; r3] [[0]; [3]; [3]; [3]]%nat = false).
  { unfold verify_keyword_block. cbn [List.length Nat.eqb negb orb verify_number_lines]. rewrite !py_split_lower, E, E1, E2, E3. cbn [map word0 hd tl].
    rewrite !verify_words by (auto; left; reflexivity). reflexivity. }
  remember (r1 :: r2 :: r3 :: t) as rest. cbn [verify_bond_data]. rewrite V', py_split_lower, E. subst rest. cbn [firstn]. rewrite K. reflexivity.
Qed.
Definition one_if (b : bool) : nat := if b then 1%nat else 0%nat.
Lemma data_verified fl m lines : map py_split lines = w_data P fl m ->
  verify_bond_data isf lines = (false, (one_if (fl_matrix fl), one_if (fl_symm fl), one_if (fl_dmi fl), one_if (fl_iso fl))).
Proof.
  unfold w_data. intros E. apply map_eq_app in E. destruct E as (li & r & -> & Ei & E). apply map_eq_app in E. destruct E as (ld & r' & -> & Ed & E).
  apply map_eq_app in E. destruct E as (ls & lm & -> & Es & Em).
  assert (Vm : verify_bond_data isf lm = (false, (one_if (fl_matrix fl), 0, 0, 0)%nat)).
  { destruct (fl_matrix fl); [|apply map_eq_nil in Em; subst; reflexivity]. invmap Em.
    apply (matrix_verified _ _ _ _ (row1 m) (row2 m) (row3 m) []); auto. }
  assert (Vs : verify_bond_data isf (ls ++ lm) = (false, (one_if (fl_matrix fl), one_if (fl_symm fl), 0, 0)%nat)).
  { destruct (fl_symm fl); [|apply map_eq_nil in Es; subst; exact Vm]. cbv zeta in Es. invmap Es. cbn [app].
    eapply symm_verified; [eassumption| |reflexivity|exact Vm]. repeat constructor; apply fixed_number. }
  assert (Vd : verify_bond_data isf (ld ++ ls ++ lm) = (false, (one_if (fl_matrix fl), one_if (fl_symm fl), one_if (fl_dmi fl), 0)%nat)).
  { destruct (fl_dmi fl); [|apply map_eq_nil in Ed; subst; exact Vs]. invmap Ed. cbn [app]. eapply dmi_verified; [eassumption|exact Vs]. }
  destruct (fl_iso fl); [|apply map_eq_nil in Ei; subst; exact Vd]. invmap Ei. cbn [app]. eapply iso_verified; [eassumption|apply fixed_number|exact Vd].
Qed.
Lemma bond_verified fl k m s allowed : something_written fl -> map py_split s = w_bond P fl k m ->
  good_name (a_name (b_from k)) -> good_name (a_name (b_to k)) -> In (a_name (b_from k)) allowed -> In (a_name (b_to k)) allowed ->
  verify_bond isf (isint X) allowed s = false.
Proof.
  intros W E G1 G2 I1 I2. unfold w_bond in E. destruct s as [|h lines]; [discriminate|]. cbn [map] in E. injection E as E0 E.
  unfold verify_bond. cbn [hd tl]. rewrite (data_verified fl m lines E), E0. unfold w_bond_header. destruct (b_cell k) as [[i j] l].
  rewrite (name_verified _ G1), (name_verified _ G2), !int_integer. apply mem_str_In in I1, I2. rewrite I1, I2.
  destruct W as [W|[W|[W|W]]], (fl_matrix fl), (fl_symm fl), (fl_dmi fl), (fl_iso fl); try discriminate W; reflexivity.
Qed.

Definition written (w : world) : list (bkey * loc) := filter (fun p => negb (self_bond (fst p))) (h_exch (w_ham w)).
Definition bond_words (fl : flags) (w : world) : list (list (list string)) := map (fun p => w_bond P fl (fst p) (matrix_of w (snd p))) (written w).
Lemma exchange_words fl w : w_exchange P fl w = (["Exchange"; "milli-electron-Volt"] :: sub_words :: flat_map (fun b => b ++ [sub_words]) (bond_words fl w))%list.
Proof.
  unfold w_exchange, bond_words, written. do 2 f_equal. induction (h_exch (w_ham w)) as [|p l IH]; [reflexivity|]. cbn [flat_map filter].
  destruct (self_bond (fst p)); cbn [negb map flat_map]; rewrite IH; reflexivity.
Qed.
Lemma led4 x ws : led (w4 x :: ws).
Proof. apply plain_solid, (pn_plain _ _ _ HP). Qed.
Lemma led8 x ws : led (w8 x :: ws).
Proof. apply plain_solid, (pn_plain _ _ _ HP). Qed.
Lemma data_led fl m : Forall led (w_data P fl m).
Proof.
  unfold w_data. rewrite !Forall_app. repeat split.
  - destruct (fl_iso fl); repeat constructor; discriminate.
  - destruct (fl_dmi fl); repeat constructor; discriminate.
  - destruct (fl_symm fl); repeat constructor; discriminate.
  - destruct (fl_matrix fl); [|constructor]. constructor; [split; [discriminate|left; discriminate]|]. repeat (constructor; [apply led4|]). constructor.
Qed.
Definition good_bonds (w : world) : Prop := forall k, In k (bonds w) -> good_name (a_name (b_from k)) /\ good_name (a_name (b_to k)).
Lemma written_bond (w : world) p : In p (written w) -> In (fst p) (bonds w) /\ In p (h_exch (w_ham w)) /\ self_bond (fst p) = false.
Proof. intros H. apply filter_In in H. destruct H as [I S]. apply negb_true_iff in S. split; [apply in_map; exact I|auto]. Qed.
Lemma bonds_led fl w : good_bonds w -> Forall (fun b => b <> [] /\ Forall led b) (bond_words fl w).
Proof.
  intros G. unfold bond_words. rewrite Forall_map, Forall_forall. intros p I. destruct (written_bond w p I) as (Ik & _). destruct (G _ Ik) as [G1 _].
  split; [discriminate|]. unfold w_bond. constructor; [|apply data_led]. unfold w_bond_header. destruct (b_cell (fst p)) as [[i j] l]. apply good_solid, G1.
Qed.
Lemma exchange_runs_of fl w s : good_bonds w -> Forall clean s -> map py_split s = w_exchange P fl w ->
  exists hdr lines, s = hdr :: lines /\ py_split hdr = ["Exchange"; "milli-electron-Volt"]
    /\ map (map py_split) (split_runs is_subsep lines) = bond_words fl w /\ Forall (Forall clean) (split_runs is_subsep lines) /\ existsb short_dash lines = false.
Proof.
  intros G C E. rewrite exchange_words in E. destruct s as [|hdr [|l lines]]; try discriminate. cbn [map] in E. injection E as E0 E1 E.
  inversion C as [|? ? _ C']; subst. inversion C' as [|? ? Cl Cls]; subst. exists hdr, (l :: lines). split; [reflexivity|]. split; [exact E0|].
  assert (l = SUBSEPARATOR) by (apply sub_line; [apply Cl|exact E1]). subst l. rewrite split_runs_sep by exact sub_is_sub.
  destruct (blocks_words _ (bonds_led fl w G) lines Cls E) as (A & B & D). repeat split; [exact A|exact B|]. cbn [existsb]. rewrite sub_not_short, D. reflexivity.
Qed.
Lemma exchange_verified fl w s allowed : something_written fl -> good_bonds w -> (forall k, In k (bonds w) -> In (a_name (b_from k)) allowed /\ In (a_name (b_to k)) allowed) ->
  written w <> [] -> Forall clean s -> map py_split s = w_exchange P fl w -> verify_exchange isf (isint X) allowed s = false.
Proof.
  intros W G A N C E. destruct (exchange_runs_of fl w s G C E) as (hdr & lines & -> & E0 & R & Cr & Sd). unfold verify_exchange, exchange_blocks. cbn [hd tl].
  rewrite (blocks_kept _ _ R (bonds_led fl w G) Cr), (header_words hdr _ _ TxtVerify.energy_units E0), Sd by reflexivity. cbn [orb].
  assert (Nr : split_runs is_subsep lines <> []) by (intros Q; rewrite Q in R; unfold bond_words in R; symmetry in R; apply map_eq_nil in R; contradiction).
  replace (negb (TxtVerify.nonempty (split_runs is_subsep lines))) with false by (destruct (split_runs is_subsep lines); [congruence|reflexivity]). cbn [orb].
  destruct (existsb (verify_bond isf (isint X) allowed) _) eqn:Q; [|reflexivity]. exfalso. apply existsb_exists in Q. destruct Q as (b & Ib & Vb).
  assert (Ib' : In (map py_split b) (bond_words fl w)) by (rewrite <- R; apply in_map; exact Ib). unfold bond_words in Ib'. apply in_map_iff in Ib'.
  destruct Ib' as (p & Ep & Ip). destruct (written_bond w p Ip) as (Ik & _). destruct (G _ Ik), (A _ Ik).
  rewrite (bond_verified fl (fst p) (matrix_of w (snd p)) b allowed) in Vb; auto. discriminate.
Qed.

(** *** On-site parameters *)
Definition w_sites (w : world) (l : list (atom * loc)) : list (list string) :=
  flat_map (fun p => let m := matrix_of w (snd p) in
     [[a_name (fst p)]; [w4 (mxx m); w4 (myy m); w4 (mzz m); w4 (mxy m); w4 (mxz m); w4 (myz m)]; sub_words]) l.
Lemma sites_verified w allowed l : Forall (fun p => good_name (a_name (fst p)) /\ In (a_name (fst p)) allowed) l -> forall lines, Forall clean lines ->
  map py_split lines = w_sites w l -> verify_on_site_lines isf allowed false lines = (false, List.length l).
Proof.
  induction 1 as [|p l [G I] _ IH]; intros lines C E.
  - apply map_eq_nil in E. subst. reflexivity.
  - unfold w_sites in E. cbn [flat_map app] in E. cbv zeta in E. destruct lines as [|l1 [|l2 [|l3 lines]]]; try discriminate. cbn [map] in E. injection E as E1 E2 E3 E.
    inversion C as [|? ? C1 C']; subst. inversion C' as [|? ? C2 C'']; subst. inversion C'' as [|? ? C3 C4]; subst. clear C C' C''.
    specialize (IH lines C4 E). assert (l3 = SUBSEPARATOR) by (apply sub_line; [apply C3|exact E3]). subst l3.
    destruct (led_line l1 C1) as [S1 S2]; [rewrite E1; apply good_solid, G|]. cbn [verify_on_site_lines]. rewrite S1, S2, sub_not_short, sub_is_sub, IH, E1.
    cbn [List.length Nat.eqb negb word0 hd orb]. rewrite (name_verified _ G). apply mem_str_In in I. rewrite I.
    rewrite (block_words l2 _ [6%nat] E2); [reflexivity|repeat constructor; apply fixed_number|left; reflexivity].
Qed.
Lemma on_site_verified w s allowed : (forall a, In a (sites w) -> good_name (a_name a) /\ In (a_name a) allowed) -> h_ons (w_ham w) <> [] ->
  Forall clean s -> map py_split s = w_on_site P w -> verify_on_site isf allowed s = false.
Proof.
  intros A N C E. unfold w_on_site in E. destruct s as [|hdr [|l lines]]; try discriminate. cbn [map] in E. injection E as E0 E1 E.
  inversion C as [|? ? _ C']; subst. inversion C' as [|? ? Cl Cls]; subst. assert (l = SUBSEPARATOR) by (apply sub_line; [apply Cl|exact E1]). subst l.
  unfold verify_on_site. cbn [hd tl verify_on_site_lines]. rewrite sub_not_short, sub_is_sub, (sites_verified w allowed (h_ons (w_ham w))), (header_words hdr _ _ TxtVerify.energy_units E0) by
    (try reflexivity; try assumption; rewrite Forall_forall; intros p I; apply A; apply in_map; exact I).
  destruct (h_ons (w_ham w)); [congruence|reflexivity].
Qed.
End Verify.
