(** What a dumped file contains when it is read. *)
From Coq Require Import String Ascii List Bool ZArith Arith Lia DecimalString.
From Coq Require Import Ring Field Field_theory Ring_theory.
From Verif.Base Require Import Scalar Linear3 PyDict PyString PyText.
From Verif.Spec Require Import HamSpec HistorySpec ParameterSpec TxtSpec TxtFormat Hdf5Spec TxtDumpSpec.
From Verif.Model Require Import MatrixParam Hamiltonian TxtVerify TxtRead Hdf5 TxtDump.
From Verif.Proofs Require Import DictProofs HamBasics HistoryProofs ParameterProofs TextBasics SectionProofs TxtReadProofs TextGlue VerifyProofs LoadProofs FileProofs TotalProofs TextMore DumpText DumpWords DumpVerify DumpLoad.
Import ListNotations.
Local Open Scope string_scope.

Section Read.
Context {F : Type} {SF : Scalar F}.
Add Field F_field : (@f_field F SF).
Variable X : externals F.
Variable P : printer F.
Variable rnd : nat -> F -> F.
Hypothesis HX : sane X.
Hypothesis HP : prints X P rnd.
Notation spinham := (@spinham F).
Notation site := (@site F).
Notation world := (@world F).
Notation isf := (isfloat X).
Notation w8 := (w8 P). Notation w4 := (w4 P). Notation w8v := (w8v P). Notation w4v := (w4v P).

Ltac invmap E := repeat match type of E with
  | map _ ?s = _ :: _ => is_var s; let l := fresh "l" in let s' := fresh "s" in destruct s as [|l s']; [discriminate E|]; cbn [map] in E;
      let E' := fresh "E" in injection E as E' E
  | map _ ?s = [] => apply map_eq_nil in E; subst s
  end.

Lemma read_fixed p x : py_float X (pr_fixed P p x) = Ret (rnd p x).
Proof. unfold py_float. rewrite (pn_fixed _ _ _ HP). reflexivity. Qed.
Lemma numbers_fixed p l : numbers X (map (pr_fixed P p) l) (map (rnd p) l).
Proof. induction l; constructor; [apply (pn_fixed _ _ _ HP)|assumption]. Qed.
Lemma num8 v : numbers X (w8v v) [vx (rv rnd 8 v); vy (rv rnd 8 v); vz (rv rnd 8 v)].
Proof. apply (numbers_fixed 8 [vx v; vy v; vz v]). Qed.
Lemma num4 v : numbers X (w4v v) [vx (rv rnd 4 v); vy (rv rnd 4 v); vz (rv rnd 4 v)].
Proof. apply (numbers_fixed 4 [vx v; vy v; vz v]). Qed.

Lemma cell_read m sec : c_angstrom X <> f0 -> map py_split sec = w_cell P m -> read_cell X sec = Ret (rm rnd 8 m, mkV f1 f1 f1).
Proof.
  intros La E. unfold w_cell in E. invmap E. unfold read_cell. cbn [item nth_error of_option obind List.length Nat.eqb Nat.add]. rewrite E0. cbn [obind].
  change (length_units X (str_lower "Angstrom")) with (Ret (fdiv (c_angstrom X) (LENGTH X))). cbn [obind].
  pose proof (num8 (row1 m)) as N1. pose proof (num8 (row2 m)) as N2. pose proof (num8 (row3 m)) as N3. rewrite <- E1 in N1. rewrite <- E2 in N2. rewrite <- E3 in N3.
  rewrite (read_row_numbers X _ _ _ _ N1), (read_row_numbers X _ _ _ _ N2), (read_row_numbers X _ _ _ _ N3). cbn [obind]. f_equal. f_equal.
  unfold rows, scale_row, vscale, vmap, rm, rv, LENGTH. cbn. f_equal; field; exact La.
Qed.
Lemma atom_read cell scale conv (x : site) v line : st_spin x = Some v -> py_split line = w_atom P x ->
  read_atom X cell scale conv ["name"; "r1"; "r2"; "r3"; "sx"; "sy"; "sz"] line = Ret (mkAD (name_of x) (rv rnd 8 (st_position x)) f0 f2 (rv rnd 4 v)).
Proof.
  intros Ev E. unfold read_atom. rewrite E. unfold w_atom. rewrite Ev. cbn. unfold DumpWords.w8, DumpWords.w4. rewrite !read_fixed. reflexivity.
Qed.
Definition read_site (x : site) : atom_data :=
  mkAD (name_of x) (rv rnd 8 (st_position x)) f0 f2 (match st_spin x with Some v => rv rnd 4 v | None => mkV f0 f0 f0 end).
Lemma atom_lines_read cell scale conv l : Forall (fun x => st_spin x <> None) l -> forall lines, map py_split lines = map (w_atom P) l ->
  read_atom_lines X cell scale conv ["name"; "r1"; "r2"; "r3"; "sx"; "sy"; "sz"] lines = Ret (map read_site l).
Proof.
  induction 1 as [|x l Hx _ IH]; intros lines E; [apply map_eq_nil in E; subst; reflexivity|]. destruct lines as [|ln lines]; [discriminate|]. cbn [map] in E.
  injection E as E1 E2. cbn [read_atom_lines]. destruct (st_spin x) as [v|] eqn:Ev; [|congruence]. rewrite (atom_read _ _ _ x v ln Ev E1). cbn [obind].
  rewrite (IH lines E2). cbn [map obind]. unfold read_site at 2. rewrite Ev. reflexivity.
Qed.
Lemma atoms_read fl l cell scale sec : fl_angles fl = false -> Forall (fun x => st_spin x <> None) l -> map py_split sec = w_atoms P fl l ->
  read_atoms X cell scale sec = Ret (map read_site l).
Proof.
  intros A S E. unfold w_atoms in E. destruct sec as [|a [|b lines]]; try discriminate. cbn [map] in E. injection E as E0 E1 E. unfold w_header in E1. rewrite A in E1.
  unfold read_atoms. cbn [item nth_error of_option obind skipn]. unfold atoms_units. rewrite py_split_lower, E0. cbn [map obind]. rewrite py_split_lower, E1.
  change (map str_lower _) with ["name"; "r1"; "r2"; "r3"; "sx"; "sy"; "sz"]. apply atom_lines_read; assumption.
Qed.
Lemma units_absolute l a : py_split l = [a; "absolute"] -> relative_units l = Ret false.
Proof. intros E. unfold relative_units. rewrite py_split_lower, E. reflexivity. Qed.
Lemma units_relative l a : py_split l = [a; "relative"] -> relative_units l = Ret true.
Proof. intros E. unfold relative_units. rewrite py_split_lower, E. reflexivity. Qed.
Lemma cone_read cell n sec : rv rnd 8 n <> mkV f0 f0 f0 -> map py_split sec = w_cone P n -> read_cone_axis X cell sec = Ret (unit_vector X (rv rnd 8 n)).
Proof.
  intros N E. unfold w_cone in E. invmap E. unfold read_cone_axis. cbn [item nth_error of_option obind]. rewrite (units_absolute l _ E0).
  cbn [obind]. rewrite E1, (py_floats_numbers X _ _ (num8 n)). cbn [obind]. change (mkV (vx (rv rnd 8 n)) (vy (rv rnd 8 n)) (vz (rv rnd 8 n))) with (rv rnd 8 n).
  destruct (feq_dec (x_norm X (rv rnd 8 n)) f0) as [Z|_]; [exfalso; apply N, (sane_norm X HX), Z|]. fold (unit_vector X (rv rnd 8 n)).
  assert (U : x_norm X (unit_vector X (rv rnd 8 n)) = f1) by (apply (pn_unit _ _ _ HP), N). pose proof (sane_unit X HX _ N) as C0. fold (unit_vector X (rv rnd 8 n)) in C0.
  destruct (unit_vector X (rv rnd 8 n)) as [a b c]. unfold vlist, set_cone_axis. cbn [vx vy vz]. rewrite C0, U. destruct (feq_dec f1 f0) as [Z|_]; [destruct (one_neq_0 Z)|].
  unfold vscale, vmap. cbn [vx vy vz]. f_equal. f_equal; field; apply one_neq_0.
Qed.
Lemma spiral_read_ cell q r sec : x_reciprocal X cell = Some r -> map py_split sec = w_spiral P q -> read_spiral_vector X cell sec = Ret (vmat (rv rnd 8 q) r).
Proof.
  intros R E. unfold w_spiral in E. invmap E. unfold read_spiral_vector. cbn [item nth_error of_option obind]. rewrite (units_relative l _ E0). cbn [obind].
  rewrite E1, (py_floats_numbers X _ _ (num8 q)). cbn [obind]. rewrite R. reflexivity.
Qed.

(** ** Bonds *)
Definition data_of (fl : flags) (m : M3 F) : list (@datum F) :=
  ((if fl_iso fl then [DIso (rnd 4 (p_iso m))] else [])
   ++ (if fl_dmi fl then [DDmi (rv rnd 4 (p_dmi m))] else [])
   ++ (if fl_symm fl then [let a := p_aniso m in DSymm (rnd 4 (mxx a)) (rnd 4 (myy a)) (rnd 4 (mxy a)) (rnd 4 (mxz a)) (rnd 4 (myz a))] else [])
   ++ (if fl_matrix fl then [DMatrix (rm rnd 4 m)] else []))%list.
Lemma data_text_read fl m lines : map py_split lines = w_data P fl m -> data_text X lines (data_of fl m).
Proof.
  unfold w_data, data_of. intros E. apply map_eq_app in E. destruct E as (li & r & -> & Ei & E). apply map_eq_app in E. destruct E as (ld & r' & -> & Ed & E).
  apply map_eq_app in E. destruct E as (ls & lm & -> & Es & Em).
  assert (I : forall c k, str_lower k = String c (match str_lower k with String _ t => t | _ => "" end) -> initial c k) by (intros c k H; eexists; exact H).
  assert (Vm : data_text X lm (if fl_matrix fl then [DMatrix (rm rnd 4 m)] else [])).
  { destruct (fl_matrix fl); [|apply map_eq_nil in Em; subst; constructor]. invmap Em.
    eapply (dt_matrix X l "Matrix" l0 l1 l2); [assumption|apply I; reflexivity|rewrite E0; apply num4|rewrite E1; apply num4|rewrite E2; apply num4|constructor]. }
  assert (Vs : data_text X (ls ++ lm) ((if fl_symm fl then [let a := p_aniso m in DSymm (rnd 4 (mxx a)) (rnd 4 (myy a)) (rnd 4 (mxy a)) (rnd 4 (mxz a)) (rnd 4 (myz a))] else []) ++ (if fl_matrix fl then [DMatrix (rm rnd 4 m)] else []))%list).
  { destruct (fl_symm fl); [|apply map_eq_nil in Es; subst; exact Vm]. cbv zeta in Es. invmap Es. cbn [app].
    eapply dt_symm; [eassumption|apply I; reflexivity| |exact Vm]. apply (numbers_fixed 4 [mxx (p_aniso m); myy (p_aniso m); mxy (p_aniso m); mxz (p_aniso m); myz (p_aniso m)]). }
  match type of Vs with data_text _ _ ?d => assert (Vd : data_text X (ld ++ ls ++ lm) ((if fl_dmi fl then [DDmi (rv rnd 4 (p_dmi m))] else []) ++ d)%list) end.
  { destruct (fl_dmi fl); [|apply map_eq_nil in Ed; subst; exact Vs]. invmap Ed. cbn [app]. eapply dt_dmi; [eassumption|apply I; reflexivity|apply num4|exact Vs]. }
  destruct (fl_iso fl); [|apply map_eq_nil in Ei; subst; exact Vd]. invmap Ei. cbn [app]. eapply dt_iso; [eassumption|apply I; reflexivity|apply (pn_fixed _ _ _ HP)|exact Vd].
Qed.
Definition bond_of (fl : flags) (w : world) (p : bkey * loc) : @bond F :=
  mkBond (a_name (b_from (fst p))) (a_name (b_to (fst p))) (b_cell (fst p)) (data_of fl (matrix_of w (snd p))).
Lemma bond_text_read fl w p sec : map py_split sec = w_bond P fl (fst p) (matrix_of w (snd p)) -> bond_text X sec (bond_of fl w p).
Proof.
  unfold w_bond. destruct sec as [|hdr data]; [discriminate|]. cbn [map]. intros E. injection E as E0 E. unfold w_bond_header in E0. unfold bond_text, bond_of. cbn [bn_from bn_to bn_cell bn_data].
  destruct (b_cell (fst p)) as [[i j] k]. exists hdr, data, (str_int i), (str_int j), (str_int k), i, j, k. pose proof (pn_int _ _ _ HP) as In_.
  repeat split; auto; try apply In_. apply data_text_read. exact E.
Qed.
Lemma exchange_text_read fl w sec : good_bonds w -> Forall clean sec -> map py_split sec = w_exchange P fl w ->
  exchange_text X (tl sec) (map (bond_of fl w) (written w)).
Proof.
  intros G C E. destruct (exchange_runs_of X P rnd HP fl w sec G C E) as (hdr & lines & -> & _ & R & _ & _). cbn [tl].
  apply (exchange_of_runs X (List.length lines)); [lia|]. unfold bond_words in R. revert R. generalize (split_runs is_subsep lines). induction (written w) as [|p l IH]; intros runs R.
  - apply map_eq_nil in R. subst. constructor.
  - destruct runs as [|r runs]; [discriminate|]. cbn [map] in R. injection R as R1 R2. constructor; [apply bond_text_read, R1|apply IH, R2].
Qed.

(** *** The matrix that the data describe *)
Lemma iso_is m : p_iso m = iso_of m.
Proof. rewrite iso_trace. reflexivity. Qed.
Lemma dmi_is m : p_dmi m = dmi_of m.
Proof. reflexivity. Qed.
Lemma five_is m : (mxx (p_aniso m), myy (p_aniso m), mxy (p_aniso m), mxz (p_aniso m), myz (p_aniso m)) = five_of m.
Proof.
  unfold five_of. rewrite <- iso_is. unfold p_aniso, p_symm, mdivs, mscale, mid, msub, madd, mmap, mmap2, mtrans, f2. destruct m; cbn.
  repeat match goal with |- (_, _) = (_, _) => apply f_equal2 end; field; apply f_two.
Qed.
Lemma described_parts fl m : kept_parts rnd fl m (described (data_of fl m)).
Proof.
  assert (E : described (data_of fl m) = p_init (if fl_matrix fl then Some (rm rnd 4 m) else None) (if fl_iso fl then Some (rnd 4 (p_iso m)) else None)
    (if fl_symm fl then let a := p_aniso m in Some (mkM (rnd 4 (mxx a)) (rnd 4 (mxy a)) (rnd 4 (mxz a)) (rnd 4 (mxy a)) (rnd 4 (myy a)) (rnd 4 (myz a)) (rnd 4 (mxz a)) (rnd 4 (myz a)) (fsub (fopp (rnd 4 (mxx a))) (rnd 4 (myy a)))) else None)
    (if fl_dmi fl then Some (rv rnd 4 (p_dmi m)) else None)).
  { unfold described, data_of. destruct (fl_matrix fl), (fl_iso fl), (fl_symm fl), (fl_dmi fl); reflexivity. }
  rewrite E. clear E. cbv zeta. match goal with |- kept_parts _ _ _ (p_init ?a ?b ?c ?d) => pose proof (init_composed a b c d) as Co end.
  cbv zeta in Co. match type of Co with ?A -> _ => assert (HA : A) end.
  { intros a Ea. destruct (fl_symm fl); [|discriminate]. injection Ea as <-. unfold symmetric, traceless, mtrace. cbn. repeat split. ring. }
  specialize (Co HA). clear HA. match type of Co with composed ?x _ _ _ => revert Co; generalize x end. intros m' Co. apply composed_parts in Co. destruct Co as (C1 & C2 & C3).
  unfold kept_parts. cbv zeta. rewrite <- (five_is m'), <- (iso_is m'), C1, C2. change (dmi_of m') with (p_dmi m'). rewrite C3. clear C1 C2 C3.
  split; [|split].
  - rewrite (iso_is m). destruct (fl_iso fl); [reflexivity|]. destruct (fl_matrix fl); [apply iso_is|]. rewrite <- iso_is. reflexivity.
  - destruct (fl_dmi fl); [reflexivity|]. destruct (fl_matrix fl); reflexivity.
  - destruct (fl_symm fl).
    + unfold five_rounded. rewrite <- five_is. reflexivity.
    + rewrite <- five_is. destruct (fl_matrix fl); reflexivity.
Qed.
End Read.
