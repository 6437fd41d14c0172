(** Finding the group of a Hamiltonian by its type. *)
From Coq Require Import String Ascii List Bool ZArith Arith Lia Permutation Sorting.Sorted.
From Verif.Base Require Import Scalar Linear3 PyDict PyString PyText.
From Verif.Model Require Import MatrixParam Hamiltonian TxtVerify TxtRead Hdf5.
From Verif.Spec Require Import HamSpec TxtFormat Hdf5Spec.
From Verif.Proofs Require Import DictProofs HamBasics Hdf5Files Hdf5Write Hdf5Read Hdf5Proofs Hdf5Order Hdf5Dump.
Import ListNotations.

Section Detect.
Context {F : Type} {SF : Scalar F}.
Variable X : externals F.
Notation node := (@node F).
Notation site := (@site F).
Notation kids_t := (@kids_t F).
Notation spinham := (@spinham F).

Lemma labelled_iff (n : node) : is_spinham n = true <-> labelled n.
Proof.
  unfold is_spinham, labelled. destruct (dget (node_attrs n) "type"%string) as [t|]; [|split; [discriminate|intros (t & E & _); discriminate]].
  rewrite String.eqb_eq. split; [eauto|]. intros (t' & E & H). injection E as ->. exact H.
Qed.
Lemma visit_NoDup : forall n : node, proper n -> NoDup (map fst (visit n)).
Proof.
  apply (node_rect2 (fun n : node => proper n -> NoDup (map fst (visit n)))); [constructor|]. intros a l A P.
  induction A as [|[x m] l Hm A IH]; [constructor|]. pose proof P as P0. apply proper_cons in P. destruct P as (N & Pm & Pl).
  rewrite visit_cons, map_app. cbn [map fst snd] in *. rewrite map_map. cbn [fst].
  assert (Hx : forall q k, In (q, k) (visit (Grp a l)) -> exists y r, q = y :: r /\ y <> x).
  { intros q k Hq. destruct (visit_lookup (Grp a l) Pl q k Hq) as [Hq0 Hq1]. destruct q as [|y q]; [congruence|]. exists y, q. split; [reflexivity|]. intros ->.
    cbn in Hq1. pose proof (proj2 (dget_notin l x) N) as E. rewrite E in Hq1. discriminate. }
  assert (E : map (fun q : list string * node => x :: fst q) (visit m) = map (cons x) (map fst (visit m))) by (rewrite map_map; reflexivity). rewrite E.
  cbn [app]. constructor.
  - intros H. apply in_app_or in H. destruct H as [H|H]; apply in_map_iff in H.
    + destruct H as (q & Eq & H). injection Eq as ->. apply in_map_iff in H. destruct H as ([q k] & Eq & H). cbn in Eq. subst q.
      destruct (visit_lookup m Pm _ _ H) as [K _]. congruence.
    + destruct H as ([q k] & Eq & H). cbn in Eq. subst q. destruct (Hx _ _ H) as (y & r & Ey & Ny). injection Ey as <- _. congruence.
  - specialize (IH Pl).
    assert (Sep : forall q, In q (map (cons x) (map fst (visit m))) -> ~ In q (map fst (visit (Grp a l)))).
    { intros q H1 H2. apply in_map_iff in H1. destruct H1 as (r & <- & _). apply in_map_iff in H2. destruct H2 as ([q k] & Eq & H2). cbn in Eq. subst q.
      destruct (Hx _ _ H2) as (y & r' & Ey & Ny). injection Ey as <- _. congruence. }
    assert (K : NoDup (map (cons x) (map fst (visit m)))) by (apply FinFun.Injective_map_NoDup; [intros ? ? K; congruence|apply Hm, Pm]).
    clear E. induction (map (cons x) (map fst (visit m))) as [|q l1 IHl]; [exact IH|]. inversion K; subst. cbn. constructor.
    + intros H. apply in_app_or in H. destruct H; [contradiction|]. eapply Sep; [left; reflexivity|assumption].
    + apply IHl; [|assumption]. intros q' Hq. apply Sep. right. exact Hq.
Qed.
Lemma detect_unique (file : node) p n : proper file -> p <> [] -> lookup file p = Some n -> labelled n ->
  (forall q m, q <> [] -> q <> p -> lookup file q = Some m -> ~ labelled m) -> detect file = Ret p.
Proof.
  intros P Hp L Lb O. unfold detect. pose proof (visit_NoDup file P) as N. pose proof (visit_In p file n Hp L) as I.
  assert (A : forall q m, In (q, m) (visit file) -> is_spinham m = true -> (q, m) = (p, n)).
  { intros q m Hq Hm. destruct (visit_lookup file P q m Hq) as [Q1 Q2]. apply labelled_iff in Hm. destruct (list_eq_dec String.string_dec q p) as [->|Ne]; [congruence|].
    exfalso. exact (O q m Q1 Ne Q2 Hm). }
  apply labelled_iff in Lb. revert N I A. induction (visit file) as [|[q m] l IH]; intros N I A; [destruct I|]. cbn [filter]. cbn [map fst] in N. inversion N as [|? ? N1 N2]; subst.
  cbn [snd]. destruct (is_spinham m) eqn:E.
  - pose proof (A q m (or_introl eq_refl) E) as K. injection K as -> ->.
    assert (Z : filter (fun p0 : list string * node => is_spinham (snd p0)) l = []).
    { destruct (filter (fun p0 : list string * node => is_spinham (snd p0)) l) as [|[q' m'] t] eqn:Fl; [reflexivity|]. exfalso.
      assert (Iq : In (q', m') (filter (fun p0 : list string * node => is_spinham (snd p0)) l)) by (rewrite Fl; left; reflexivity).
      apply filter_In in Iq. destruct Iq as [Iq1 Iq2]. pose proof (A q' m' (or_intror Iq1) Iq2) as K. injection K as -> ->.
      apply N1. apply in_map_iff. exists (p, n). auto. }
    rewrite Z. reflexivity.
  - destruct I as [I|I]; [injection I as -> ->; congruence|]. apply IH; auto. intros q' m' H. apply A. right. exact H.
Qed.
Lemma detect_two (file : node) p q n m : p <> [] -> q <> [] -> p <> q -> lookup file p = Some n -> lookup file q = Some m -> labelled n -> labelled m ->
  detect file = Raise RuntimeError.
Proof.
  intros Hp Hq Ne Lp Lq Ln Lm. apply labelled_iff in Ln, Lm. unfold detect.
  assert (I1 : In (p, n) (filter (fun p0 : list string * node => is_spinham (snd p0)) (visit file))) by (apply filter_In; split; [apply visit_In; assumption|exact Ln]).
  assert (I2 : In (q, m) (filter (fun p0 : list string * node => is_spinham (snd p0)) (visit file))) by (apply filter_In; split; [apply visit_In; assumption|exact Lm]).
  destruct (filter _ (visit file)) as [|x [|y t]]; [destruct I1| |reflexivity]. destruct I1 as [I1|[]]. destruct I2 as [I2|[]]. congruence.
Qed.
Lemma detect_none (file : node) : proper file -> no_spinham file -> detect file = Raise RuntimeError.
Proof.
  intros P N. unfold detect. destruct (filter (fun p0 : list string * node => is_spinham (snd p0)) (visit file)) as [|[q m] t] eqn:E; [reflexivity|]. exfalso.
  assert (I : In (q, m) (filter (fun p0 : list string * node => is_spinham (snd p0)) (visit file))) by (rewrite E; left; reflexivity).
  apply filter_In in I. destruct I as [I1 I2]. apply labelled_iff in I2. destruct (visit_lookup file P q m I1) as [Q1 Q2]. exact (N q m Q1 Q2 I2).
Qed.

(** ** Inside a written group nothing else is labelled *)
Definition plain (n : node) : Prop := forall r m, lookup n r = Some m -> dget (node_attrs m) "type"%string = None.
Lemma plain_grp a l : dget a "type"%string = None -> Forall (fun p : string * node => plain (snd p)) l -> plain (Grp a l).
Proof.
  intros Ha Hl [|x r] m H; [cbn in H; injection H as <-; exact Ha|]. cbn in H. destruct (dget l x) as [k|] eqn:E; [|discriminate].
  rewrite Forall_forall in Hl. apply (Hl (x, k)) with (r := r); [|exact H]. clear - E. induction l as [|[y m] l IH]; [discriminate|]. cbn in E.
  destruct (eq_dec x y) as [->|]; [injection E as ->; left; reflexivity|right; auto].
Qed.
Lemma plain_dset d a : dget a "type"%string = None -> plain (Dset d a).
Proof. intros H [|x r] m K; cbn in K; [injection K as <-; exact H|discriminate]. Qed.
Lemma proper_grp a l : NoDup (map fst l) -> Forall (fun p : string * node => proper (snd p)) l -> proper (Grp a l).
Proof. intros N H. split; [exact N|]. induction H as [|[x m] l Hm H IH]; [exact I|]. cbn in N. inversion N; subst. split; [exact Hm|]. apply IH. assumption. Qed.
Lemma sorted_nodup {A} (l : list (string * A)) : StronglySorted word_order l -> NoDup (map fst l).
Proof.
  induction 1 as [|x l S IH H]; [constructor|]. cbn. constructor; [|exact IH]. intros K. apply in_map_iff in K. destruct K as (y & E & K).
  rewrite Forall_forall in H. pose proof (H y K) as Z. unfold word_order in Z. rewrite E in Z. exact (cmp_irrefl _ Z).
Qed.
Lemma numbered_group {A} a (b : A -> @G F unit) (l : list (string * A)) : StronglySorted word_order l -> dget a "type"%string = None ->
  (forall x, plain (filled (b x)) /\ proper (filled (b x))) -> plain (Grp a (map (fun p => (fst p, filled (b (snd p)))) l)) /\ proper (Grp a (map (fun p => (fst p, filled (b (snd p)))) l)).
Proof.
  intros S Ha H. split.
  - apply plain_grp; [exact Ha|]. rewrite Forall_map. apply Forall_forall. intros x _. apply H.
  - apply proper_grp; [rewrite map_map; apply sorted_nodup, S|]. rewrite Forall_map. apply Forall_forall. intros x _. apply H.
Qed.
Ltac plain_all := repeat match goal with
  | |- Forall _ [] => constructor
  | |- Forall _ (_ :: _) => constructor
  | |- plain _ => apply plain_dset; reflexivity
  | |- NoDup _ => constructor
  | |- ~ _ => let H := fresh in cbn; intros H; repeat (destruct H as [H|H]; [discriminate H|]); exact H
  | |- proper _ => exact I
  | _ => progress cbn [snd map fst]
  end.
Lemma atom_plain (x : site) : plain (filled (atom_body x)) /\ proper (filled (atom_body x)).
Proof.
  destruct x as [a p [v|] [g|] [q|]]; (split; [apply plain_grp; [reflexivity|]|apply proper_grp]); cbv - [plain proper]; plain_all.
Qed.
Lemma bond_plain w p : plain (filled (@bond_body F SF w p)) /\ proper (filled (@bond_body F SF w p)).
Proof. destruct p as [[a b [[i j] k]] l]. split; [apply plain_grp; [reflexivity|]|apply proper_grp]; cbv - [plain proper nth]; plain_all. Qed.
Lemma on_site_plain w p : plain (filled (@on_site_body F SF w p)) /\ proper (filled (@on_site_body F SF w p)).
Proof. destruct p as [a l]. split; [apply plain_grp; [reflexivity|]|apply proper_grp]; cbv - [plain proper nth]; plain_all. Qed.
Lemma notation_plain (h : @ham F) : plain (filled (notation_body h)) /\ proper (filled (notation_body h)).
Proof.
  unfold notation_body. destruct (nonempty (h_exch h)), (nonempty (h_ons h)), (h_sn h) as [sn|], (h_dc h) as [dc|], (h_ef h), (h_of h);
    (split; [apply plain_grp; [reflexivity|]|apply proper_grp]); cbv - [plain proper]; plain_all.
Qed.
Lemma cell_plain m : plain (@cell_node F m) /\ proper (@cell_node F m).
Proof. split; [apply plain_grp; [reflexivity|]|apply proper_grp]; cbv - [plain proper]; plain_all. Qed.
Lemma root_fst (s : spinham) ka ke ko : NoDup (map fst (root_kids s ka ke ko)).
Proof.
  unfold root_kids, opt. destruct (sh_cone s), (nonempty (h_exch (w_ham (sh_ham s)))), (nonempty (h_ons (w_ham (sh_ham s)))), (sh_spiral s); cbn [app map fst orb]; plain_all.
Qed.
Lemma root_all (Q : node -> Prop) (s : spinham) ka ke ko : Q (Grp [] ka) -> Q (Grp energy_attrs ke) -> Q (Grp energy_attrs ko) -> Q (cell_node (sh_cell s)) ->
  Q (filled (notation_body (w_ham (sh_ham s)))) -> (forall d u, Q (Dset d [("units"%string, u)])) -> Forall (fun p => Q (snd p)) (root_kids s ka ke ko).
Proof.
  intros. unfold root_kids, opt. destruct (sh_cone s), (nonempty (h_exch (w_ham (sh_ham s)))), (nonempty (h_ons (w_ham (sh_ham s)))), (sh_spiral s); cbn [app orb];
    repeat (constructor; cbn [snd]; auto).
Qed.
Lemma written_proper (s : spinham) L : listing_ok s L -> proper (written s L).
Proof.
  intros (_ & _ & _ & _ & S1 & S2 & S3). apply proper_grp; [apply root_fst|]. apply root_all.
  - apply numbered_group; [exact S1|reflexivity|apply atom_plain].
  - apply numbered_group; [exact S2|reflexivity|apply bond_plain].
  - apply numbered_group; [exact S3|reflexivity|apply on_site_plain].
  - apply cell_plain.
  - apply notation_plain.
  - intros. exact I.
Qed.
Lemma written_plain (s : spinham) L x r m : listing_ok s L -> lookup (written s L) (x :: r) = Some m -> ~ labelled m.
Proof.
  intros (_ & _ & _ & _ & S1 & S2 & S3) H (t & E & _). cbn [lookup written] in H.
  match type of H with match dget ?l _ with _ => _ end = _ => assert (A : Forall (fun p => plain (snd p)) l) end.
  { apply root_all.
    - apply numbered_group; [exact S1|reflexivity|apply atom_plain].
    - apply numbered_group; [exact S2|reflexivity|apply bond_plain].
    - apply numbered_group; [exact S3|reflexivity|apply on_site_plain].
    - apply cell_plain.
    - apply notation_plain.
    - intros. apply plain_dset. reflexivity. }
  match type of H with match dget ?l _ with _ => _ end = _ => pose proof (plain_grp [] l eq_refl A) as P end.
  specialize (P (x :: r) m H). congruence.
Qed.
Lemma list_cases (p : list string) : forall q, q = p \/ (exists y r, q = (p ++ y :: r)%list) \/ (exists y r, p = (q ++ y :: r)%list) \/ apart p q.
Proof.
  induction p as [|x p IH]; intros [|y q]; [left; reflexivity|right; left; exists y, q; reflexivity|right; right; left; exists x, p; reflexivity|].
  destruct (eq_dec x y) as [->|Ne].
  - destruct (IH q) as [->|[(z & r & ->)|[(z & r & ->)|[A B]]]]; [left; reflexivity|right; left; exists z, r; reflexivity|right; right; left; exists z, r; reflexivity|].
    right. right. right. split; intros r E; injection E as E; [exact (A r E)|exact (B r E)].
  - right. right. right. split; intros r E; injection E as E; congruence.
Qed.
Lemma create_above_strict p : forall q y r (new n n' : node), create p new n = Some n' -> p = (q ++ y :: r)%list -> forall m, lookup n' q = Some m ->
  node_attrs m = [] \/ exists m0, lookup n q = Some m0 /\ node_attrs m = node_attrs m0.
Proof.
  intros q y r new n n' C E m L. destruct (create_above p q (y :: r) new n n' C E ltac:(discriminate)) as (m' & L' & K). rewrite L in L'. injection L' as <-. exact K.
Qed.
(** A dump to a new path of a file without Hamiltonians is found without being told where. *)
Lemma found (s : spinham) p ov (file file' : node) : proper file -> no_spinham file -> creatable file p -> dump s p ov file = (file', Ret tt) ->
  load X None file' = load X (Some p) file'.
Proof.
  intros P N C D. assert (Hp : p <> []) by apply C. destruct (dump_written _ _ _ _ _ D) as (_ & L & LO & EL).
  destruct (dump_fresh s p ov file C) as (f & E & Cr). rewrite D in E. injection E as <- _.
  assert (Ew : filled (write_spinham s) = written s L) by (destruct (create_lookup _ _ _ _ Cr) as [K _]; congruence). rewrite Ew in Cr.
  unfold load. rewrite (detect_unique file' p (written s L)); [reflexivity| |exact Hp|exact EL| |].
  - eapply create_proper; [exact Cr|apply written_proper, LO|exact P].
  - exists "SpinHamiltonian"%string. split; reflexivity.
  - intros q m Hq Ne Lq Lb. destruct (list_cases p q) as [->|[(y & r & ->)|[(y & r & Ep)|A]]].
    + congruence.
    + rewrite lookup_app, EL in Lq. exact (written_plain s L y r m LO Lq Lb).
    + destruct (create_above_strict p q y r _ _ _ Cr Ep m Lq) as [K|(m0 & L0 & K)].
      * destruct Lb as (t & Et & _). rewrite K in Et. discriminate Et.
      * apply (N q m0 Hq L0). unfold labelled in *. rewrite <- K. exact Lb.
    + rewrite (create_apart _ _ _ _ _ Cr A) in Lq. exact (N q m Hq Lq Lb).
Qed.
Lemma load_none (file : node) e : detect file = Raise e -> load X None file = Raise e.
Proof. unfold load. intros ->. reflexivity. Qed.
(** Two dumps into one file: without a path neither can be loaded. *)
Lemma ambiguous (s1 s2 : spinham) p q o1 o2 (f0 f1 f2 : node) : p <> [] -> q <> [] -> apart p q ->
  dump s1 p o1 f0 = (f1, Ret tt) -> dump s2 q o2 f1 = (f2, Ret tt) -> load X None f2 = Raise RuntimeError.
Proof.
  intros Hp Hq A D1 D2. destruct (dump_written _ _ _ _ _ D1) as (_ & L1 & _ & E1). destruct (dump_written _ _ _ _ _ D2) as (_ & L2 & _ & E2).
  apply load_none. apply (detect_two f2 p q (written s1 L1) (written s2 L2)); auto.
  - intros ->. apply (proj1 A []). rewrite app_nil_r. reflexivity.
  - rewrite (dump_elsewhere _ _ _ _ _ _ p D2); [exact E1|]. destruct A; split; auto.
  - exists "SpinHamiltonian"%string. split; reflexivity.
  - exists "SpinHamiltonian"%string. split; reflexivity.
Qed.
End Detect.
