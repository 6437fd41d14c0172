(** Dumping into a file and loading from it. *)
From Coq Require Import String Ascii List Bool ZArith Arith Lia Permutation Sorting.Sorted.
From Verif.Base Require Import Scalar Linear3 PyDict PyString PyText.
From Verif.Model Require Import MatrixParam Hamiltonian TxtVerify TxtRead Hdf5.
From Verif.Spec Require Import HamSpec TxtFormat Hdf5Spec.
From Verif.Proofs Require Import DictProofs HamBasics HamDouble Hdf5Files Hdf5Write Hdf5Read Hdf5Proofs Hdf5Order.
Import ListNotations.
Notation atoms_of := Hdf5Spec.atoms_of.

Section Dump.
Context {F : Type} {SF : Scalar F}.
Variable X : externals F.
Notation node := (@node F).
Notation site := (@site F).
Notation kids_t := (@kids_t F).
Notation spinham := (@spinham F).

Lemma dump_cases (s : spinham) p ov (file file' : node) o : dump s p ov file = (file', o) ->
  (create p (filled (write_spinham s)) file = Some file' /\ o = outcome (write_spinham s))
  \/ (create p (filled (write_spinham s)) file = None /\ ov = false /\ file' = file /\ o = Raise FileExistsError)
  \/ (create p (filled (write_spinham s)) file = None /\ ov = true /\ remove p file = None /\ file' = file /\ o = Raise KeyError)
  \/ (create p (filled (write_spinham s)) file = None /\ ov = true /\ exists file1, remove p file = Some file1
        /\ create p (filled (write_spinham s)) file1 = Some file' /\ o = outcome (write_spinham s)).
Proof.
  unfold dump, filled, outcome. destruct (write_spinham s ([], [])) as [[ga gk] oc]. cbn [fst snd]. intros H.
  destruct (create p (Grp ga gk) file) as [f1|] eqn:C; [injection H as <- <-; left; auto|]. destruct ov; [|injection H as <- <-; right; left; auto].
  destruct (remove p file) as [f1|] eqn:R; [|injection H as <- <-; right; right; left; auto].
  destruct (create_after_remove p (Grp ga gk) file f1 R) as [f2 E2]. rewrite E2 in H. injection H as <- <-. right. right. right. split; [reflexivity|]. split; [reflexivity|]. exists f1. auto.
Qed.
Lemma dump_written (s : spinham) p ov (file file' : node) : dump s p ov file = (file', Ret tt) ->
  complete s /\ exists L, listing_ok s L /\ lookup file' p = Some (written s L).
Proof.
  intros H. assert (K : outcome (write_spinham s) = Ret tt /\ lookup file' p = Some (filled (write_spinham s))).
  { apply dump_cases in H. destruct H as [(C & E)|[(C & _ & _ & E)|[(C & _ & _ & _ & E)|(C & _ & f1 & R & C1 & E)]]]; try discriminate E.
    - split; [auto|]. apply (create_lookup _ _ _ _ C).
    - split; [auto|]. apply (create_lookup _ _ _ _ C1). }
  destruct K as [E K]. destruct (write_cases s) as [(C & L & LO & EL & _)|(_ & e & ka & E' & _)]; [|congruence].
  split; [exact C|]. exists L. split; [exact LO|]. rewrite K, EL. reflexivity.
Qed.
Lemma round_trip (s : spinham) p ov (file file' : node) :
  units_defined X -> one_object s -> well_named s -> unit_axis X s -> dump s p ov file = (file', Ret tt) ->
  exists s', load X (Some p) file' = Ret s' /\ restored X s s'
    /\ in_word_order (map facts (sh_sites s)) (map facts (sh_sites s')) /\ numbered_from_one (sh_sites s').
Proof.
  intros U O W A D. destruct (dump_written _ _ _ _ _ D) as (C & L & LO & EL).
  destruct (load_written X s L U O W A C LO) as (s' & E & R & Es). exists s'. split; [|split; [exact R|]].
  - unfold load. cbn [obind]. rewrite EL. cbn [of_option obind]. exact E.
  - rewrite Es, renumber_facts. destruct LO as (WO & _). split; [apply in_word_order_map, WO|].
    unfold numbered_from_one. rewrite renumber_index, renumber_length. reflexivity.
Qed.
Lemma numbered_facts (l l' : list site) : map facts l = map facts l' -> numbered_from_one l -> numbered_from_one l' -> l = l'.
Proof.
  unfold numbered_from_one. generalize 1. revert l'. induction l as [|[[n i] p v g q] l IH]; intros [|[[n' i'] p' v' g' q'] l'] k H1 H2 H3; cbn in *; try discriminate; [reflexivity|].
  injection H1 as E1 E2 E3 E4 E5 H1. unfold name_of in E1. cbn in E1. injection H2 as E6 H2. injection H3 as E7 H3. subst. f_equal. eapply IH; eauto.
Qed.
Lemma small_order (s s' : spinham) : List.length (sh_sites s) <= 9 -> in_word_order (map facts (sh_sites s)) (map facts (sh_sites s')) ->
  map facts (sh_sites s') = map facts (sh_sites s).
Proof.
  intros H W. apply (in_word_order_unique (map facts (sh_sites s))); [exact W|]. apply in_word_order_small. rewrite map_length. exact H.
Qed.
Lemma large_order (s s' : spinham) : 10 <= List.length (sh_sites s) -> NoDup (map name_of (sh_sites s)) ->
  in_word_order (map facts (sh_sites s)) (map facts (sh_sites s')) ->
  nth_error (map facts (sh_sites s')) 1 = nth_error (map facts (sh_sites s)) 9 /\ map facts (sh_sites s') <> map facts (sh_sites s).
Proof.
  intros H N W. assert (E : nth_error (map facts (sh_sites s')) 1 = nth_error (map facts (sh_sites s)) 9).
  { apply in_word_order_second; [rewrite map_length; exact H|exact W]. }
  split; [exact E|]. intros K. rewrite K in E.
  assert (E' : nth_error (map name_of (sh_sites s)) 1 = nth_error (map name_of (sh_sites s)) 9).
  { assert (M : map name_of (sh_sites s) = map (fun f : string * V3 F * option (V3 F) * option F * option F => fst (fst (fst (fst f)))) (map facts (sh_sites s))) by (rewrite map_map; reflexivity).
    rewrite M, (nth_error_map _ 1 (map facts (sh_sites s))), (nth_error_map _ 9 (map facts (sh_sites s))), E. reflexivity. }
  rewrite NoDup_nth_error in N. specialize (N 1 9). rewrite map_length in N. specialize (N ltac:(lia) E'). discriminate.
Qed.

(** ** When it succeeds *)
Lemma create_total p : forall (new n : node), creatable n p -> exists n', create p new n = Some n'.
Proof.
  induction p as [|x p IH]; intros new n (H1 & H2 & H3); [congruence|]. cbn in *. destruct n as [d a|a l]; [exfalso; exact (H3 [] (x :: p) d a eq_refl eq_refl)|].
  destruct (dget l x) as [m|] eqn:E; [|eauto]. destruct p as [|y p]; [discriminate H2|]. destruct (IH new m) as [m' ->]; [|eauto].
  split; [discriminate|]. split; [exact H2|]. intros q r d b Eq. pose proof (H3 (x :: q) r d b) as K. cbn in K. rewrite E in K. apply K. rewrite Eq. reflexivity.
Qed.
Lemma creatable_of p : forall (new n n' : node), create p new n = Some n' -> creatable n p.
Proof.
  induction p as [|x p IH]; intros new n n' H; [discriminate|]. split; [discriminate|]. split; [apply (create_lookup _ _ _ _ H)|].
  intros q r d a E K. cbn in H. destruct n as [|b l]; [discriminate|]. destruct q as [|y q]; [discriminate K|]. injection E as -> E. cbn in K.
  destruct (dget l y) as [m|]; [|discriminate]. destruct (create p new m) eqn:C; [|discriminate]. destruct (IH _ _ _ C) as (_ & _ & Z). exact (Z q r d a E K).
Qed.
Lemma complete_outcome (s : spinham) : outcome (write_spinham s) = Ret tt <-> complete s.
Proof.
  destruct (write_cases s) as [(C & L & _ & _ & E)|(C & e & ka & E & _)]; split; intros; auto; try congruence; contradiction.
Qed.
Lemma dump_fresh (s : spinham) p ov (file : node) : creatable file p ->
  exists file', dump s p ov file = (file', outcome (write_spinham s)) /\ create p (filled (write_spinham s)) file = Some file'.
Proof.
  intros H. destruct (create_total p (filled (write_spinham s)) file H) as [f C]. exists f. split; [|exact C].
  revert C. unfold dump, filled, outcome. destruct (write_spinham s ([], [])) as [[ga gk] oc]. cbn [fst snd]. intros ->. reflexivity.
Qed.
Lemma dump_over (s : spinham) p (file : node) : p <> [] -> holds file p ->
  exists file' file1, dump s p true file = (file', outcome (write_spinham s)) /\ remove p file = Some file1 /\ create p (filled (write_spinham s)) file1 = Some file'.
Proof.
  intros Hp Hh. unfold holds in Hh. destruct (lookup file p) as [m|] eqn:E; [|congruence].
  destruct (remove_total p file m Hp E) as [f1 R]. destruct (create_after_remove p (filled (write_spinham s)) file f1 R) as [f2 C].
  pose proof (create_holds p (filled (write_spinham s)) file Hp) as K. unfold holds in K. rewrite E in K. specialize (K ltac:(discriminate)).
  exists f2, f1. split; [|split; assumption]. revert C K. unfold dump, filled, outcome. destruct (write_spinham s ([], [])) as [[ga gk] oc]. cbn [fst snd]. intros C ->. rewrite R, C. reflexivity.
Qed.
Lemma dump_elsewhere (s : spinham) p ov (file file' : node) o q : dump s p ov file = (file', o) -> apart p q -> lookup file' q = lookup file q.
Proof.
  intros H A. apply dump_cases in H. destruct H as [(C & E)|[(C & _ & -> & E)|[(C & _ & _ & -> & E)|(C & _ & f1 & R & C1 & E)]]]; auto.
  - eapply create_apart; eauto.
  - rewrite (create_apart _ _ _ _ _ C1 A). eapply remove_apart; eauto.
Qed.
Lemma dump_existing (s : spinham) p (file : node) : p <> [] -> holds file p -> dump s p false file = (file, Raise FileExistsError).
Proof.
  intros Hp Hh. pose proof (create_holds p (filled (write_spinham s)) file Hp Hh) as K. revert K. unfold dump, filled.
  destruct (write_spinham s ([], [])) as [[ga gk] oc]. cbn [fst snd]. intros ->. reflexivity.
Qed.

(** ** What is left when it fails *)
Lemma partial_group (s : spinham) : ~ complete s -> forall s', load_group X (filled (write_spinham s)) = Ret s' -> no_parameters s'.
Proof.
  intros NC s' H. destruct (write_cases s) as [(C & _)|(_ & e & ka & _ & [((n & x & I & B) & E)|(nn & E)])]; [contradiction| |]; rewrite E in H.
  - exfalso. unfold load_group in H. destruct (load_cell X _); [|discriminate]. cbn [obind kid] in H. cbn [of_option dget members obind] in H.
    destruct (load_atoms_bad ka 0 n x I B) as [e' Ee]. change (obind (load_atoms 0 ka) (fun sites => obind (run_out (load_notation (Grp type_attrs [("atoms", Grp [] ka); ("cell", cell_node (sh_cell s))]%string)) (crystal X sites)) (fun w1 =>
      obind (run_out (load_exchange X (Grp type_attrs [("atoms", Grp [] ka); ("cell", cell_node (sh_cell s))]%string)) w1) (fun w2 =>
      obind (run_out (load_on_site X (Grp type_attrs [("atoms", Grp [] ka); ("cell", cell_node (sh_cell s))]%string)) w2) (fun w3 =>
      obind (load_spiral X a (Grp type_attrs [("atoms", Grp [] ka); ("cell", cell_node (sh_cell s))]%string)) (fun spiral =>
      obind (load_cone X a (Grp type_attrs [("atoms", Grp [] ka); ("cell", cell_node (sh_cell s))]%string)) (fun cone => Ret (mkSH a sites w3 spiral cone))))))) = Ret s') in H.
    rewrite Ee in H. discriminate H.
  - unfold load_group in H. destruct (load_cell X _); [|discriminate]. cbn [obind kid] in H.
    change (obind (load_atoms 0 ka) (fun sites => Ret (mkSH a sites (crystal X sites) None None)) = Ret s') in H.
    destruct (load_atoms 0 ka) as [l|]; [|discriminate]. cbn [obind] in H. injection H as <-. split; reflexivity.
Qed.
Lemma overwrite_fails (s : spinham) p (file file' : node) e : p <> [] -> holds file p -> dump s p true file = (file', Raise e) ->
  ~ complete s /\ exists n, lookup file' p = Some n /\ forall s', load X (Some p) file' = Ret s' -> no_parameters s'.
Proof.
  intros Hp Hh D. destruct (dump_over s p file Hp Hh) as (f' & f1 & E & R & C). rewrite D in E. injection E as <- Eo.
  assert (NC : ~ complete s) by (intros K; apply complete_outcome in K; congruence).
  split; [exact NC|]. destruct (create_lookup _ _ _ _ C) as [L _]. eexists. split; [exact L|]. intros s' H. unfold load in H. cbn [obind] in H. rewrite L in H. cbn [of_option obind] in H.
  exact (partial_group s NC s' H).
Qed.

(** ** As stated *)
Lemma value_atoms (w : @world F) k J : wf w -> bond_value w k = Some J -> In (b_from k) (h_atoms (w_ham w)) /\ In (b_to k) (h_atoms (w_ham w)).
Proof. intros W E. apply W. apply (bond_value_stored w k W). eauto. Qed.
Lemma site_atom (w : @world F) a J : wf w -> onsite_value w a = Some J -> In a (h_atoms (w_ham w)).
Proof. intros W E. apply W. apply (onsite_value_stored w a W). eauto. Qed.
Lemma small_same (s s' : spinham) : one_object s -> restored X s s' -> numbered_from_one (sh_sites s') -> map facts (sh_sites s') = map facts (sh_sites s) -> numbered_from_one (sh_sites s) ->
  sh_sites s' = sh_sites s
  /\ (forall k, bond_value (sh_ham s') k = bond_value (sh_ham s) k) /\ (forall a, onsite_value (sh_ham s') a = onsite_value (sh_ham s) a).
Proof.
  intros O R N' Ef N. assert (Es : sh_sites s' = sh_sites s) by (apply numbered_facts; auto). split; [exact Es|].
  destruct R as (_ & _ & _ & _ & (O1 & O2 & _) & _ & Rb & Ro & _). destruct O as (P1 & P2 & _).
  assert (Ea : atoms_of s' = atoms_of s) by (unfold Hdf5Spec.atoms_of; rewrite Es; reflexivity). rewrite Ea in O1.
  assert (T : forall a, In a (atoms_of s) -> twin s s' a a) by (intros a Ha; unfold twin; rewrite Ea; auto).
  split.
  - intros [a b c]. destruct (bond_value (sh_ham s) (mkB a b c)) as [J|] eqn:E.
    + destruct (value_atoms _ _ _ P2 E) as [Ia Ib]. rewrite P1 in Ia, Ib. rewrite (Rb a a b b c (T a Ia) (T b Ib)). exact E.
    + destruct (bond_value (sh_ham s') (mkB a b c)) as [J|] eqn:E'; [|reflexivity]. exfalso.
      destruct (value_atoms _ _ _ O2 E') as [Ia Ib]. rewrite O1 in Ia, Ib. rewrite (Rb a a b b c (T a Ia) (T b Ib)) in E'. congruence.
  - intros a. destruct (onsite_value (sh_ham s) a) as [J|] eqn:E.
    + pose proof (site_atom _ _ _ P2 E) as Ia. rewrite P1 in Ia. rewrite (Ro a a (T a Ia)). exact E.
    + destruct (onsite_value (sh_ham s') a) as [J|] eqn:E'; [|reflexivity]. exfalso.
      pose proof (site_atom _ _ _ O2 E') as Ia. rewrite O1 in Ia. rewrite (Ro a a (T a Ia)) in E'. congruence.
Qed.
Lemma kept (s : spinham) p ov (file file' : node) :
  units_defined X -> one_object s -> well_named s -> unit_axis X s -> (List.length (sh_sites s) <= 9)%nat -> numbered_from_one (sh_sites s) ->
  dump s p ov file = (file', Ret tt) ->
  exists s', load X (Some p) file' = Ret s' /\ restored X s s' /\ sh_sites s' = sh_sites s
    /\ (forall k, bond_value (sh_ham s') k = bond_value (sh_ham s) k) /\ (forall a, onsite_value (sh_ham s') a = onsite_value (sh_ham s) a).
Proof.
  intros U O W A Hl N D. destruct (round_trip s p ov file file' U O W A D) as (s' & E & R & Wo & N').
  exists s'. split; [exact E|]. split; [exact R|]. apply small_same; auto. apply small_order; assumption.
Qed.
Lemma lost_order (s : spinham) p ov (file file' : node) :
  units_defined X -> one_object s -> well_named s -> unit_axis X s -> (10 <= List.length (sh_sites s))%nat ->
  dump s p ov file = (file', Ret tt) ->
  exists s', load X (Some p) file' = Ret s' /\ restored X s s'
    /\ nth_error (map facts (sh_sites s')) 1 = nth_error (map facts (sh_sites s)) 9 /\ map facts (sh_sites s') <> map facts (sh_sites s).
Proof.
  intros U O W A Hl D. destruct (round_trip s p ov file file' U O W A D) as (s' & E & R & Wo & N').
  exists s'. split; [exact E|]. split; [exact R|]. apply large_order; auto. apply W.
Qed.
Lemma succeeds (s : spinham) p ov (file : node) : creatable file p \/ (p <> [] /\ holds file p /\ ov = true) ->
  (complete s <-> exists file', dump s p ov file = (file', Ret tt)).
Proof.
  intros H. rewrite <- complete_outcome. destruct H as [H|(Hp & Hh & ->)].
  - destruct (dump_fresh s p ov file H) as (f & E & _). split; [intros K; exists f; congruence|intros (f' & K); congruence].
  - destruct (dump_over s p file Hp Hh) as (f & f1 & E & _). split; [intros K; exists f; congruence|intros (f' & K); congruence].
Qed.
Lemma overwrite_complete (s : spinham) p (file : node) : p <> [] -> holds file p -> complete s -> exists file', dump s p true file = (file', Ret tt).
Proof. intros Hp Hh C. apply (succeeds s p true file); auto. Qed.
End Dump.
