(** What the dump writes, and how reading it back goes. *)
From Coq Require Import String Ascii List Bool ZArith Arith Lia Permutation Sorting.Sorted Ring Field Field_theory Ring_theory.
From Verif.Base Require Import Scalar Linear3 PyDict PyString PyText.
From Verif.Model Require Import MatrixParam Hamiltonian TxtVerify TxtRead Hdf5.
From Verif.Spec Require Import HamSpec TxtFormat Hdf5Spec.
From Verif.Proofs Require Import DictProofs HamBasics HamSetters HamDouble HistoryProofs CallProofs TextBasics SectionProofs TxtReadProofs LoadProofs Hdf5Files.
Import ListNotations.

Section Write.
Context {F : Type} {SF : Scalar F}.
Variable X : externals F.
Add Field F_field : (@f_field F SF).
Notation node := (@node F).
Notation kids_t := (@kids_t F).
Notation world := (@world F).
Notation site := (@site F).
Notation spinham := (@spinham F).
Notation G := (@G F).

(** ** Numbered groups *)
Definition filled (b : G unit) : node := Grp (fst (fst (b ([], [])))) (snd (fst (b ([], [])))).
Definition outcome (b : G unit) : out unit := snd (b ([], [])).
Definition labels (i n : nat) : list string := map (fun j => decimal (j + 1)) (seq i n).
Lemma combine_snoc {A B} (l : list A) (l' : list B) a b : List.length l = List.length l' -> combine (l ++ [a]) (l' ++ [b]) = (combine l l' ++ [(a, b)])%list.
Proof. revert l'. induction l as [|x l IH]; intros [|y l'] H; cbn in *; try discriminate; [reflexivity|]. rewrite IH by lia. reflexivity. Qed.

Lemma enum_groups {A} (b : A -> G unit) : forall l i a (k0 : kids_t),
  (forall n m, In (n, m) k0 -> exists j, (j <= i)%nat /\ n = decimal j) -> StronglySorted word_order k0 ->
  exists k o done, enum i l (fun i x => create_group (decimal (i + 1)) (b x)) (a, k0) = ((a, k), o)
    /\ Permutation (k0 ++ combine (labels i (List.length done)) (map (fun x => filled (b x)) done)) k
    /\ StronglySorted word_order k
    /\ ((o = Ret tt /\ done = l /\ Forall (fun x => outcome (b x) = Ret tt) l)
        \/ (exists e pre x post, o = Raise e /\ l = (pre ++ x :: post)%list /\ done = (pre ++ [x])%list /\ outcome (b x) = Raise e)).
Proof.
  induction l as [|x l IH]; intros i a k0 HL HS.
  - exists k0, (Ret tt), []. cbn. rewrite app_nil_r. repeat split; auto. 
  - cbn [enum]. unfold gbind, create_group at 1. cbn [snd fst].
    assert (D : dget k0 (decimal (i + 1)) = None).
    { apply dget_notin. intros H. apply in_map_iff in H. destruct H as ([n m] & E & H). cbn in E. destruct (HL n m H) as (j & Hj & Ej).
      rewrite Ej in E. apply decimal_inj in E. lia. }
    unfold dmem. rewrite D. unfold filled, outcome in *. destruct (b x ([], [])) as [[ga gk] o] eqn:Eb. cbn [fst snd].
    assert (S1 : StronglySorted word_order (insert (decimal (i + 1)) (Grp ga gk) k0)).
    { apply insert_sorted; [exact HS|]. apply dget_notin, D. }
    assert (L1 : forall n m, In (n, m) (insert (decimal (i + 1)) (Grp ga gk) k0) -> exists j, (j <= S i)%nat /\ n = decimal j).
    { intros n m H. apply insert_In in H. destruct H as [H|H]; [injection H as -> _; exists (i + 1)%nat; split; [lia|reflexivity]|].
      destruct (HL n m H) as (j & Hj & E). exists j. split; [lia|exact E]. }
    destruct o as [[]|e].
    + destruct (IH (S i) a _ L1 S1) as (k & o & done & E & P & S' & C). exists k, o, (x :: done). rewrite E. split; [reflexivity|]. split; [|split; [exact S'|]].
      * cbn [List.length labels seq map combine]. rewrite Eb. cbn [fst snd]. eapply Permutation_trans; [|exact P].
        eapply Permutation_trans; [apply Permutation_sym, Permutation_middle|]. apply (Permutation_app_tail _ (insert_perm (decimal (i + 1)) (Grp ga gk) k0)).
      * destruct C as [(-> & -> & Fo)|(e & pre & y & post & -> & -> & -> & Hy)]; [left|right].
        -- repeat split; auto. constructor; [rewrite Eb; reflexivity|exact Fo].
        -- exists e, (x :: pre), y, post. auto.
    + exists (insert (decimal (i + 1)) (Grp ga gk) k0), (Raise e), [x]. split; [reflexivity|]. split; [|split; [exact S1|]].
      * cbn. rewrite Eb. cbn. eapply Permutation_trans; [apply Permutation_sym, Permutation_cons_append|]. apply insert_perm.
      * right. exists e, [], x, l. rewrite Eb. auto.
Qed.
(** All of them, into an empty group. *)
Lemma enum_all {A} (b : A -> G unit) l a : (forall x, In x l -> outcome (b x) = Ret tt) ->
  exists k, enum 0 l (fun i x => create_group (decimal (i + 1)) (b x)) (a, []) = ((a, k), Ret tt)
    /\ exists ls : list (string * A), k = map (fun p => (fst p, filled (b (snd p)))) ls /\ in_word_order l (map snd ls)
         /\ Permutation l (map snd ls) /\ StronglySorted word_order ls.
Proof.
  intros H. destruct (enum_groups b l 0 a []) as (k & o & done & E & P & S & C); [intros ? ? []|constructor|].
  destruct C as [(-> & -> & _)|(e & pre & x & post & _ & -> & _ & Hx)]; [|rewrite H in Hx by (apply in_or_app; right; left; reflexivity); discriminate].
  exists k. split; [exact E|]. cbn [app] in P.
  assert (EL : labels 0 (List.length l) = map numeral (seq 1 (List.length l))).
  { unfold labels. rewrite <- seq_shift, map_map. apply map_ext. intros j. unfold numeral, decimal. rewrite Nat.add_1_r. reflexivity. }
  rewrite EL in P.
  assert (EC : combine (map numeral (seq 1 (List.length l))) (map (fun x => filled (b x)) l)
             = map (fun p => (fst p, filled (b (snd p)))) (combine (map numeral (seq 1 (List.length l))) l)).
  { clear. generalize (seq 1 (List.length l)). induction l as [|x l IH]; intros [|s ss]; cbn; try reflexivity. rewrite IH. reflexivity. }
  rewrite EC in P. apply Permutation_sym, Permutation_map_inv in P. destruct P as (ls & -> & P).
  exists ls. split; [reflexivity|].
  assert (Sl : StronglySorted word_order ls).
  { clear - S. induction ls as [|p ls IH]; [constructor|]. inversion S as [|? ? S' AA]; subst. constructor; [apply IH, S'|].
    rewrite Forall_map in AA. exact AA. }
  split; [|split; [|exact Sl]].
  - exists ls. split; [reflexivity|]. split; [exact P|exact Sl].
  - assert (Es : map snd (combine (map numeral (seq 1 (List.length l))) l) = l).
    { clear. assert (L : List.length (map numeral (seq 1 (List.length l))) = List.length l) by (rewrite map_length, seq_length; reflexivity).
      revert L. generalize (map numeral (seq 1 (List.length l))). induction l as [|x l IH]; intros [|y t] L; cbn in *; try discriminate; [reflexivity|].
      rewrite IH by lia. reflexivity. }
    rewrite <- Es at 1. apply Permutation_map, P.
Qed.

(** ** The pieces *)
Definition atom_body (s : site) : G unit :=
  gbind (create_dataset "name" (DStr (a_name (st_atom s))) []) (fun _ =>
  gbind (create_dataset "position" (vec (st_position s)) []) (fun _ =>
  gbind (glift (of_option ValueError (st_spin s))) (fun v => gbind (create_dataset "spin" (vec v) []) (fun _ =>
  gbind (glift (of_option ValueError (st_g s))) (fun g => gbind (create_dataset "g-factor" (DNum g) []) (fun _ =>
  match st_charge s with Some q => create_dataset "charge" (DNum q) [] | None => gret tt end)))))).
Definition bond_body (w : world) (p : bkey * loc) : G unit :=
  gbind (create_dataset "atom-1" (DStr (a_name (b_from (fst p)))) []) (fun _ =>
  gbind (create_dataset "atom-2" (DStr (a_name (b_to (fst p)))) []) (fun _ =>
  gbind (create_dataset "ijk" (ints (b_cell (fst p))) []) (fun _ => create_dataset "matrix" (DMat (matrix_of w (snd p))) []))).
Definition on_site_body (w : world) (p : atom * loc) : G unit :=
  gbind (create_dataset "atom" (DStr (a_name (fst p))) []) (fun _ => create_dataset "matrix" (DMat (matrix_of w (snd p))) []).
Lemma write_atom_eq : @write_atom F = (fun i s => create_group (decimal (i + 1)) (atom_body s)).
Proof. reflexivity. Qed.
Lemma write_bond_eq w : @write_bond F SF w = (fun i s => create_group (decimal (i + 1)) (bond_body w s)).
Proof. reflexivity. Qed.
Lemma write_on_site_eq w : @write_on_site F SF w = (fun i s => create_group (decimal (i + 1)) (on_site_body w s)).
Proof. reflexivity. Qed.
Lemma atom_ok s : st_spin s <> None -> st_g s <> None -> outcome (atom_body s) = Ret tt.
Proof. destruct s as [a p [v|] [g|] [q|]]; cbn; intros H1 H2; try congruence; reflexivity. Qed.
Lemma atom_bad s e : outcome (atom_body s) = Raise e -> st_spin s = None \/ st_g s = None.
Proof. destruct s as [a p [v|] [g|] [q|]]; cbn; auto; discriminate. Qed.
Lemma bond_ok w p : outcome (bond_body w p) = Ret tt.
Proof. destruct p as [[a b [[i j] k]] l]. reflexivity. Qed.
Lemma on_site_ok w p : outcome (on_site_body w p) = Ret tt.
Proof. reflexivity. Qed.

(** The members of the finished group. *)
Definition type_attrs : attrs := [("type", "SpinHamiltonian")]%string.
Definition cell_node (m : M3 F) : node :=
  Grp [("units", "Angstrom")]%string [("a1", Dset (vec (row1 m)) []); ("a2", Dset (vec (row2 m)) []); ("a3", Dset (vec (row3 m)) [])]%string.
Definition notation_node (h : @ham F) : node := filled (fun g => write_notation h g).
Definition energy_attrs : attrs := [("units", "milli-electron-Volt")]%string.

Lemma nonempty_true {A} (l : list A) : nonempty l = true <-> l <> [].
Proof. destruct l; cbn; split; congruence. Qed.
Lemma nonempty_false {A} (l : list A) : nonempty l = false <-> l = [].
Proof. destruct l; cbn; split; congruence. Qed.
Lemma bonds_nil (w : world) : bonds w = [] <-> h_exch (w_ham w) = [].
Proof. unfold bonds, dkeys. destruct (h_exch (w_ham w)); cbn; split; congruence. Qed.
Lemma sites_nil (w : world) : sites w = [] <-> h_ons (w_ham w) = [].
Proof. unfold sites, dkeys. destruct (h_ons (w_ham w)); cbn; split; congruence. Qed.

Definition notation_body (h : @ham F) : G unit :=
    gbind (glift (of_option NotationError (h_sn h))) (fun sn => gbind (create_dataset "spin-normalized" (DInt (int_of_bool sn)) []) (fun _ =>
    gbind (if nonempty (h_exch h) then
       gbind (glift (of_option NotationError (h_dc h))) (fun dc => gbind (create_dataset "double-counting" (DInt (int_of_bool dc)) []) (fun _ =>
       gbind (glift (of_option NotationError (h_ef h))) (fun ef => create_dataset "exchange-factor" (DNum ef) [])))
     else gret tt) (fun _ =>
    (if nonempty (h_ons h) then
       gbind (glift (of_option NotationError (h_of h))) (fun of_ => create_dataset "on-site-factor" (DNum of_) [])
     else gret tt)))).
Lemma write_notation_eq h : @write_notation F h = create_group "notation" (notation_body h).
Proof. reflexivity. Qed.
Lemma notation_ok s : complete s -> bonds (sh_ham s) <> [] \/ sites (sh_ham s) <> [] -> outcome (notation_body (w_ham (sh_ham s))) = Ret tt.
Proof.
  intros (_ & Hs & Hb & Ho) Hne. specialize (Hs Hne). rewrite bonds_nil in Hb. rewrite sites_nil in Ho. unfold notation_body, outcome.
  destruct (h_sn (w_ham (sh_ham s))) as [sn|]; [|congruence].
  destruct (nonempty (h_exch (w_ham (sh_ham s)))) eqn:E1.
  - apply nonempty_true in E1. destruct (Hb E1) as [H1 H2]. destruct (h_dc (w_ham (sh_ham s))); [|congruence]. destruct (h_ef (w_ham (sh_ham s))); [|congruence].
    destruct (nonempty (h_ons (w_ham (sh_ham s)))) eqn:E2; [|reflexivity].
    apply nonempty_true in E2. specialize (Ho E2). destruct (h_of (w_ham (sh_ham s))); [|congruence]. reflexivity.
  - destruct (nonempty (h_ons (w_ham (sh_ham s)))) eqn:E2; [|reflexivity].
    apply nonempty_true in E2. specialize (Ho E2). destruct (h_of (w_ham (sh_ham s))); [|congruence]. reflexivity.
Qed.
Lemma notation_bad s e : outcome (notation_body (w_ham (sh_ham s))) = Raise e ->
  ~ ((bonds (sh_ham s) <> [] \/ sites (sh_ham s) <> [] -> h_sn (w_ham (sh_ham s)) <> None)
  /\ (bonds (sh_ham s) <> [] -> h_dc (w_ham (sh_ham s)) <> None /\ h_ef (w_ham (sh_ham s)) <> None)
  /\ (sites (sh_ham s) <> [] -> h_of (w_ham (sh_ham s)) <> None)) \/ (bonds (sh_ham s) = [] /\ sites (sh_ham s) = []).
Proof.
  intros H. destruct (bonds (sh_ham s)) as [|b bs] eqn:Eb; [destruct (sites (sh_ham s)) as [|a as_] eqn:Es; [right; auto|]|]; left; intros (H1 & H2 & H3).
  - unfold notation_body, outcome in H. destruct (h_sn (w_ham (sh_ham s))); [|apply H1; [right; discriminate|reflexivity]].
    apply bonds_nil in Eb. rewrite Eb in H. cbn in H. destruct (nonempty (h_ons (w_ham (sh_ham s)))); [|discriminate].
    destruct (h_of (w_ham (sh_ham s))); [discriminate|apply H3; [discriminate|reflexivity]].
  - unfold notation_body, outcome in H. destruct (h_sn (w_ham (sh_ham s))); [|apply H1; [left; discriminate|reflexivity]].
    destruct H2 as [Hd He]; [discriminate|]. destruct (h_dc (w_ham (sh_ham s))); [|congruence]. destruct (h_ef (w_ham (sh_ham s))); [|congruence].
    destruct (nonempty (h_exch (w_ham (sh_ham s)))); cbn in H.
    + destruct (nonempty (h_ons (w_ham (sh_ham s)))) eqn:E2; [|discriminate].
      destruct (h_of (w_ham (sh_ham s))); [discriminate|apply H3; [rewrite sites_nil; apply nonempty_true; exact E2|reflexivity]].
    + destruct (nonempty (h_ons (w_ham (sh_ham s)))) eqn:E2; [|discriminate].
      destruct (h_of (w_ham (sh_ham s))); [discriminate|apply H3; [rewrite sites_nil; apply nonempty_true; exact E2|reflexivity]].
Qed.

(** ** The whole group *)
Definition opt {A} (b : bool) (x : A) : list A := if b then [x] else [].
Definition root_kids (s : spinham) (ka ke ko : kids_t) : kids_t :=
  let h := w_ham (sh_ham s) in
  ([("atoms", Grp [] ka); ("cell", cell_node (sh_cell s))]
   ++ match sh_cone s with Some n => [("cone-axis", Dset (vec n) [("units", "Absolute")])] | None => [] end
   ++ opt (nonempty (h_exch h)) ("exchange", Grp energy_attrs ke)
   ++ opt (nonempty (h_exch h) || nonempty (h_ons h)) ("notation", filled (notation_body h))
   ++ opt (nonempty (h_ons h)) ("on-site", Grp energy_attrs ko)
   ++ match sh_spiral s with Some q => [("spiral-vector", Dset (vec q) [("units", "Relative")])] | None => [] end)%list%string.

(** The three lists of numbered groups, in the order in which they are read. *)
Record listing (s : spinham) := mkListing {
  li_atoms : list (string * site); li_bonds : list (string * (bkey * loc)); li_sites : list (string * (atom * loc)) }.
Definition listing_ok (s : spinham) (L : listing s) : Prop :=
  in_word_order (sh_sites s) (map snd (li_atoms s L)) /\ Permutation (sh_sites s) (map snd (li_atoms s L))
  /\ Permutation (h_exch (w_ham (sh_ham s))) (map snd (li_bonds s L)) /\ Permutation (h_ons (w_ham (sh_ham s))) (map snd (li_sites s L))
  /\ StronglySorted word_order (li_atoms s L) /\ StronglySorted word_order (li_bonds s L) /\ StronglySorted word_order (li_sites s L).
Definition written (s : spinham) (L : listing s) : node :=
  Grp type_attrs (root_kids s
    (map (fun p => (fst p, filled (atom_body (snd p)))) (li_atoms s L))
    (map (fun p => (fst p, filled (bond_body (sh_ham s) (snd p)))) (li_bonds s L))
    (map (fun p => (fst p, filled (on_site_body (sh_ham s) (snd p)))) (li_sites s L))).

Lemma filled_eq (b : G unit) g : b ([], []) = (g, Ret tt) -> filled b = Grp (fst g) (snd g).
Proof. unfold filled. intros ->. reflexivity. Qed.
Lemma outcome_eq (b : G unit) : outcome b = Ret tt -> exists g, b ([], []) = (g, Ret tt).
Proof. unfold outcome. destruct (b ([], [])) as [g o]. cbn. intros ->. eauto. Qed.

Lemma step_val {A B} (m : G A) (k : A -> G B) g g' a : m g = (g', Ret a) -> gbind m k g = k a g'.
Proof. unfold gbind. intros ->. reflexivity. Qed.
Lemma step_ret (k : unit -> G unit) g : gbind (gret tt) k g = k tt g.
Proof. reflexivity. Qed.
Lemma step_group name (b : G unit) (k : unit -> G unit) a l : dget l name = None -> outcome b = Ret tt ->
  gbind (create_group name b) k (a, l) = k tt (a, insert name (filled b) l).
Proof.
  intros H O. unfold gbind, create_group, dmem. cbn [snd fst]. rewrite H. unfold outcome, filled in *. destruct (b ([], [])) as [g o]. cbn in O. rewrite O. reflexivity.
Qed.

Lemma write_complete s : complete s -> exists L, listing_ok s L /\ filled (write_spinham s) = written s L /\ outcome (write_spinham s) = Ret tt.
Proof.
  intros C. pose proof (proj1 C) as CA. rewrite Forall_forall in CA.
  destruct (enum_all atom_body (sh_sites s) []) as (ka & Ea & la & Eka & Oa & Pa & Sa); [intros x Hx; apply atom_ok; apply (CA x Hx)|].
  destruct (enum_all (bond_body (sh_ham s)) (h_exch (w_ham (sh_ham s))) energy_attrs) as (ke & Ee & le & Eke & Oe & Pe & Se); [intros; apply bond_ok|].
  destruct (enum_all (on_site_body (sh_ham s)) (h_ons (w_ham (sh_ham s))) energy_attrs) as (ko & Eo & lo & Eko & Oo & Po & So); [intros; apply on_site_ok|].
  exists (mkListing s la le lo). split; [repeat split; assumption|].
  assert (E : write_spinham s ([], []) = ((type_attrs, root_kids s ka ke ko), Ret tt)).
  { unfold write_spinham. rewrite write_atom_eq, write_bond_eq, write_on_site_eq, write_notation_eq.
    rewrite (step_val (set_attr "type" "SpinHamiltonian") _ ([], []) (type_attrs, []) tt) by reflexivity.
    rewrite (step_val (write_cell (sh_cell s)) _ (type_attrs, []) (type_attrs, [("cell"%string, cell_node (sh_cell s))]) tt) by reflexivity.
    assert (Fa : filled (enum 0 (sh_sites s) (fun i x => create_group (decimal (i + 1)) (atom_body x))) = Grp [] ka) by exact (f_equal (fun r => Grp (fst (fst r)) (snd (fst r))) Ea).
    assert (Oa' : outcome (enum 0 (sh_sites s) (fun i x => create_group (decimal (i + 1)) (atom_body x))) = Ret tt) by exact (f_equal snd Ea).
    rewrite step_group by (reflexivity || exact Oa'); rewrite Fa.
    pose proof (notation_ok s C) as NO. rewrite bonds_nil, sites_nil in NO.
    unfold root_kids.
    assert (Fe : forall b, b = gbind (set_attr "units" "milli-electron-Volt") (fun _ => enum 0 (h_exch (w_ham (sh_ham s))) (fun i x => create_group (decimal (i + 1)) (bond_body (sh_ham s) x))) ->
      filled b = Grp energy_attrs ke /\ outcome b = Ret tt).
    { intros b ->. split; [exact (f_equal (fun r => Grp (fst (fst r)) (snd (fst r))) Ee)|exact (f_equal snd Ee)]. }
    assert (Fo : forall b, b = gbind (set_attr "units" "milli-electron-Volt") (fun _ => enum 0 (h_ons (w_ham (sh_ham s))) (fun i x => create_group (decimal (i + 1)) (on_site_body (sh_ham s) x))) ->
      filled b = Grp energy_attrs ko /\ outcome b = Ret tt).
    { intros b ->. split; [exact (f_equal (fun r => Grp (fst (fst r)) (snd (fst r))) Eo)|exact (f_equal snd Eo)]. }
    destruct (Fe _ eq_refl) as [Fe1 Fe2]. destruct (Fo _ eq_refl) as [Fo1 Fo2].
    destruct (nonempty (h_exch (w_ham (sh_ham s)))) eqn:N1; destruct (nonempty (h_ons (w_ham (sh_ham s)))) eqn:N2; cbn [orb opt app];
      try (apply nonempty_true in N1 || apply nonempty_false in N1); try (apply nonempty_true in N2 || apply nonempty_false in N2);
      repeat (rewrite step_ret || (rewrite step_group by (first [reflexivity | exact (NO (or_introl N1)) | exact (NO (or_intror N2)) | assumption])));
      rewrite ?Fe1, ?Fo1; destruct (sh_spiral s); destruct (sh_cone s); reflexivity. }
  unfold filled, outcome. rewrite E. cbn [fst snd]. split; [|reflexivity]. unfold written. cbn [li_atoms li_bonds li_sites]. rewrite Eka, Eke, Eko. reflexivity.
Qed.

(** ** When something is missing *)
Lemma step_group_raise name (b : G unit) (k : unit -> G unit) a l e : dget l name = None -> outcome b = Raise e ->
  gbind (create_group name b) k (a, l) = ((a, insert name (filled b) l), Raise e).
Proof.
  intros H O. unfold gbind, create_group, dmem. cbn [snd fst]. rewrite H. unfold outcome, filled in *. destruct (b ([], [])) as [g o]. cbn in O. rewrite O. reflexivity.
Qed.
Lemma no_need (s : spinham) : bonds (sh_ham s) = [] -> sites (sh_ham s) = [] -> Forall (fun x => st_spin x <> None /\ st_g x <> None) (sh_sites s) -> complete s.
Proof. intros B S A. unfold complete. rewrite B, S. repeat split; auto; intros; try congruence. destruct H; congruence. Qed.
Lemma write_cases (s : spinham) :
  (complete s /\ exists L, listing_ok s L /\ filled (write_spinham s) = written s L /\ outcome (write_spinham s) = Ret tt)
  \/ (~ complete s /\ exists e ka, outcome (write_spinham s) = Raise e
       /\ ((exists n x, In (n, filled (atom_body x)) ka /\ (st_spin x = None \/ st_g x = None)) /\
            filled (write_spinham s) = Grp type_attrs [("atoms", Grp [] ka); ("cell", cell_node (sh_cell s))]%string
          \/ exists nn, filled (write_spinham s) = Grp type_attrs [("atoms", Grp [] ka); ("cell", cell_node (sh_cell s)); ("notation", nn)]%string)).
Proof.
  destruct (enum_groups atom_body (sh_sites s) 0 [] []) as (ka & o & done & Ea & P & S & C); [intros ? ? []|constructor|].
  assert (Start : write_spinham s ([], []) = gbind (create_group "atoms" (enum 0 (sh_sites s) (fun i x => create_group (decimal (i + 1)) (atom_body x)))) (fun _ =>
     gbind (if nonempty (h_exch (w_ham (sh_ham s))) || nonempty (h_ons (w_ham (sh_ham s))) then create_group "notation" (notation_body (w_ham (sh_ham s))) else gret tt) (fun _ =>
     gbind (if nonempty (h_exch (w_ham (sh_ham s))) then create_group "exchange" (gbind (set_attr "units" "milli-electron-Volt") (fun _ => enum 0 (h_exch (w_ham (sh_ham s))) (write_bond (sh_ham s)))) else gret tt) (fun _ =>
     gbind (if nonempty (h_ons (w_ham (sh_ham s))) then create_group "on-site" (gbind (set_attr "units" "milli-electron-Volt") (fun _ => enum 0 (h_ons (w_ham (sh_ham s))) (write_on_site (sh_ham s)))) else gret tt) (fun _ =>
     gbind (match sh_spiral s with Some q => create_dataset "spiral-vector" (vec q) [("units", "Relative")]%string | None => gret tt end) (fun _ =>
     match sh_cone s with Some n => create_dataset "cone-axis" (vec n) [("units", "Absolute")]%string | None => gret tt end)))))
     (type_attrs, [("cell"%string, cell_node (sh_cell s))])) by reflexivity.
  assert (Fa : filled (enum 0 (sh_sites s) (fun i x => create_group (decimal (i + 1)) (atom_body x))) = Grp [] ka) by exact (f_equal (fun r => Grp (fst (fst r)) (snd (fst r))) Ea).
  assert (Oa' : outcome (enum 0 (sh_sites s) (fun i x => create_group (decimal (i + 1)) (atom_body x))) = o) by exact (f_equal snd Ea).
  destruct C as [(-> & -> & Fo)|(e & pre & x & post & -> & El & -> & Hx)].
  - assert (CA : Forall (fun x => st_spin x <> None /\ st_g x <> None) (sh_sites s)).
    { eapply Forall_impl; [|exact Fo]. intros y Hy. destruct y as [a p [v|] [g|] q]; cbn in *; try discriminate. split; discriminate. }
    destruct (nonempty (h_exch (w_ham (sh_ham s))) || nonempty (h_ons (w_ham (sh_ham s))))%bool eqn:EN.
    + destruct (outcome (notation_body (w_ham (sh_ham s)))) as [[]|e] eqn:ON.
      * left. assert (C : complete s).
        { split; [exact CA|]. clear - ON. unfold notation_body, outcome in ON. rewrite bonds_nil, sites_nil.
          destruct (h_sn (w_ham (sh_ham s))) as [sn|]; [|discriminate ON]. split; [intros _; discriminate|].
          destruct (nonempty (h_exch (w_ham (sh_ham s)))) eqn:E1; destruct (nonempty (h_ons (w_ham (sh_ham s)))) eqn:E2;
            try (apply nonempty_true in E1 || apply nonempty_false in E1); try (apply nonempty_true in E2 || apply nonempty_false in E2);
            destruct (h_dc (w_ham (sh_ham s))); try discriminate ON; destruct (h_ef (w_ham (sh_ham s))); try discriminate ON; destruct (h_of (w_ham (sh_ham s))); try discriminate ON;
            repeat split; intros; try discriminate; congruence. }
        split; [exact C|]. apply write_complete, C.
      * right. split.
        { intros C. rewrite notation_ok in ON; [discriminate|exact C|]. rewrite bonds_nil, sites_nil. apply Bool.orb_true_iff in EN. rewrite !nonempty_true in EN. exact EN. }
        exists e, ka.
        assert (E : write_spinham s ([], []) = ((type_attrs, [("atoms", Grp [] ka); ("cell", cell_node (sh_cell s)); ("notation", filled (notation_body (w_ham (sh_ham s))))]%string), Raise e)).
        { eapply eq_trans; [exact Start|]. rewrite step_group by (reflexivity || exact Oa'). rewrite Fa, ?EN. rewrite (step_group_raise _ _ _ _ _ e) by (reflexivity || exact ON). reflexivity. }
        unfold outcome at 1, filled at 2. split; [exact (f_equal snd E)|]. right. eexists. exact (f_equal (fun r => Grp (fst (fst r)) (snd (fst r))) E).
    + left. assert (C : complete s).
      { apply Bool.orb_false_iff in EN. rewrite !nonempty_false in EN. apply no_need; [apply bonds_nil|apply sites_nil|]; tauto. }
      split; [exact C|]. apply write_complete, C.
  - right. split.
    { intros (CA & _). rewrite Forall_forall in CA. destruct (CA x) as [C1 C2]; [rewrite El; apply in_or_app; right; left; reflexivity|].
      destruct (atom_bad x e Hx); contradiction. }
    exists e, ka.
    assert (E : write_spinham s ([], []) = ((type_attrs, [("atoms", Grp [] ka); ("cell", cell_node (sh_cell s))]%string), Raise e)).
    { eapply eq_trans; [exact Start|]. rewrite (step_group_raise _ _ _ _ _ e) by (reflexivity || exact Oa'). rewrite Fa. reflexivity. }
    unfold outcome at 1, filled at 2. split; [exact (f_equal snd E)|]. left. split; [|exact (f_equal (fun r => Grp (fst (fst r)) (snd (fst r))) E)].
    cbn [app] in P. exists (last (labels 0 (List.length (pre ++ [x]))) ""%string), x. split; [|exact (atom_bad x e Hx)].
    apply (Permutation_in _ P). clear. rewrite map_app. cbn [map]. rewrite app_length. cbn [List.length]. rewrite Nat.add_1_r. unfold labels. rewrite seq_S, map_app. cbn [map].
    rewrite combine_snoc by (rewrite !map_length, seq_length; reflexivity). rewrite last_last. apply in_or_app. right. left. reflexivity.
Qed.
End Write.
