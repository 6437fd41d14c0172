(** Reading HDF5 groups in declared units. *)
From Coq Require Import String Ascii List Bool ZArith Arith Lia Ring Field Field_theory Ring_theory.
From Verif.Base Require Import Scalar Linear3 PyDict PyString PyText.
From Verif.Model Require Import MatrixParam Hamiltonian TxtVerify TxtRead Hdf5.
From Verif.Spec Require Import HamSpec TxtFormat Hdf5Spec AtomsSpec Hdf5Units.
From Verif.Proofs Require Import DictProofs HamBasics HamSetters HamDouble HistoryProofs CallProofs TextBasics SectionProofs TxtReadProofs LoadProofs Tb2jProofs Hdf5Files Hdf5Write Hdf5Read Hdf5Proofs.
Import ListNotations.

Section Units.
Context {F : Type} {SF : Scalar F}.
Variable X : externals F.
Add Field F_field : (@f_field F SF).
Notation node := (@node F).
Notation world := (@world F).
Notation spinham := (@spinham F).
Notation contents := (@contents F).
Local Open Scope fld_scope.

(** ** Datasets *)
Lemma obind_ret {A B} (o : out A) (f : A -> out B) y : obind o f = Ret y <-> exists x, o = Ret x /\ f x = Ret y.
Proof. destruct o as [x|e]; cbn; split; [eauto|intros (x' & [= ->] & H); exact H|discriminate|intros (x & [=] & _)]. Qed.
Lemma kid_member (n : node) name m : kid n name = Ret m <-> member n name m.
Proof.
  unfold kid, member. destruct n as [d a|a l]; split; [discriminate|intros (a' & l' & [=] & _)| |].
  - destruct (dget l name) eqn:E; [|discriminate]. intros [= ->]. eauto.
  - intros (a' & l' & [= <- <-] & ->). reflexivity.
Qed.
Lemma text_iff (n : node) s : get_str n = Ret s <-> is_text n s.
Proof. unfold is_text. destruct n as [[] a|]; cbn; split; try discriminate; try (intros (? & [=]); congruence). intros [= ->]. eauto. Qed.
Lemma vector_iff (n : node) v : get_vec n = Ret v <-> is_vector n v.
Proof.
  unfold is_vector. split.
  - destruct n as [[|[|a [|b [|c [|]]]]| | | |] at_|]; cbn; try discriminate. intros [= <-]. eauto.
  - intros (a & ->). destruct v. reflexivity.
Qed.
Lemma matrix_iff (n : node) m : get_mat n = Ret m <-> is_matrix n m.
Proof. unfold is_matrix. destruct n as [[] a|]; cbn; split; try discriminate; try (intros (? & [=]); congruence). intros [= ->]. eauto. Qed.
Lemma cell_iff (n : node) c : get_ints n = Ret c <-> is_cell n c.
Proof.
  unfold is_cell. split.
  - destruct n as [[| | |[|a [|b [|c' [|]]]]| |] at_|]; cbn; try discriminate. intros [= <-]. eauto.
  - destruct c as [[i j] k]. intros (a & ->). reflexivity.
Qed.
Lemma number_iff (n : node) x : get_num n = Ret x <-> is_number n x.
Proof. unfold is_number. destruct n as [[] a|]; cbn; split; try discriminate; try (intros (? & [=]); congruence). intros [= ->]. eauto. Qed.
Lemma flag_iff (n : node) b : get_bool n = Ret b <-> is_flag n b.
Proof.
  unfold is_flag. split.
  - destruct n as [[] a|]; cbn; try discriminate. intros [= <-]. exists z, a. split; [reflexivity|]. destruct (Z.eqb_spec z 0); cbn; split; try congruence; auto.
  - intros (z & a & -> & E). cbn. f_equal. destruct (Z.eqb_spec z 0) as [->|N]; cbn; destruct b; try reflexivity; intuition congruence.
Qed.
Lemma with_iff {A} (get : node -> out A) (P : node -> A -> Prop) : (forall n x, get n = Ret x <-> P n x) ->
  forall n name x, obind (kid n name) get = Ret x <-> with_member P n name x.
Proof. intros H n name x. rewrite obind_ret. unfold with_member. split; intros (m & A1 & A2); exists m; split; (apply kid_member || apply H); assumption. Qed.
Lemma has_member (n : node) name : Hdf5.has n name = true <-> exists m, member n name m.
Proof.
  unfold Hdf5.has, member. destruct n as [d a|a l]; split; [discriminate|intros (m & a' & l' & [=] & _)| |].
  - intros H. destruct (dget l name) as [m|] eqn:E; [eauto 6|]. unfold dmem in H. rewrite E in H. discriminate.
  - intros (m & a' & l' & [= <- <-] & E). unfold dmem. rewrite E. reflexivity.
Qed.
Lemma absent_has (n : node) name : Hdf5Units.absent n name -> Hdf5.has n name = false.
Proof. intros (a & l & -> & E). cbn. unfold dmem. rewrite E. reflexivity. Qed.
Lemma has_absent a l name : @Hdf5.has F (Grp a l) name = false -> Hdf5Units.absent (Grp a l) name.
Proof. cbn. unfold dmem. destruct (dget l name) eqn:E; [discriminate|]. intros _. exists a, l. auto. Qed.
Lemma optional_has {A} (P : node -> A -> Prop) n name o : optional P n name o -> Hdf5.has n name = is_some o.
Proof. destruct o as [x|]; cbn; [intros (m & H & _); apply has_member; eauto|apply absent_has]. Qed.
Lemma unit_iff (n : node) u : attr n "units" = Ret u <-> unit_of n u.
Proof. unfold attr, unit_of. destruct (dget _ _); cbn; split; congruence. Qed.
Lemma with_unit (n : node) name u m : member n name m -> unit_of m u -> kid n name = Ret m /\ attr m "units" = Ret u.
Proof. intros A B. split; [apply kid_member, A|apply unit_iff, B]. Qed.

(** ** Units *)
Lemma starts_iff p w : starts_with p w = true <-> begins p w.
Proof. split; [apply starts_with_inv|intros (t & ->); apply starts_with_app]. Qed.
Lemma energy_iff u conv : energy_units X u = Ret conv <-> exists v, energy_named X u v /\ conv = v / ENERGY X.
Proof.
  unfold energy_units, energy_named. cbn [In]. split.
  - intros H. repeat match type of H with (if String.eqb ?a ?b then _ else _) = _ => destruct (String.eqb_spec a b) as [->|_] end; try discriminate; injection H as <-; eauto 10.
  - intros (v & H & ->). destruct H as [E|[E|[E|[E|[E|[]]]]]]; injection E as <- <-; reflexivity.
Qed.
Lemma energy_error u : ~ known_energy X u -> energy_units X u = Raise ValueError.
Proof.
  intros N. destruct (energy_units X u) as [c|e] eqn:E; [exfalso; apply N; apply energy_iff in E as (v & H & _); exists v; exact H|].
  rewrite <- E. unfold energy_units in *. repeat match goal with |- context [String.eqb ?a ?b] => destruct (String.eqb a b) end; congruence.
Qed.
Lemma energy_functional u v v' : energy_named X u v -> energy_named X u v' -> v = v'.
Proof.
  unfold energy_named. cbn [In]. intros H H'.
  destruct H as [E|[E|[E|[E|[E|[]]]]]]; injection E as E1 <-; destruct H' as [E|[E|[E|[E|[E|[]]]]]]; injection E as E2 <-; try reflexivity; rewrite <- E1 in E2; discriminate E2.
Qed.

(** ** The lattice *)
Lemma rows_of (m : M3 F) : rows (row1 m) (row2 m) (row3 m) = m.
Proof. destruct m. reflexivity. Qed.
Lemma load_cell_iff (root : node) u m : with_member is_lattice root "cell" (u, m) ->
  load_cell X root = if starts_with "bohr" (str_lower u) then Ret (mscale (c_bohr_radius X / LENGTH X) m)
                     else if starts_with "angstrom" (str_lower u) then Ret (mscale (c_angstrom X / LENGTH X) m)
                     else obind (kid root "cell") (fun cell => obind (kid cell "units") (fun _ => Raise UnboundLocalError)).
Proof.
  intros (n & H & Hu & H1 & H2 & H3). cbn [fst snd] in *. unfold load_cell. rewrite (proj2 (kid_member _ _ _) H). cbn [obind].
  rewrite (proj2 (with_iff get_vec is_vector vector_iff n "a1" _) H1), (proj2 (with_iff get_vec is_vector vector_iff n "a2" _) H2), (proj2 (with_iff get_vec is_vector vector_iff n "a3" _) H3).
  cbn [obind]. rewrite (proj2 (unit_iff n u) Hu). cbn [obind]. rewrite rows_of.
  destruct (starts_with "bohr" (str_lower u)); [reflexivity|]. destruct (starts_with "angstrom" (str_lower u)); [reflexivity|]. destruct (kid n "units"); reflexivity.
Qed.
Lemma load_cell_inv (root : node) cell : load_cell X root = Ret cell ->
  exists u m, with_member is_lattice root "cell" (u, m) /\ known_length X u.
Proof.
  intros H. unfold load_cell in H.
  apply obind_ret in H as (n & Hn & H). apply obind_ret in H as (v1 & H1 & H). apply obind_ret in H as (v2 & H2 & H). apply obind_ret in H as (v3 & H3 & H).
  apply obind_ret in H as (u & Hu & H). apply obind_ret in H as (conv & Hc & _). apply kid_member in Hn. apply unit_iff in Hu.
  apply (with_iff get_vec is_vector vector_iff) in H1, H2, H3.
  exists u, (rows v1 v2 v3). split.
  - exists n. split; [exact Hn|]. split; [exact Hu|]. cbn [snd]. destruct v1, v2, v3. cbn. auto.
  - destruct (starts_with "bohr" (str_lower u)) eqn:Eb; [exists (c_bohr_radius X); left; split; [apply starts_iff, Eb|reflexivity]|].
    destruct (starts_with "angstrom" (str_lower u)) eqn:Ea; [exists (c_angstrom X); right; split; [apply starts_iff, Ea|reflexivity]|].
    apply obind_ret in Hc as (x & _ & [=]).
Qed.
Lemma begins_both w : begins "bohr" w -> begins "angstrom" w -> False.
Proof. intros (t & ->) (t' & [=]). Qed.
Lemma length_functional u v v' : length_named X u v -> length_named X u v' -> v = v'.
Proof. intros [[A ->]|[A ->]] [[B ->]|[B ->]]; try reflexivity; exfalso; eauto using begins_both. Qed.
Lemma load_cell_unit (root : node) u v m : with_member is_lattice root "cell" (u, m) -> length_named X u v -> load_cell X root = Ret (mscale (v / LENGTH X) m).
Proof.
  intros H K. rewrite (load_cell_iff _ _ _ H). destruct K as [[B ->]|[B ->]].
  - rewrite (proj2 (starts_iff _ _) B). reflexivity.
  - destruct (starts_with "bohr" (str_lower u)) eqn:E; [exfalso; apply starts_iff in E; eauto using begins_both|]. rewrite (proj2 (starts_iff _ _) B). reflexivity.
Qed.
Lemma load_cell_unknown (root : node) u m n : with_member is_lattice root "cell" (u, m) -> ~ known_length X u -> member root "cell" n ->
  load_cell X root = match kid n "units" with Ret _ => Raise UnboundLocalError | Raise e => Raise e end.
Proof.
  intros H K Hn. rewrite (load_cell_iff _ _ _ H).
  destruct (starts_with "bohr" (str_lower u)) eqn:Eb; [exfalso; apply K; exists (c_bohr_radius X); left; split; [apply starts_iff, Eb|reflexivity]|].
  destruct (starts_with "angstrom" (str_lower u)) eqn:Ea; [exfalso; apply K; exists (c_angstrom X); right; split; [apply starts_iff, Ea|reflexivity]|].
  rewrite (proj2 (kid_member _ _ _) Hn). cbn. destruct (kid n "units"); reflexivity.
Qed.
Lemma scale_scale (a b : F) m : mscale a (mscale b m) = mscale (a * b) m.
Proof. destruct m. lin3. f_equal; ring. Qed.
Lemma unit_cancel (c v : F) m : c <> f0 -> mscale c (mscale (v / c) m) = mscale v m.
Proof. intros H. rewrite scale_scale. f_equal. field. exact H. Qed.

(** ** Atoms *)
Definition as_site (i : nat) (x : @atom_item F) : @site F :=
  mkSite (mkAtom (ai_name x) (Z.of_nat i + 1)) (ai_position x) (Some (ai_spin x)) (Some (ai_g x)) (ai_charge x).
Fixpoint as_sites (i : nat) (l : list (@atom_item F)) : list (@site F) := match l with [] => [] | x :: t => as_site i x :: as_sites (S i) t end.
Lemma load_atom_item i (n : node) x : is_atom n x -> load_atom i n = if String.eqb (ai_name x) "" then Raise IndexError else Ret (as_site i x).
Proof.
  intros (H1 & H2 & H3 & H4 & H5). unfold load_atom.
  rewrite (proj2 (with_iff get_str is_text text_iff _ _ _) H1). cbn [obind]. destruct (String.eqb (ai_name x) ""); [reflexivity|]. cbn [obind].
  rewrite (proj2 (with_iff get_vec is_vector vector_iff _ _ _) H2), (proj2 (with_iff get_vec is_vector vector_iff _ _ _) H3), (proj2 (with_iff get_num is_number number_iff _ _ _) H4).
  cbn [obind]. rewrite (optional_has _ _ _ _ H5). unfold as_site. destruct (ai_charge x) as [q|]; cbn [is_some obind optional] in *; [|reflexivity].
  destruct H5 as (m & M1 & M2). rewrite (proj2 (kid_member _ _ _) M1). cbn [obind]. apply number_iff in M2. rewrite M2. reflexivity.
Qed.
Lemma load_atom_inv i (n : node) s : load_atom i n = Ret s -> exists x, is_atom n x /\ ai_name x <> ""%string.
Proof.
  unfold load_atom. intros H. apply obind_ret in H as (name & H1 & H). apply obind_ret in H as ([] & H0 & H). apply obind_ret in H as (p & H2 & H).
  apply obind_ret in H as (v & H3 & H). apply obind_ret in H as (g & H4 & H). apply obind_ret in H as (q & H5 & _).
  assert (Eg : exists a l, n = Grp a l). { apply obind_ret in H1 as (m & K & _). apply kid_member in K as (a & l & -> & _). eauto. } destruct Eg as (a & l & Eg).
  exists (mkAI name p v g q). split.
  - split; [apply (with_iff get_str is_text text_iff), H1|]. split; [apply (with_iff get_vec is_vector vector_iff), H2|].
    split; [apply (with_iff get_vec is_vector vector_iff), H3|]. split; [apply (with_iff get_num is_number number_iff), H4|]. cbn [ai_charge].
    destruct (Hdf5.has n "charge") eqn:E.
    + apply obind_ret in H5 as (m & K & H5). apply obind_ret in H5 as (y & K2 & [= <-]). exists m. split; [apply kid_member, K|apply number_iff, K2].
    + injection H5 as <-. subst n. apply has_absent, E.
  - cbn. intros ->. discriminate H0.
Qed.
Lemma load_atoms_items : forall (k : list (string * node)) l i, Forall2 is_atom (map snd k) l -> Forall (fun x => ai_name x <> ""%string) l -> load_atoms i k = Ret (as_sites i l).
Proof.
  induction k as [|[nm n] k IH]; intros l i H N; cbn [map] in H; inversion H; subst; [reflexivity|]. inversion N; subst. cbn [load_atoms as_sites snd] in *.
  rewrite (load_atom_item i n y) by assumption. destruct (String.eqb_spec (ai_name y) ""); [contradiction|]. cbn [obind]. rewrite (IH l' (S i)) by assumption. reflexivity.
Qed.
Lemma load_atoms_inv : forall (k : list (string * node)) i s, load_atoms i k = Ret s -> exists l, Forall2 is_atom (map snd k) l /\ Forall (fun x => ai_name x <> ""%string) l.
Proof.
  induction k as [|[nm n] k IH]; intros i s H; cbn [load_atoms] in H; [exists []; split; constructor|].
  apply obind_ret in H as (x & H1 & H). apply obind_ret in H as (r & H2 & _). destruct (load_atom_inv _ _ _ H1) as (y & A & B). destruct (IH _ _ H2) as (l & C & D).
  exists (y :: l). split; constructor; assumption.
Qed.
(** A name that was read is not empty. *)
Lemma load_atoms_named : forall (k : list (string * node)) l i s, Forall2 is_atom (map snd k) l -> load_atoms i k = Ret s -> Forall (fun x => ai_name x <> ""%string) l /\ s = as_sites i l.
Proof.
  induction k as [|[nm n] k IH]; intros l i s H E; cbn [map] in H; inversion H; subst; cbn [load_atoms] in E; [injection E as <-; split; [constructor|reflexivity]|].
  cbn [snd] in *. rewrite (load_atom_item i n y) in E by assumption. destruct (String.eqb_spec (ai_name y) ""); [discriminate|]. cbn [obind] in E.
  apply obind_ret in E as (r & E1 & [= <-]). destruct (IH l' (S i) r) as [A ->]; auto.
Qed.
Lemma as_sites_facts l : forall i, map facts (as_sites i l) = map (fun x => (ai_name x, ai_position x, Some (ai_spin x), Some (ai_g x), ai_charge x)) l.
Proof. induction l as [|x l IH]; intros i; [reflexivity|]. cbn [as_sites map]. rewrite IH. reflexivity. Qed.
Lemma as_sites_index l : forall i, map (fun x => a_index (st_atom x)) (as_sites i l) = map Z.of_nat (seq (S i) (List.length l)).
Proof. induction l as [|x l IH]; intros i; [reflexivity|]. cbn [as_sites map List.length seq]. rewrite IH. f_equal. cbn. lia. Qed.
Lemma as_sites_length l : forall i, List.length (as_sites i l) = List.length l.
Proof. induction l as [|x l IH]; intros i; [reflexivity|]. cbn. rewrite IH. reflexivity. Qed.
Lemma as_sites_names l : forall i, map a_name (map st_atom (as_sites i l)) = map ai_name l.
Proof. induction l as [|x l IH]; intros i; [reflexivity|]. cbn [as_sites map]. rewrite IH. reflexivity. Qed.

(** ** Notation *)
Definition said (c : contents) : list (@property F) :=
  match co_sn c with Some b => [PSpin b] | None => [] end ++ match co_dc c with Some b => [PDouble b] | None => [] end
  ++ match co_ef c with Some x => [PExchange x] | None => [] end ++ match co_of c with Some x => [POnSite x] | None => [] end.
Lemma said_values (c : contents) (h : @ham F) : h_dc h = None -> h_sn h = None -> h_ef h = None -> h_of h = None ->
  h_dc (noted (said c) h) = co_dc c /\ h_sn (noted (said c) h) = co_sn c /\ h_ef (noted (said c) h) = co_ef c /\ h_of (noted (said c) h) = co_of c.
Proof.
  intros A B C D. destruct (run_notation_values h (said c) A B C D) as (E1 & E2 & E3 & E4). rewrite E1, E2, E3, E4. unfold said.
  destruct (co_sn c), (co_dc c), (co_ef c), (co_of c); repeat split; reflexivity.
Qed.

Lemma bind_lift {A B} (o : out A) (x : A) (k : A -> @M F B) w : o = Ret x -> bind (lift o) k w = k x w.
Proof. intros ->. reflexivity. Qed.
Lemma notation_read (root : node) (c : contents) st (h0 : @ham F) : is_notation root c ->
  Hdf5.has root "exchange" = is_some (co_exchange c) -> Hdf5.has root "on-site" = is_some (co_on_site c) -> h_exch h0 = [] -> h_ons h0 = [] ->
  load_notation root (mkW st h0) = (mkW st (noted (said c) h0), Ret tt).
Proof.
  intros H E1 E2 X0 O0. unfold load_notation. rewrite E1, E2. unfold is_notation in H. unfold said.
  destruct (is_some (co_exchange c) || is_some (co_on_site c))%bool; [|destruct H as (-> & -> & -> & ->); reflexivity].
  destruct H as (n & Hn & (sn & Es & Hs) & He & Ho). rewrite (bind_lift _ _ _ _ (proj2 (kid_member _ _ _) Hn)).
  rewrite (bind_lift _ _ _ _ (proj2 (with_iff get_bool is_flag flag_iff _ _ _) Hs)). rewrite Es.
  assert (Pr : forall p h, h_exch h = [] -> h_ons h = [] -> set_property p (mkW st h) = (mkW st (note p h), Ret tt)) by (intros; apply set_property_empty; assumption).
  rewrite (bind_val _ _ _ _ _ (Pr (PSpin sn) h0 X0 O0)). destruct (note_rest (PSpin sn) h0) as (R1 & R2 & _). rewrite X0 in R1. rewrite O0 in R2.
  set (h1 := note (PSpin sn) h0) in *. change (noted ([PSpin sn] ++ ?l)%list h0) with (noted l h1). cbn [app].
  destruct (is_some (co_exchange c)).
  - destruct He as ((dc & Ed & Hd) & (ef & Ee & Hf)). rewrite Ed, Ee. rewrite !bind_assoc. rewrite (bind_lift _ _ _ _ (proj2 (with_iff get_bool is_flag flag_iff _ _ _) Hd)). rewrite !bind_assoc.
    rewrite (bind_val _ _ _ _ _ (Pr (PDouble dc) h1 R1 R2)). destruct (note_rest (PDouble dc) h1) as (R3 & R4 & _). rewrite R1 in R3. rewrite R2 in R4. set (h2 := note (PDouble dc) h1) in *.
    rewrite !bind_assoc. rewrite (bind_lift _ _ _ _ (proj2 (with_iff get_num is_number number_iff _ _ _) Hf)).
    rewrite (bind_val _ _ _ _ _ (Pr (PExchange ef) h2 R3 R4)). destruct (note_rest (PExchange ef) h2) as (R5 & R6 & _). rewrite R3 in R5. rewrite R4 in R6. set (h3 := note (PExchange ef) h2) in *.
    destruct (is_some (co_on_site c)).
    + destruct Ho as (of_ & Eo & Hof). rewrite Eo. rewrite (bind_lift _ _ _ _ (proj2 (with_iff get_num is_number number_iff _ _ _) Hof)). exact (Pr (POnSite of_) h3 R5 R6).
    + rewrite Ho. reflexivity.
  - destruct He as [-> ->]. rewrite (bind_val (ret tt) _ _ _ tt eq_refl). destruct (is_some (co_on_site c)).
    + destruct Ho as (of_ & Eo & Hof). rewrite Eo. rewrite (bind_lift _ _ _ _ (proj2 (with_iff get_num is_number number_iff _ _ _) Hof)). exact (Pr (POnSite of_) h1 R1 R2).
    + rewrite Ho. reflexivity.
Qed.
Lemma lift_inv {A} (o : out A) (w w' : world) x : lift o w = (w', Ret x) -> w' = w /\ o = Ret x.
Proof. unfold lift. intros [= <- ->]. auto. Qed.
Lemma setter_notation (root : node) (w w' : world) : load_notation root w = (w', Ret tt) ->
  if (Hdf5.has root "exchange" || Hdf5.has root "on-site")%bool then
    exists n, member root "notation" n /\ (exists b, with_member is_flag n "spin-normalized" b)
      /\ (Hdf5.has root "exchange" = true -> (exists b, with_member is_flag n "double-counting" b) /\ exists x, with_member is_number n "exchange-factor" x)
      /\ (Hdf5.has root "on-site" = true -> exists x, with_member is_number n "on-site-factor" x)
  else True.
Proof.
  unfold load_notation. destruct (Hdf5.has root "exchange" || Hdf5.has root "on-site")%bool; [|trivial]. intros H.
  apply bind_inv in H as (w1 & n & H1 & H). apply lift_inv in H1 as [-> H1]. apply bind_inv in H as (w2 & sn & H2 & H). apply lift_inv in H2 as [-> H2].
  apply bind_inv in H as (w3 & u3 & _ & H). apply bind_inv in H as (w4 & u4 & H4 & H5). exists n. split; [apply kid_member, H1|].
  split; [exists sn; apply (with_iff get_bool is_flag flag_iff), H2|]. split; intros E; rewrite E in *.
  - apply bind_inv in H4 as (w5 & dc & H6 & H4). apply lift_inv in H6 as [-> H6]. apply bind_inv in H4 as (w7 & u7 & _ & H4). apply bind_inv in H4 as (w8 & ef & H8 & _). apply lift_inv in H8 as [-> H8].
    split; eexists; [apply (with_iff get_bool is_flag flag_iff), H6|apply (with_iff get_num is_number number_iff), H8].
  - apply bind_inv in H5 as (w5 & ef & H6 & _). apply lift_inv in H6 as [-> H6]. eexists; apply (with_iff get_num is_number number_iff), H6.
Qed.

(** ** Bonds *)
Definition item_call (conv : F) (x : @bond_item F) : call := (bi_from x, bi_to x, bi_cell x, Some (mscale conv (bi_matrix x))).
Lemma load_bond_item conv nm (n : node) x (w w' : world) : is_bond n x -> load_bond conv (nm, n) w = (w', Ret tt) <-> do_call (item_call conv x) w = (w', Ret tt).
Proof.
  intros (H1 & H2 & H3 & H4). unfold load_bond, item_call, do_call. cbn [snd].
  rewrite (bind_lift _ _ _ _ (proj2 (with_iff get_str is_text text_iff _ _ _) H1)). unfold add_exchange_new at 2. cbn [resolve_add].
  destruct (get_atom_out (bi_from x) w) as [(a1 & E1 & I1 & N1)|E1].
  2:{ rewrite (bind_exn _ _ _ _ _ E1). unfold find_atom at 1, try_catch. unfold bind at 1. rewrite E1. cbn. split; discriminate. }
  assert (F1 : find_atom (bi_from x) w = (w, Ret a1)) by (unfold find_atom, try_catch; rewrite E1; reflexivity).
  rewrite (bind_val _ _ _ _ _ E1), (bind_val _ _ _ _ _ F1). rewrite (bind_lift _ _ _ _ (proj2 (with_iff get_str is_text text_iff _ _ _) H2)).
  destruct (get_atom_out (bi_to x) w) as [(a2 & E2 & I2 & N2)|E2].
  2:{ rewrite (bind_exn _ _ _ _ _ E2). unfold find_atom, try_catch. unfold bind at 1. rewrite E2. cbn. split; discriminate. }
  assert (F2 : find_atom (bi_to x) w = (w, Ret a2)) by (unfold find_atom, try_catch; rewrite E2; reflexivity).
  rewrite (bind_val _ _ _ _ _ E2), (bind_val _ _ _ _ _ F2).
  rewrite (bind_lift _ _ _ _ (proj2 (with_iff get_ints is_cell cell_iff _ _ _) H3)), (bind_lift _ _ _ _ (proj2 (with_iff get_mat is_matrix matrix_iff _ _ _) H4)).
  unfold add_exchange_new. rewrite (bind_val _ _ _ _ _ (resolve_obj w a1 I1)), (bind_val _ _ _ _ _ (resolve_obj w a2 I2)). reflexivity.
Qed.
Lemma load_bonds_items conv : forall (k : list (string * node)) l (w w' : world), Forall2 is_bond (map snd k) l ->
  for_each k (load_bond conv) w = (w', Ret tt) <-> for_each (map (item_call conv) l) do_call w = (w', Ret tt).
Proof.
  induction k as [|[nm n] k IH]; intros l w w' H; cbn [map] in H; inversion H; subst; [reflexivity|]. cbn [snd] in *. cbn [for_each map]. split; intros E; apply bind_inv in E as (w1 & [] & E1 & E2).
  - apply (load_bond_item conv nm n y w w1) in E1; [|assumption]. rewrite (bind_val _ _ _ _ _ E1). apply IH; assumption.
  - apply (load_bond_item conv nm n y w w1) in E1; [|assumption]. rewrite (bind_val _ _ _ _ _ E1). apply (IH l'); assumption.
Qed.
Lemma load_bond_inv conv nm (n : node) (w w' : world) : load_bond conv (nm, n) w = (w', Ret tt) -> exists x, is_bond n x.
Proof.
  unfold load_bond. cbn [snd]. intros H. apply bind_inv in H as (w1 & n1 & H1 & H). apply lift_inv in H1 as [-> H1]. apply bind_inv in H as (w2 & a1 & _ & H).
  apply bind_inv in H as (w3 & n2 & H2 & H). apply lift_inv in H2 as [-> H2]. apply bind_inv in H as (w4 & a2 & _ & H). apply bind_inv in H as (w5 & R & H3 & H). apply lift_inv in H3 as [-> H3].
  apply bind_inv in H as (w6 & m & H4 & _). apply lift_inv in H4 as [-> H4]. exists (mkBI n1 n2 R m).
  split; [apply (with_iff get_str is_text text_iff), H1|]. split; [apply (with_iff get_str is_text text_iff), H2|].
  split; [apply (with_iff get_ints is_cell cell_iff), H3|apply (with_iff get_mat is_matrix matrix_iff), H4].
Qed.
Lemma load_bonds_inv conv : forall (k : list (string * node)) (w w' : world), for_each k (load_bond conv) w = (w', Ret tt) -> exists l, Forall2 is_bond (map snd k) l.
Proof.
  induction k as [|[nm n] k IH]; intros w w' H; [exists []; constructor|]. cbn [for_each] in H. apply bind_inv in H as (w1 & [] & H1 & H2).
  destruct (load_bond_inv _ _ _ _ _ H1) as [x Hx]. destruct (IH _ _ H2) as [l Hl]. exists (x :: l). constructor; assumption.
Qed.
Lemma last_some_cons {A B} (f : A -> option B) x l : last_some f (x :: l) = match last_some f l with Some y => Some y | None => f x end.
Proof. induction l as [|y l IH] using rev_ind; [unfold last_some; cbn; destruct (f x); reflexivity|]. rewrite app_comm_cons, !last_some_snoc. destruct (f y); [reflexivity|exact IH]. Qed.
Lemma item_key (atoms : list atom) (x : @bond_item F) k k0 : NoDup (map a_name atoms) ->
  In (b_from k) atoms -> In (b_to k) atoms -> In (b_from k0) atoms -> In (b_to k0) atoms ->
  a_name (b_from k0) = bi_from x -> a_name (b_to k0) = bi_to x -> b_cell k0 = bi_cell x ->
  about k x = true <-> k0 = k.
Proof.
  intros N I1 I2 J1 J2 E1 E2 E3. unfold about. split.
  - intros H. apply andb_prop in H. destruct H as [H H3]. apply andb_prop in H. destruct H as [H1 H2].
    destruct (string_dec _ _) as [S1|] in H1; [|discriminate]. destruct (string_dec _ _) as [S2|] in H2; [|discriminate].
    destruct (eq_dec _ _) as [S3|] in H3; [|discriminate].
    destruct k as [f t c], k0 as [f0' t0 c0]; cbn in *. f_equal; [apply (LoadProofs.name_inj atoms)|apply (LoadProofs.name_inj atoms)|]; congruence.
  - intros ->. rewrite E1, E2, E3. destruct (string_dec (bi_from x) (bi_from x)); [|congruence].
    destruct (string_dec (bi_to x) (bi_to x)); [|congruence]. destruct (eq_dec (bi_cell x) (bi_cell x)); [reflexivity|congruence].
Qed.
Lemma items_value (atoms : list atom) conv dc : NoDup (map a_name atoms) -> forall l ks, Forall2 key_of (map (item_call conv) l) ks ->
  Forall (fun kc => In (b_from (fst kc)) atoms /\ In (b_to (fst kc)) atoms) ks ->
  forall k, In (b_from k) atoms -> In (b_to k) atoms -> calls_value dc ks k = option_map (mscale conv) (written_bond dc l k).
Proof.
  intros N l ks H A.
  assert (G : forall k, In (b_from k) atoms -> In (b_to k) atoms ->
    last_key k ks = option_map (fun x => mscale conv (bi_matrix x)) (last_about k l) /\ first_key k ks = option_map (fun x => mscale conv (bi_matrix x)) (first_about k l)).
  { intros k I1 I2. unfold last_key, last_about, first_key, first_about. remember (map (item_call conv) l) as cs eqn:Ec. revert l Ec. induction H as [|c kc cs ks Hk H IH]; intros l Ec; destruct l as [|x l]; try discriminate; [split; reflexivity|].
    cbn [map] in Ec. injection Ec as -> ->. inversion A as [|? ? [J1 J2] A']; subst. destruct (IH A' l eq_refl) as [IHl IHf].
    destruct Hk as [(E1 & E2 & E3) E4]. destruct kc as [k0 m]. cbn [fst snd item_call] in *. injection E4 as E4.
    pose proof (item_key atoms x k k0 N I1 I2 J1 J2 E1 E2 E3) as K. rewrite !last_some_cons. cbn [find fst snd]. rewrite IHl.
    destruct (last_some (fun x0 => if about k x0 then Some x0 else None) l) as [y|]; cbn [option_map]; destruct (about k x) eqn:Ea; destruct (eq_dec k0 k) as [Ek|Nk]; try (rewrite <- E4); cbn [option_map]; auto; exfalso; intuition congruence. }
  intros k I1 I2. unfold calls_value, written_bond. destruct (G k I1 I2) as [-> _]. destruct (last_about k l); [reflexivity|]. cbn [option_map].
  destruct dc as [[]|]; try reflexivity. destruct (G (mirror k)) as [_ ->]; [destruct k; exact I2|destruct k; exact I1|]. destruct (first_about (mirror k) l) as [x|]; reflexivity.
Qed.

(** ** On-site parameters *)
Lemma load_site_item conv nm (n : node) x (w w' : world) : is_site n x -> load_site_parameter conv (nm, n) w = (w', Ret tt) <-> os_call conv x w = (w', Ret tt).
Proof.
  intros (H1 & H2). unfold load_site_parameter, os_call. cbn [snd]. rewrite (bind_lift _ _ _ _ (proj2 (with_iff get_str is_text text_iff _ _ _) H1)).
  destruct (get_atom_out (fst x) w) as [(a1 & E1 & I1 & N1)|E1].
  2:{ rewrite (bind_exn _ _ _ _ _ E1). unfold find_atom, try_catch. unfold bind at 1. rewrite E1. cbn. split; discriminate. }
  assert (F1 : find_atom (fst x) w = (w, Ret a1)) by (unfold find_atom, try_catch; rewrite E1; reflexivity).
  rewrite (bind_val _ _ _ _ _ E1), (bind_val _ _ _ _ _ F1). rewrite (bind_lift _ _ _ _ (proj2 (with_iff get_mat is_matrix matrix_iff _ _ _) H2)). reflexivity.
Qed.
Lemma load_sites_items conv : forall (k : list (string * node)) l (w w' : world), Forall2 is_site (map snd k) l ->
  for_each k (load_site_parameter conv) w = (w', Ret tt) <-> for_each l (os_call conv) w = (w', Ret tt).
Proof.
  induction k as [|[nm n] k IH]; intros l w w' H; cbn [map] in H; inversion H; subst; [reflexivity|]. cbn [snd] in *. cbn [for_each]. split; intros E; apply bind_inv in E as (w1 & [] & E1 & E2).
  - apply (load_site_item conv nm n y w w1) in E1; [|assumption]. rewrite (bind_val _ _ _ _ _ E1). apply IH; assumption.
  - apply (load_site_item conv nm n y w w1) in E1; [|assumption]. rewrite (bind_val _ _ _ _ _ E1). apply (IH l'); assumption.
Qed.
Lemma load_sites_inv conv : forall (k : list (string * node)) (w w' : world), for_each k (load_site_parameter conv) w = (w', Ret tt) -> exists l, Forall2 is_site (map snd k) l.
Proof.
  induction k as [|[nm n] k IH]; intros w w' H; [exists []; constructor|]. cbn [for_each] in H. apply bind_inv in H as (w1 & [] & H1 & H2).
  assert (Hx : exists x, is_site n x).
  { unfold load_site_parameter in H1. cbn [snd] in H1. apply bind_inv in H1 as (v1 & n1 & K1 & H). apply lift_inv in K1 as [-> K1]. apply bind_inv in H as (v2 & a1 & _ & H).
    apply bind_inv in H as (v3 & m & K2 & _). apply lift_inv in K2 as [-> K2]. exists (n1, m). split; [apply (with_iff get_str is_text text_iff), K1|apply (with_iff get_mat is_matrix matrix_iff), K2]. }
  destruct Hx as [x Hx]. destruct (IH _ _ H2) as [l Hl]. exists (x :: l). constructor; assumption.
Qed.
End Units.
