(** Reading back what the dump wrote. *)
From Coq Require Import String Ascii List Bool ZArith Arith Lia Permutation Sorting.Sorted Ring Field Field_theory Ring_theory.
From Verif.Base Require Import Scalar Linear3 PyDict PyString PyText.
From Verif.Model Require Import MatrixParam Hamiltonian TxtVerify TxtRead Hdf5.
From Verif.Spec Require Import HamSpec TxtFormat Hdf5Spec.
From Verif.Proofs Require Import DictProofs HamBasics HamSetters HamDouble HistoryProofs CallProofs TextBasics SectionProofs TxtReadProofs LoadProofs Tb2jProofs Hdf5Files Hdf5Write.
Import ListNotations.

Section Reading.
Context {F : Type} {SF : Scalar F}.
Variable X : externals F.
Add Field F_field : (@f_field F SF).
Notation node := (@node F).
Notation kids_t := (@kids_t F).
Notation world := (@world F).
Notation site := (@site F).
Notation spinham := (@spinham F).
Notation M := (@M F).
Local Open Scope fld_scope.

(** ** Atoms *)
Definition renumber1 (i : nat) (x : site) : site := mkSite (mkAtom (name_of x) (Z.of_nat i + 1)) (st_position x) (st_spin x) (st_g x) (st_charge x).
Fixpoint renumber (i : nat) (l : list site) : list site := match l with [] => [] | x :: t => renumber1 i x :: renumber (S i) t end.
Definition opt_num (name : string) (o : option F) : kids_t := match o with Some q => [(name, Dset (DNum q) [])] | None => [] end.
Lemma atom_node a p v g q : filled (atom_body (mkSite a p (Some v) (Some g) q)) =
  Grp [] (opt_num "charge" q ++ [("g-factor", Dset (DNum g) []); ("name", Dset (DStr (a_name a)) []); ("position", Dset (vec p) []); ("spin", Dset (vec v) [])])%list%string.
Proof. destruct q; reflexivity. Qed.
Lemma load_atom_ok i (x : site) : st_spin x <> None -> st_g x <> None -> name_of x <> ""%string -> load_atom i (filled (atom_body x)) = Ret (renumber1 i x).
Proof.
  destruct x as [a p [v|] [g|] q]; cbn [st_spin st_g]; intros H1 H2 H3; try congruence. rewrite atom_node. unfold load_atom.
  unfold name_of in H3. cbn [st_atom] in H3. destruct a as [[|c n] k]; cbn [a_name] in *; [congruence|]. destruct p, v, q; reflexivity.
Qed.
Lemma load_atom_bad i (x : site) : st_spin x = None \/ st_g x = None -> exists e, load_atom i (filled (atom_body x)) = Raise e.
Proof.
  intros H. destruct x as [[n k] p [v|] g q].
  - destruct H as [H|H]; cbn in H; [discriminate|subst g].
    assert (E : filled (atom_body (mkSite (mkAtom n k) p (Some v) None q)) = Grp [] [("name", Dset (DStr n) []); ("position", Dset (vec p) []); ("spin", Dset (vec v) [])]%string) by reflexivity.
    rewrite E. unfold load_atom. destruct p, v, n; eexists; reflexivity.
  - assert (E : filled (atom_body (mkSite (mkAtom n k) p None g q)) = Grp [] [("name", Dset (DStr n) []); ("position", Dset (vec p) [])]%string) by reflexivity.
    rewrite E. unfold load_atom. destruct p, n; eexists; reflexivity.
Qed.
Lemma load_atoms_ok : forall (la : list (string * site)) i, Forall (fun p => st_spin (snd p) <> None /\ st_g (snd p) <> None /\ name_of (snd p) <> ""%string) la ->
  load_atoms i (map (fun p => (fst p, filled (atom_body (snd p)))) la) = Ret (renumber i (map snd la)).
Proof.
  induction la as [|[n x] la IH]; intros i H; [reflexivity|]. inversion H as [|? ? (A & B & C) H']; subst. cbn [map load_atoms fst snd renumber] in *.
  rewrite load_atom_ok by assumption. cbn [obind]. rewrite IH by assumption. reflexivity.
Qed.
Lemma load_atoms_bad : forall (k : kids_t) i n x, In (n, filled (atom_body x)) k -> st_spin x = None \/ st_g x = None -> exists e, load_atoms i k = Raise e.
Proof.
  induction k as [|[m y] k IH]; intros i n x H B; [destruct H|]. cbn [load_atoms]. destruct H as [H|H].
  - injection H as -> ->. destruct (load_atom_bad i x B) as [e ->]. eexists. reflexivity.
  - destruct (load_atom i y) as [s|e]; [|eexists; reflexivity]. cbn [obind]. destruct (IH (S i) n x H B) as [e ->]. eexists. reflexivity.
Qed.
Lemma renumber_length l : forall i, List.length (renumber i l) = List.length l.
Proof. induction l; intros i; cbn; [reflexivity|]. rewrite IHl. reflexivity. Qed.
Lemma renumber_facts l : forall i, map facts (renumber i l) = map facts l.
Proof. induction l as [|x l IH]; intros i; cbn; [reflexivity|]. rewrite IH. reflexivity. Qed.
Lemma renumber_names l : forall i, map name_of (renumber i l) = map name_of l.
Proof. induction l as [|x l IH]; intros i; cbn; [reflexivity|]. rewrite IH. reflexivity. Qed.
Lemma renumber_index l : forall i, map (fun x => a_index (st_atom x)) (renumber i l) = map Z.of_nat (seq (S i) (List.length l)).
Proof. induction l as [|x l IH]; intros i; cbn [renumber map List.length seq]; [reflexivity|]. rewrite IH. f_equal. cbn [renumber1 st_atom a_index]. lia. Qed.
Lemma renumber_same l : forall i, map (fun x => a_index (st_atom x)) l = map Z.of_nat (seq (S i) (List.length l)) -> renumber i l = l.
Proof.
  induction l as [|x l IH]; intros i H; [reflexivity|]. cbn [map List.length seq renumber] in *. injection H as H1 H2. rewrite IH by exact H2.
  destruct x as [[n k] p v g q]. unfold renumber1. cbn in *. f_equal. f_equal. f_equal. lia.
Qed.

(** ** Notation *)
Lemma crystal_spins l : NoDup (map name_of l) -> forall x v, In x l -> st_spin x = Some v -> spin_of (crystal X l) (st_atom x) = Some (x_norm X v).
Proof.
  intros N x v H E. unfold spin_of, crystal. cbn [w_ham new_ham h_spins]. induction l as [|y l IH]; [destruct H|]. inversion N as [|? ? Ny Nl]; subst.
  cbn [flat_map]. destruct H as [->|H].
  - unfold length_of_spin at 1. rewrite E. cbn. destruct (eq_dec (st_atom x) (st_atom x)); [reflexivity|congruence].
  - assert (Ne : st_atom x <> st_atom y).
    { intros Ea. apply Ny. apply in_map_iff. exists x. split; [|exact H]. unfold name_of. congruence. }
    unfold length_of_spin at 1. destruct (st_spin y); cbn; [destruct (eq_dec (st_atom x) (st_atom y)); [contradiction|]|]; apply IH; assumption.
Qed.
(** The properties that are written, in the order in which they are read. *)
Definition saved (h : @ham F) : list (@property F) :=
  match h_sn h, h_dc h, h_ef h, h_of h with
  | sn, dc, ef, of_ =>
      (if nonempty (h_exch h) || nonempty (h_ons h) then
         match sn with Some b => [PSpin b] | None => [] end
         ++ (if nonempty (h_exch h) then match dc with Some b => [@PDouble F b] | None => [] end ++ match ef with Some x => [PExchange x] | None => [] end else [])
         ++ (if nonempty (h_ons h) then match of_ with Some x => [POnSite x] | None => [] end else [])
       else [])%list
  end.
Lemma kid_root s (L : listing s) name n : dget (root_kids s
    (map (fun p => (fst p, filled (atom_body (snd p)))) (li_atoms s L))
    (map (fun p => (fst p, filled (bond_body (sh_ham s) (snd p)))) (li_bonds s L))
    (map (fun p => (fst p, filled (on_site_body (sh_ham s) (snd p)))) (li_sites s L))) name = Some n -> kid (written s L) name = Ret n.
Proof. intros H. unfold kid, written. rewrite H. reflexivity. Qed.
Ltac members := unfold root_kids, opt;
  repeat match goal with
  | |- context [sh_cone ?s] => destruct (sh_cone s)
  | |- context [sh_spiral ?s] => destruct (sh_spiral s)
  | |- context [nonempty ?l] => destruct (nonempty l) eqn:?
  end; try discriminate; try reflexivity.
Lemma has_exchange s L : has (written s L) "exchange" = nonempty (h_exch (w_ham (sh_ham s))).
Proof. unfold has, written, dmem. members. Qed.
Lemma has_on_site s L : has (written s L) "on-site" = nonempty (h_ons (w_ham (sh_ham s))).
Proof. unfold has, written, dmem. members. Qed.
Lemma has_spiral s L : has (written s L) "spiral-vector" = match sh_spiral s with Some _ => true | None => false end.
Proof. unfold has, written, dmem. members. Qed.
Lemma has_cone s L : has (written s L) "cone-axis" = match sh_cone s with Some _ => true | None => false end.
Proof. unfold has, written, dmem. members. Qed.
Lemma kid_cell s L : kid (written s L) "cell" = Ret (cell_node (sh_cell s)).
Proof. reflexivity. Qed.
Lemma kid_atoms s L : kid (written s L) "atoms" = Ret (Grp [] (map (fun p => (fst p, filled (atom_body (snd p)))) (li_atoms s L))).
Proof. reflexivity. Qed.
Lemma kid_notation s L : (nonempty (h_exch (w_ham (sh_ham s))) || nonempty (h_ons (w_ham (sh_ham s))))%bool = true ->
  kid (written s L) "notation" = Ret (filled (notation_body (w_ham (sh_ham s)))).
Proof. intros H. apply kid_root. revert H. members. Qed.
Lemma kid_exchange s L : nonempty (h_exch (w_ham (sh_ham s))) = true ->
  kid (written s L) "exchange" = Ret (Grp energy_attrs (map (fun p => (fst p, filled (bond_body (sh_ham s) (snd p)))) (li_bonds s L))).
Proof. intros H. apply kid_root. revert H. members. Qed.
Lemma kid_on_site s L : nonempty (h_ons (w_ham (sh_ham s))) = true ->
  kid (written s L) "on-site" = Ret (Grp energy_attrs (map (fun p => (fst p, filled (on_site_body (sh_ham s) (snd p)))) (li_sites s L))).
Proof. intros H. apply kid_root. revert H. members. Qed.
Lemma kid_spiral s L q : sh_spiral s = Some q -> kid (written s L) "spiral-vector" = Ret (Dset (vec q) [("units", "Relative")]%string).
Proof. intros H. apply kid_root. unfold root_kids. rewrite H. members. Qed.
Lemma kid_cone s L q : sh_cone s = Some q -> kid (written s L) "cone-axis" = Ret (Dset (vec q) [("units", "Absolute")]%string).
Proof. intros H. apply kid_root. unfold root_kids. rewrite H. members. Qed.
Lemma as_bool b : negb (Z.eqb (int_of_bool b) 0) = b.
Proof. destruct b; reflexivity. Qed.

Ltac note_step b p :=
  match goal with |- bind (lift ?o) ?k ?w = _ => rewrite (bind_val (lift o) k w w b) by (destruct b; reflexivity) end;
  cbv beta; rewrite ?bind_assoc; match goal with Pr : forall p h, _ -> _ -> set_property p _ = _, Rest : forall p h, _ -> _ -> _, E0 : h_exch ?h = [], O0 : h_ons ?h = [] |- bind ?m ?k (mkW ?st ?h) = _ =>
    rewrite (bind_val m k (mkW st h) (mkW st (note p h)) tt (Pr p h E0 O0));
    destruct (Rest p h E0 O0) as [? ?]; clear E0 O0 end; cbv beta.
Ltac last_step b p := rewrite ?bind_assoc;
  match goal with |- bind (lift ?o) ?k ?w = _ => rewrite (bind_val (lift o) k w w b) by reflexivity end;
  cbv beta; rewrite ?bind_assoc; match goal with Pr : forall p h, _ -> _ -> set_property p _ = _, Rest : forall p h, _ -> _ -> _, E0 : h_exch ?h = [], O0 : h_ons ?h = [] |- bind ?m ?k (mkW ?st ?h) = _ =>
    rewrite (bind_val m k (mkW st h) (mkW st (note p h)) tt (Pr p h E0 O0));
    destruct (Rest p h E0 O0) as [? ?]; clear E0 O0 end; cbv beta.
Ltac final_step b p :=
  match goal with |- bind (lift ?o) ?k ?w = _ => rewrite (bind_val (lift o) k w w b) by reflexivity end;
  cbv beta; rewrite ?bind_assoc; match goal with Pr : forall p h, _ -> _ -> set_property p _ = _, E0 : h_exch ?h = [], O0 : h_ons ?h = [] |- _ => exact (Pr p h E0 O0) end.
Lemma load_notation_ok s L st h0 : complete s -> h_exch h0 = [] -> h_ons h0 = [] ->
  load_notation (written s L) (mkW st h0) = (mkW st (noted (saved (w_ham (sh_ham s))) h0), Ret tt).
Proof.
  intros (_ & Hs & Hb & Ho) E0 O0. unfold load_notation. rewrite has_exchange, has_on_site.
  rewrite bonds_nil in Hs, Hb. rewrite sites_nil in Hs, Ho. unfold saved.
  destruct (nonempty (h_exch (w_ham (sh_ham s))) || nonempty (h_ons (w_ham (sh_ham s))))%bool eqn:EN; [|reflexivity].
  rewrite (bind_val (lift (kid (written s L) "notation")) _ _ _ _ (f_equal (pair _) (kid_notation s L EN))).
  assert (Hsn : exists sn, h_sn (w_ham (sh_ham s)) = Some sn).
  { apply Bool.orb_true_iff in EN. rewrite !nonempty_true in EN. specialize (Hs EN). destruct (h_sn (w_ham (sh_ham s))); [eauto|congruence]. }
  destruct Hsn as [sn Esn].
  assert (Pr : forall p h, h_exch h = [] -> h_ons h = [] -> set_property p (mkW st h) = (mkW st (note p h), Ret tt)) by (intros; apply set_property_empty; assumption).
  assert (Rest : forall p (h : @ham F), h_exch h = [] -> h_ons h = [] -> h_exch (note p h) = [] /\ h_ons (note p h) = []).
  { intros p h A B. destruct (note_rest p h) as (C & D & _). split; congruence. }
  destruct (nonempty (h_exch (w_ham (sh_ham s)))) eqn:E1; destruct (nonempty (h_ons (w_ham (sh_ham s)))) eqn:E2; try discriminate.
  all: try (apply nonempty_true in E1; destruct (Hb E1) as [Hd He]; destruct (h_dc (w_ham (sh_ham s))) as [dc|] eqn:Ed; [|congruence]; destruct (h_ef (w_ham (sh_ham s))) as [ef|] eqn:Eef; [|congruence]; apply nonempty_true in E1).
  all: try (apply nonempty_true in E2; specialize (Ho E2); destruct (h_of (w_ham (sh_ham s))) as [of_|] eqn:Eof; [|congruence]; apply nonempty_true in E2).
  all: unfold notation_body; rewrite Esn, ?E1, ?E2, ?Ed, ?Eef, ?Eof; clear Hs Hb Ho.
  - change (filled _) with (Grp [] [("double-counting", Dset (DInt (int_of_bool dc)) []); ("exchange-factor", Dset (@DNum F ef) []); ("on-site-factor", Dset (DNum of_) []); ("spin-normalized", Dset (DInt (int_of_bool sn)) [])])%string.
    cbn [app]. note_step sn (@PSpin F sn). rewrite ?bind_assoc. note_step dc (@PDouble F dc). last_step ef (PExchange ef). final_step of_ (POnSite of_).
  - change (filled _) with (Grp [] [("double-counting", Dset (DInt (int_of_bool dc)) []); ("exchange-factor", Dset (@DNum F ef) []); ("spin-normalized", Dset (DInt (int_of_bool sn)) [])])%string.
    cbn [app]. note_step sn (@PSpin F sn). rewrite ?bind_assoc. note_step dc (@PDouble F dc). last_step ef (PExchange ef). reflexivity.
  - change (filled _) with (Grp [] [("on-site-factor", Dset (@DNum F of_) []); ("spin-normalized", Dset (DInt (int_of_bool sn)) [])])%string.
    cbn [app]. note_step sn (@PSpin F sn). rewrite (bind_val (ret tt) _ _ _ tt) by reflexivity. final_step of_ (POnSite of_).
Qed.

(** ** Parameters *)
Lemma bond_node w0 a b i j k l : filled (bond_body w0 (mkB a b (i, j, k), l)) =
  Grp [] [("atom-1", Dset (@DStr F (a_name a)) []); ("atom-2", Dset (DStr (a_name b)) []); ("ijk", Dset (DInts [i; j; k]) []); ("matrix", Dset (DMat (matrix_of w0 l)) [])]%string.
Proof. reflexivity. Qed.
Lemma on_site_node w0 a l : filled (on_site_body w0 (a, l)) =
  Grp [] [("atom", Dset (@DStr F (a_name a)) []); ("matrix", Dset (DMat (matrix_of w0 l)) [])]%string.
Proof. reflexivity. Qed.
Lemma find_atom_ok (w : world) a : names_ok w -> In a (h_atoms (w_ham w)) -> find_atom (a_name a) w = (w, Ret a).
Proof. intros N I. unfold find_atom, try_catch. rewrite (get_atom_ok w a N I). reflexivity. Qed.
Lemma resolve_obj (w : world) a : In a (h_atoms (w_ham w)) -> resolve_add (AObj a) w = (w, Ret a).
Proof. intros I. cbn [resolve_add]. rewrite bind_gets. unfold mem_atom. destruct (in_dec eq_dec a (h_atoms (w_ham w))); [reflexivity|contradiction]. Qed.

Definition named (w : world) (n : string) : Prop := exists a, In a (h_atoms (w_ham w)) /\ a_name a = n.
Definition bond_call (w0 : world) (conv : F) (p : string * (bkey * loc)) : call :=
  (a_name (b_from (fst (snd p))), a_name (b_to (fst (snd p))), b_cell (fst (snd p)), Some (mscale conv (matrix_of w0 (snd (snd p))))).
Lemma load_bond_call w0 conv p (w : world) : names_ok w -> named w (a_name (b_from (fst (snd p)))) -> named w (a_name (b_to (fst (snd p)))) ->
  load_bond conv (fst p, filled (bond_body w0 (snd p))) w = do_call (bond_call w0 conv p) w.
Proof.
  intros N (a1 & I1 & E1) (a2 & I2 & E2). destruct p as [lbl [[x y [[i j] k]] l]]. cbn [fst snd b_from b_to b_cell] in *. rewrite bond_node. unfold load_bond, bond_call, do_call. cbn [fst snd b_from b_to b_cell].
  rewrite <- E1, <- E2. unfold add_exchange_new at 2. cbn [resolve_add].
  rewrite (bind_val _ _ _ _ _ (get_atom_ok w a1 N I1)), (bind_val _ _ _ _ _ (get_atom_ok w a2 N I2)).
  rewrite (bind_val (lift _) _ w w (a_name a1)) by reflexivity. rewrite (bind_val _ _ _ _ _ (find_atom_ok w a1 N I1)).
  rewrite (bind_val (lift _) _ w w (a_name a2)) by reflexivity. rewrite (bind_val _ _ _ _ _ (find_atom_ok w a2 N I2)).
  rewrite (bind_val (lift _) _ w w (i, j, k)) by reflexivity. rewrite (bind_val (lift _) _ w w (matrix_of w0 l)) by reflexivity.
  unfold add_exchange_new. rewrite (bind_val _ _ _ _ _ (resolve_obj w a1 I1)), (bind_val _ _ _ _ _ (resolve_obj w a2 I2)). reflexivity.
Qed.
Definition site_entry (w0 : world) (p : string * (atom * loc)) : string * M3 F := (a_name (fst (snd p)), matrix_of w0 (snd (snd p))).
Lemma load_site_call w0 conv p (w : world) : names_ok w -> named w (a_name (fst (snd p))) ->
  load_site_parameter conv (fst p, filled (on_site_body w0 (snd p))) w = os_call conv (site_entry w0 p) w.
Proof.
  intros N (a & I1 & E1). destruct p as [lbl [x l]]. cbn [fst snd] in *. rewrite on_site_node. unfold load_site_parameter, os_call, site_entry. cbn [fst snd].
  rewrite <- E1. rewrite (bind_val _ _ _ _ _ (get_atom_ok w a N I1)).
  rewrite (bind_val (lift _) _ w w (a_name a)) by reflexivity. rewrite (bind_val _ _ _ _ _ (find_atom_ok w a N I1)).
  rewrite (bind_val (lift _) _ w w (matrix_of w0 l)) by reflexivity. reflexivity.
Qed.
Lemma load_bonds_calls w0 conv : forall le (w : world), Inv w -> names_ok w ->
  Forall (fun p => named w (a_name (b_from (fst (snd p)))) /\ named w (a_name (b_to (fst (snd p))))) le ->
  for_each (map (fun p => (fst p, filled (bond_body w0 (snd p)))) le) (load_bond conv) w = for_each (map (bond_call w0 conv) le) do_call w.
Proof.
  induction le as [|p le IH]; intros w I N H; [reflexivity|]. inversion H as [|? ? [H1 H2] H']; subst. cbn [map for_each]. unfold bind.
  rewrite (load_bond_call w0 conv p w N H1 H2). destruct (do_call (bond_call w0 conv p) w) as [w1 [[]|e]] eqn:E; [|reflexivity].
  destruct (call_step _ _ _ _ _ _ I E) as (k & _ & _ & _ & I1 & (Fa & _) & _). apply IH; [exact I1|unfold names_ok; rewrite Fa; exact N|].
  eapply Forall_impl; [|exact H']. unfold named. rewrite Fa. auto.
Qed.
Lemma load_sites_calls w0 conv : forall lo (w : world), Inv w -> names_ok w ->
  Forall (fun p => named w (a_name (fst (snd p)))) lo ->
  for_each (map (fun p => (fst p, filled (on_site_body w0 (snd p)))) lo) (load_site_parameter conv) w = for_each (map (site_entry w0) lo) (os_call conv) w.
Proof.
  induction lo as [|p lo IH]; intros w I N H; [reflexivity|]. inversion H as [|? ? H1 H']; subst. cbn [map for_each]. unfold bind.
  rewrite (load_site_call w0 conv p w N H1). destruct (os_call conv (site_entry w0 p) w) as [w1 [[]|e]] eqn:E; [|reflexivity].
  destruct (os_step _ _ _ _ _ I E) as (k & _ & _ & I1 & (Fa & _) & _). apply IH; [exact I1|unfold names_ok; rewrite Fa; exact N|].
  eapply Forall_impl; [|exact H']. unfold named. rewrite Fa. auto.
Qed.

(** *** One value per key *)
Lemma last_key_unique k (ks : list (@keyed F)) m : (exists kc, In kc ks /\ fst kc = k) -> (forall kc, In kc ks -> fst kc = k -> snd kc = m) -> last_key k ks = Some m.
Proof.
  induction ks as [|c ks IH] using rev_ind; intros (kc & I & E) H; [destruct I|]. eapply eq_trans; [apply last_key_snoc|].
  destruct (eq_dec (fst c) k) as [Ec|Nc]; [f_equal; apply H; [apply in_or_app; right; left; reflexivity|exact Ec]|].
  apply IH; [|intros; apply H; [apply in_or_app; left; assumption|assumption]]. exists kc. split; [|exact E].
  apply in_app_or in I. destruct I as [I|[<-|[]]]; [exact I|contradiction].
Qed.
Lemma last_entry_unique n (es : list (string * M3 F)) m : (exists e, In e es /\ fst e = n) -> (forall e, In e es -> fst e = n -> snd e = m) -> last_entry n es = Some m.
Proof.
  unfold last_entry. induction es as [|c es IH] using rev_ind; intros (e & I & E) H; [destruct I|]. rewrite last_some_snoc.
  destruct (string_dec (fst c) n) as [Ec|Nc]; [f_equal; apply H; [apply in_or_app; right; left; reflexivity|exact Ec]|].
  apply IH; [|intros; apply H; [apply in_or_app; left; assumption|assumption]]. exists e. split; [|exact E].
  apply in_app_or in I. destruct I as [I|[<-|[]]]; [exact I|contradiction].
Qed.
Lemma last_entry_none n (es : list (string * M3 F)) : (forall e, In e es -> fst e <> n) -> last_entry n es = None.
Proof.
  unfold last_entry. induction es as [|c es IH] using rev_ind; intros H; [reflexivity|]. rewrite last_some_snoc.
  destruct (string_dec (fst c) n) as [Ec|Nc]; [exfalso; apply (H c); [apply in_or_app; right; left; reflexivity|exact Ec]|].
  apply IH. intros; apply H, in_or_app; left; assumption.
Qed.
Lemma Forall2_In_l {A B} (P : A -> B -> Prop) l l' x : Forall2 P l l' -> In x l -> exists y, In y l' /\ P x y.
Proof. induction 1; intros []; [subst; eexists; split; [left; reflexivity|assumption]|]. destruct IHForall2 as (z & ? & ?); [assumption|]. exists z. split; [right|]; assumption. Qed.
Lemma Forall2_In_r {A B} (P : A -> B -> Prop) l l' y : Forall2 P l l' -> In y l' -> exists x, In x l /\ P x y.
Proof. induction 1; intros []; [subst; eexists; split; [left; reflexivity|assumption]|]. destruct IHForall2 as (z & ? & ?); [assumption|]. exists z. split; [right|]; assumption. Qed.

End Reading.
