(** The words of a dumped file. *)
From Coq Require Import String Ascii List Bool ZArith Arith Lia DecimalString.
From Verif.Base Require Import Scalar Linear3 PyDict PyString PyText.
From Verif.Spec Require Import HamSpec TxtSpec TxtFormat Hdf5Spec TxtDumpSpec.
From Verif.Model Require Import MatrixParam Hamiltonian TxtVerify TxtRead Hdf5 TxtDump.
From Verif.Proofs Require Import TextBasics SectionProofs TxtReadProofs TextGlue DumpText.
Import ListNotations.
Local Open Scope string_scope.

(** ** Single words *)
Lemma digit_not_space c : digit_char c -> is_space c = false /\ c <> "#"%char /\ c <> "-"%char /\ c <> "="%char.
Proof.
  unfold digit_char. intros H. destruct c as [[] [] [] [] [] [] [] []]; cbn in H; try lia; repeat split; try reflexivity; discriminate.
Qed.
Lemma plain_chars t : all_chars (fun d => digit_char d \/ d = "."%char) t -> all_chars (fun c => is_space c = false /\ c <> "#"%char) t.
Proof. apply all_impl. intros c [H| ->]; [destruct (digit_not_space c H); tauto|split; [reflexivity|discriminate]]. Qed.
Lemma plain_one_word w : plain_number w -> one_word w.
Proof.
  intros (c & t & [-> | ->] & D & H); apply plain_chars in H; destruct (digit_not_space c D) as (A & B & _); (split; [discriminate|]); cbn [all_chars];
    repeat split; auto; discriminate.
Qed.
Lemma plain_solid w : plain_number w -> solid w.
Proof.
  intros (c & t & [-> | ->] & D & H); destruct (digit_not_space c D) as (_ & _ & A & B); cbn [solid]; [tauto|].
  split; [discriminate|right; exact A].
Qed.
Lemma uint_word d : all_chars (fun c => digit_char c) (NilEmpty.string_of_uint d).
Proof. induction d; cbn [NilEmpty.string_of_uint all_chars]; try exact I; (split; [unfold digit_char; cbn; lia|assumption]). Qed.
Lemma nz_uint_word d : plain_number (NilZero.string_of_uint d).
Proof.
  pose proof (uint_word d) as H. unfold NilZero.string_of_uint. destruct d; cbn [NilEmpty.string_of_uint] in *;
    try (eexists _, _; split; [left; reflexivity|]; split; [apply H|]; destruct H as [_ H]; revert H; apply all_impl; auto).
  exists "0"%char, "". split; [left; reflexivity|]. split; [unfold digit_char; cbn; lia|exact I].
Qed.
Lemma int_plain z : plain_number (str_int z).
Proof.
  unfold str_int, NilZero.string_of_int. destruct (Z.to_int z) as [d|d]; [apply nz_uint_word|].
  destruct (nz_uint_word d) as (c & t & [E|E] & D & H).
  - exists c, t. rewrite E. auto.
  - exfalso. pose proof (uint_word d) as U. unfold NilZero.string_of_uint in E. destruct d; cbn in E, U; try discriminate; injection E as E _; discriminate.
Qed.
Lemma bool_word b : one_word (str_bool b).
Proof. destruct b; (split; [discriminate|]); cbn; repeat split; discriminate. Qed.
Lemma good_one_word w : good_name w -> one_word w.
Proof. intros [H _]. exact H. Qed.
Lemma letter_facts c : letter_or_digit c -> c <> "="%char /\ c <> "-"%char /\ c <> "_"%char /\ is_alnum c = true.
Proof.
  unfold letter_or_digit. intros H. destruct c as [[] [] [] [] [] [] [] []]; cbn in H; try lia; repeat split; try reflexivity; discriminate.
Qed.
Lemma good_solid w : good_name w -> solid w.
Proof. intros (_ & (c & t & -> & H) & _). destruct (letter_facts c H) as (A & B & _). split; auto. Qed.

(** ** Lists of entries *)
Definition entries (text : list string) (wss : list (list string)) : Prop := exists wsss, Forall2 entry text wsss /\ concat wsss = wss.
Lemma entries_nil : entries [] [].
Proof. exists []. split; [constructor|reflexivity]. Qed.
Lemma entries_cons e t w wss : entry e w -> entries t wss -> entries (e :: t) (w ++ wss).
Proof. intros H (wsss & A & B). exists (w :: wsss). split; [constructor; assumption|cbn; rewrite B; reflexivity]. Qed.
Lemma entries_one e w : entry e w -> entries [e] w.
Proof. intros H. rewrite <- (app_nil_r w). apply entries_cons; [exact H|exact entries_nil]. Qed.
Lemma entries_line e t ws wss : entry e [ws] -> entries t wss -> entries (e :: t) (ws :: wss).
Proof. intros H1 H2. apply (entries_cons e t [ws] wss H1 H2). Qed.
Lemma entries_silent e t wss : entry e [] -> entries t wss -> entries (e :: t) wss.
Proof. intros H1 H2. apply (entries_cons e t [] wss H1 H2). Qed.
Lemma entries_app t1 t2 w1 w2 : entries t1 w1 -> entries t2 w2 -> entries (t1 ++ t2) (w1 ++ w2).
Proof. intros (a & A & A') (b & B & B'). exists (a ++ b)%list. split; [apply Forall2_app; assumption|rewrite concat_app; congruence]. Qed.
Lemma entries_flat {A} (f : A -> list string) (g : A -> list (list string)) l : (forall x, In x l -> entries (f x) (g x)) -> entries (flat_map f l) (flat_map g l).
Proof.
  induction l as [|x l IH]; intros H; [exact entries_nil|]. cbn [flat_map]. apply entries_app; [apply H; left; reflexivity|]. apply IH. intros y I. apply H. right. exact I.
Qed.
Lemma entries_join text wss : entries text wss -> text <> [] -> entry (join nl text) wss.
Proof. intros (wsss & A & <-) N. apply entry_join; assumption. Qed.

Lemma sep_entry : entry SEPARATOR [sep_words].
Proof. apply entry_words; [apply all_repeat; split; discriminate|reflexivity|discriminate]. Qed.
Lemma sub_entry : entry SUBSEPARATOR [sub_words].
Proof. apply entry_words; [apply all_repeat; split; discriminate|reflexivity|discriminate]. Qed.

Ltac clean_string := repeat split; discriminate.
Ltac lit := apply entry_words; [clean_string|reflexivity|discriminate].

Section Words.
Context {F : Type} {SF : Scalar F}.
Variable X : externals F.
Variable P : printer F.
Variable rnd : nat -> F -> F.
Hypothesis HP : prints X P rnd.
Notation spinham := (@spinham F).
Notation site := (@site F).
Notation world := (@world F).

Definition w8 (x : F) : string := pr_fixed P 8 x.
Definition w4 (x : F) : string := pr_fixed P 4 x.
Definition w8v (v : V3 F) : list string := [w8 (vx v); w8 (vy v); w8 (vz v)].
Definition w4v (v : V3 F) : list string := [w4 (vx v); w4 (vy v); w4 (vz v)].

Definition w_cell (m : M3 F) : list (list string) := [["Cell"; "Angstrom"]; w8v (row1 m); w8v (row2 m); w8v (row3 m)].
Definition w_atom (x : site) : list string :=
  (a_name (st_atom x) :: w8v (st_position x) ++ match st_spin x with Some s => w4v s | None => ["-"; "-"; "-"] end)%list.
Definition w_header (fl : flags) : list string := (["name"; "r1"; "r2"; "r3"] ++ (if fl_angles fl then ["St"; "Sp"; "S"] else ["Sx"; "Sy"; "Sz"]))%list.
Definition w_atoms (fl : flags) (l : list site) : list (list string) := ["Atoms"] :: w_header fl :: map w_atom l.
Definition opt {A} (o : option A) (f : A -> list (list string)) : list (list string) := match o with Some a => f a | None => [] end.
Definition w_props (h : @ham F) : list (list string) :=
  (opt (h_sn h) (fun b => [["Spin-normalized"; str_bool b]])
   ++ (if Hdf5.nonempty (h_exch h) then opt (h_dc h) (fun b => [["Double-counting"; str_bool b]]) ++ opt (h_ef h) (fun x => [["Exchange-factor"; pr_str P x]]) else [])
   ++ (if Hdf5.nonempty (h_ons h) then opt (h_of h) (fun x => [["On-site-factor"; pr_str P x]]) else []))%list.
Definition w_bond_header (k : bkey) : list string :=
  let '(i, j, l) := b_cell k in [a_name (b_from k); a_name (b_to k); str_int i; str_int j; str_int l].
Definition w_data (fl : flags) (m : M3 F) : list (list string) :=
  ((if fl_iso fl then [["Isotropic"; w4 (p_iso m)]] else [])
   ++ (if fl_dmi fl then ["DMI" :: w4v (p_dmi m)] else [])
   ++ (if fl_symm fl then [let a := p_aniso m in ["Symmetric-anisotropy"; w4 (mxx a); w4 (myy a); w4 (mxy a); w4 (mxz a); w4 (myz a)]] else [])
   ++ (if fl_matrix fl then [["Matrix"]; w4v (row1 m); w4v (row2 m); w4v (row3 m)] else []))%list.
Definition w_bond (fl : flags) (k : bkey) (m : M3 F) : list (list string) := w_bond_header k :: w_data fl m.
Definition w_exchange (fl : flags) (w : world) : list (list string) :=
  (["Exchange"; "milli-electron-Volt"] :: sub_words ::
   flat_map (fun p => if self_bond (fst p) then [] else w_bond fl (fst p) (matrix_of w (snd p)) ++ [sub_words]) (h_exch (w_ham w)))%list.
Definition w_on_site (w : world) : list (list string) :=
  (["On-site"; "milli-electron-Volt"] :: sub_words ::
   flat_map (fun p => let m := matrix_of w (snd p) in
     [[a_name (fst p)]; [w4 (mxx m); w4 (myy m); w4 (mzz m); w4 (mxy m); w4 (mxz m); w4 (myz m)]; sub_words]) (h_ons (w_ham w)))%list.
Definition w_cone (n : V3 F) : list (list string) := [["Cone-axis"; "absolute"]; w8v n].
Definition w_spiral (q : V3 F) : list (list string) := [["Spiral-vector"; "relative"]; w8v q].
Definition wsecs (fl : flags) (s : spinham) : list (list (list string)) :=
  let w := sh_ham s in let h := w_ham w in
  ([w_cell (sh_cell s); w_atoms fl (sh_sites s)]
   ++ (if Hdf5.nonempty (h_exch h) || Hdf5.nonempty (h_ons h) then [["Notation"] :: w_props h] else [])
   ++ (if Hdf5.nonempty (h_exch h) then [w_exchange fl w] else [])
   ++ (if Hdf5.nonempty (h_ons h) then [w_on_site w] else [])
   ++ match sh_cone s with Some n => [w_cone n] | None => [] end
   ++ match sh_spiral s with Some q => [w_spiral q] | None => [] end)%list.

Lemma fixed_word p x : one_word (pr_fixed P p x).
Proof. apply plain_one_word, (pn_plain _ _ _ HP). Qed.
Lemma i8 x : item_of (f12_8 P x) (w8 x).
Proof. apply item_left, fixed_word. Qed.
Lemma i4 x : item_of (f8_4 P x) (w4 x).
Proof. apply item_left, fixed_word. Qed.
Hint Resolve i8 i4 : core.
Ltac items := repeat (constructor; [auto|]); constructor.

Lemma row4_entry v : entry (row_text P v) [w4v v].
Proof. apply entry_items; [items|discriminate]. Qed.
Lemma vector_entry v : entry (vector_line P v) [w8v v].
Proof. apply entry_items; [items|discriminate]. Qed.

Lemma no_lf_padded n w : one_word w -> no_lf (pad_right n w).
Proof. intros H. apply ok_no_lf, (item_right n w H). Qed.
Lemma header_entry fl k : one_word (a_name (b_from k)) -> one_word (a_name (b_to k)) -> entry (bond_header P fl k) [w_bond_header k].
Proof.
  intros N1 N2. unfold bond_header, w_bond_header. destruct (b_cell k) as [[i j] l].
  assert (I : Forall2 item_of [pad_right 6 (a_name (b_from k)); pad_right 6 (a_name (b_to k)); pad_left 3 (str_int i); pad_left 3 (str_int j); pad_left 3 (str_int l)]
    [a_name (b_from k); a_name (b_to k); str_int i; str_int j; str_int l]).
  { repeat constructor; first [apply item_right|apply item_left]; auto; apply plain_one_word, int_plain. }
  destruct (fl_distance fl).
  - apply (entry_items_comment _ _ _ I); [discriminate|]. split; [discriminate|]. apply no_lf_padded, fixed_word.
  - rewrite app_nil_r. apply (entry_items _ _ I). discriminate.
Qed.
Lemma bond_entry fl k m : one_word (a_name (b_from k)) -> one_word (a_name (b_to k)) -> entry (write_exchange P fl k m) (w_bond fl k m).
Proof.
  intros N1 N2. unfold write_exchange, w_bond. apply entries_join; [|discriminate]. cbn [app]. apply entries_line; [apply header_entry; assumption|].
  unfold w_data. apply entries_app; [|apply entries_app; [|apply entries_app]].
  - destruct (fl_iso fl); [|exact entries_nil]. apply entries_one.
    change ("Isotropic " ++ f8_4 P (p_iso m)) with (join " " ["Isotropic"; f8_4 P (p_iso m)]).
    apply (entry_items _ ["Isotropic"; w4 (p_iso m)]); [|discriminate]. constructor; [split; [reflexivity|clean_string]|items].
  - destruct (fl_dmi fl); [|exact entries_nil]. apply entries_one. apply (entry_items _ ("DMI" :: w4v (p_dmi m))); [|discriminate].
    constructor; [split; [reflexivity|clean_string]|items].
  - destruct (fl_symm fl); [|exact entries_nil]. apply entries_silent; [apply entry_comment; clean_string|]. cbv zeta. apply entries_one.
    apply (entry_items _ ["Symmetric-anisotropy"; w4 (mxx (p_aniso m)); w4 (myy (p_aniso m)); w4 (mxy (p_aniso m)); w4 (mxz (p_aniso m)); w4 (myz (p_aniso m))]); [|discriminate].
    constructor; [split; [reflexivity|clean_string]|items].
  - destruct (fl_matrix fl); [|exact entries_nil]. apply entries_line; [lit|]. repeat (apply entries_line; [apply row4_entry|]). exact entries_nil.
Qed.

Lemma cell_row_entry v t : no_lf t -> entry (cell_row P v (String "#" t)) [w8v v].
Proof. intros L. apply (entry_items_comment [f12_8 P (vx v); f12_8 P (vy v); f12_8 P (vz v)]); [items|discriminate|exact L]. Qed.
Lemma logo_entry : entry (join nl (pr_logo P)) [].
Proof.
  apply entries_join; [|apply (pn_some _ _ _ HP)]. pose proof (pn_logo _ _ _ HP) as L. induction L as [|l t (x & -> & H) _ IH]; [exact entries_nil|].
  apply entries_silent; [apply entry_comment; exact H|exact IH].
Qed.
Lemma cell_entries m : entries (cell_text P m) (sep_words :: w_cell m ++ [sep_words]).
Proof.
  unfold cell_text. apply entries_silent; [exact logo_entry|]. apply entries_line; [exact sep_entry|]. apply entries_line; [lit|].
  apply entries_silent; [apply entry_comment; clean_string|]. repeat (apply entries_line; [apply cell_row_entry; clean_string|]).
  apply entries_one. exact sep_entry.
Qed.
Lemma ret_inj {A} (a b : A) : Ret a = Ret b -> a = b.
Proof. congruence. Qed.
Lemma atom_entry fl x t : one_word (a_name (st_atom x)) -> atom_text P fl x = Ret t -> entry t [w_atom x].
Proof.
  intros N E. unfold atom_text in E. unfold w_atom. destruct (st_spin x) as [s|].
  - destruct (fl_angles fl); [discriminate|]. apply ret_inj in E. rewrite <- E.
    apply entry_items; [constructor; [apply item_right, N|]; items|discriminate].
  - apply ret_inj in E. rewrite <- E. apply entry_items; [|discriminate]. constructor; [apply item_right, N|].
    do 3 (constructor; [auto|]). assert (D : item_of (pad_left 8 "-") "-") by (apply item_left; (split; [discriminate|]); clean_string). items.
Qed.
Lemma atoms_entries fl l : Forall (fun x => one_word (a_name (st_atom x))) l -> forall ts, atom_texts P fl l = Ret ts -> entries ts (map w_atom l).
Proof.
  induction 1 as [|x l N Nl IH]; cbn [atom_texts]; intros ts E; [inversion E; exact entries_nil|].
  destruct (atom_text P fl x) as [a|] eqn:Ea; [|discriminate]. cbn [obind] in E. destruct (atom_texts P fl l) as [r|]; [|discriminate]. cbn in E. inversion E; subst.
  cbn [map]. apply entries_line; [apply (atom_entry fl); assumption|apply IH; reflexivity].
Qed.
Lemma atoms_header_entry fl : entry (atoms_header fl) [w_header fl].
Proof. unfold atoms_header, w_header. destruct (fl_angles fl); lit. Qed.
Lemma prop_entry k w : item_of k k -> one_word w -> entry (k ++ " " ++ w) [[k; w]].
Proof.
  intros K W. change (k ++ " " ++ w) with (join " " [k; w]). apply entry_items; [|discriminate]. constructor; [exact K|]. constructor; [apply item_word, W|constructor].
Qed.
Lemma notation_entries (h : @ham F) ts : notation_text P h = Ret ts ->
  entries ts (if Hdf5.nonempty (h_exch h) || Hdf5.nonempty (h_ons h) then (["Notation"] :: w_props h) ++ [sep_words] else [])%list
  /\ ((Hdf5.nonempty (h_exch h) || Hdf5.nonempty (h_ons h))%bool = true -> h_sn h <> None)
  /\ (Hdf5.nonempty (h_exch h) = true -> h_dc h <> None /\ h_ef h <> None) /\ (Hdf5.nonempty (h_ons h) = true -> h_of h <> None).
Proof.
  unfold notation_text, w_props. intros E. destruct (Hdf5.nonempty (h_exch h)), (Hdf5.nonempty (h_ons h)); cbn [orb] in *;
    destruct (h_sn h) as [sn|], (h_dc h) as [dc|], (h_ef h) as [ef|], (h_of h) as [of_|]; cbn in E; try discriminate; inversion E; subst ts;
    (split; [|repeat split; discriminate]); cbn [opt app];
    repeat first [exact entries_nil | apply entries_line; [exact sep_entry|] | apply entries_line; [lit|]
                 | apply entries_line; [first [apply (prop_entry "Spin-normalized")|apply (prop_entry "Double-counting")|apply (prop_entry "Exchange-factor")|apply (prop_entry "On-site-factor")];
                     [split; [reflexivity|clean_string]|first [apply bool_word|apply (pn_word _ _ _ HP)]]|]].
Qed.
Lemma exchange_entries fl (w : world) : (forall k, In k (bonds w) -> one_word (a_name (b_from k)) /\ one_word (a_name (b_to k))) ->
  entries (exchange_text_of P fl w) (if Hdf5.nonempty (h_exch (w_ham w)) then w_exchange fl w ++ [sep_words] else [])%list.
Proof.
  intros N. unfold exchange_text_of. destruct (Hdf5.nonempty (h_exch (w_ham w))); [|exact entries_nil]. cbn [app].
  apply entries_line; [lit|]. apply entries_silent.
  { destruct (fl_distance fl); apply entry_comment; clean_string. }
  apply entries_line; [exact sub_entry|]. apply entries_app; [|apply entries_one, sep_entry].
  apply entries_flat. intros [k l] I. cbn [fst snd]. destruct (self_bond k); [exact entries_nil|].
  destruct (N k) as [N1 N2]; [apply in_map_iff; exists (k, l); auto|]. apply entries_cons; [apply bond_entry; assumption|apply entries_one, sub_entry].
Qed.
Lemma on_site_entries (w : world) : (forall a, In a (sites w) -> one_word (a_name a)) ->
  entries (on_site_text_of P w) (if Hdf5.nonempty (h_ons (w_ham w)) then w_on_site w ++ [sep_words] else [])%list.
Proof.
  intros N. unfold on_site_text_of. destruct (Hdf5.nonempty (h_ons (w_ham w))); [|exact entries_nil]. cbn [app].
  apply entries_line; [lit|]. apply entries_line; [exact sub_entry|]. apply entries_app; [|apply entries_one, sep_entry].
  apply entries_flat. intros [a l] I. cbn [fst snd]. assert (Na : one_word (a_name a)) by (apply N, in_map_iff; exists (a, l); auto). cbv zeta.
  apply entries_line; [apply entry_words; [apply one_word_ok, Na|apply py_split_word, one_word_word, Na|discriminate]|].
  apply entries_line; [apply entry_items; [items|discriminate]|]. apply entries_one, sub_entry.
Qed.

Definition named (s : spinham) : Prop :=
  Forall (fun x => one_word (a_name (st_atom x))) (sh_sites s)
  /\ (forall k, In k (bonds (sh_ham s)) -> one_word (a_name (b_from k)) /\ one_word (a_name (b_to k)))
  /\ (forall a, In a (sites (sh_ham s)) -> one_word (a_name a)).
Theorem dump_words fl s content : named s -> dump_txt P fl s = Ret content ->
  exists ts, file_shows (readlines content) ts /\ map py_split ts = sep_words :: flat_map (fun x => x ++ [sep_words])%list (wsecs fl s).
Proof.
  intros (N1 & N2 & N3) E. unfold dump_txt, dump_text in E. destruct (atom_texts P fl (sh_sites s)) as [atoms|] eqn:Ea; [|discriminate].
  cbn [obind] in E. destruct (notation_text P (w_ham (sh_ham s))) as [nt|] eqn:En; [|discriminate]. cbn [obind] in E. apply ret_inj in E.
  assert (G : entry content (sep_words :: flat_map (fun x => x ++ [sep_words])%list (wsecs fl s))).
  { rewrite <- E. apply entries_join; [|discriminate].
    replace (sep_words :: flat_map (fun x => x ++ [sep_words])%list (wsecs fl s)) with
      ((sep_words :: w_cell (sh_cell s) ++ [sep_words]) ++ [["Atoms"]; w_header fl] ++ map w_atom (sh_sites s) ++ [sep_words]
       ++ (if Hdf5.nonempty (h_exch (w_ham (sh_ham s))) || Hdf5.nonempty (h_ons (w_ham (sh_ham s))) then (["Notation"] :: w_props (w_ham (sh_ham s))) ++ [sep_words] else [])
       ++ (if Hdf5.nonempty (h_exch (w_ham (sh_ham s))) then w_exchange fl (sh_ham s) ++ [sep_words] else [])
       ++ (if Hdf5.nonempty (h_ons (w_ham (sh_ham s))) then w_on_site (sh_ham s) ++ [sep_words] else [])
       ++ match sh_cone s with Some n => w_cone n ++ [sep_words] | None => [] end
       ++ match sh_spiral s with Some q => w_spiral q ++ [sep_words] | None => [] end)%list.
    - apply entries_app; [apply cell_entries|]. apply entries_app; [apply entries_line; [lit|]; apply entries_one, atoms_header_entry|].
      apply entries_app; [apply (atoms_entries fl); assumption|]. apply entries_app; [apply entries_one, sep_entry|].
      apply entries_app; [apply notation_entries; assumption|]. apply entries_app; [apply exchange_entries; assumption|].
      apply entries_app; [apply on_site_entries; assumption|]. apply entries_app.
      + destruct (sh_cone s); [|exact entries_nil]. apply entries_line; [lit|]. apply entries_line; [apply vector_entry|]. apply entries_one, sep_entry.
      + destruct (sh_spiral s); [|exact entries_nil]. apply entries_line; [lit|]. apply entries_line; [apply vector_entry|]. apply entries_one, sep_entry.
    - unfold wsecs. cbv zeta. destruct (Hdf5.nonempty (h_exch (w_ham (sh_ham s)))), (Hdf5.nonempty (h_ons (w_ham (sh_ham s)))), (sh_cone s), (sh_spiral s);
        unfold w_atoms; cbn [orb app flat_map]; rewrite ?app_nil_r; repeat (rewrite <- ?app_assoc; cbn [app]); reflexivity. }
  destruct G as (ts & G1 & G2). exists ts. split; [apply end_of_file, G1|exact G2].
Qed.
End Words.
