(** The verifier with its messages finds errors where the verifier of [TxtVerify.v] does. *)
From Coq Require Import String Ascii List Bool ZArith Arith Lia.
From Verif.Base Require Import Scalar Linear3 PyDict PyString PyText.
From Verif.Spec Require Import TxtSpec TxtFormat.
From Verif.Model Require Import MatrixParam Hamiltonian TxtVerify TxtRead VerifyLog.
From Verif.Proofs Require Import TextBasics SectionProofs TxtReadProofs.
Import ListNotations.
Local Open Scope string_scope.

Lemma snd_or s f : snd (or_check s f) = snd s || snd f.
Proof. unfold or_check. destruct s as [l [|]]; reflexivity. Qed.
Lemma snd_and s f : snd (and_check s f) = snd s || snd f.
Proof. reflexivity. Qed.
Lemma snd_fail b c s : snd (fail_if b c s) = snd s || b.
Proof. destruct b; simpl; [symmetry; apply orb_true_r|symmetry; apply orb_false_r]. Qed.
Ltac sn := repeat first [rewrite snd_or | rewrite snd_and | rewrite snd_fail]; cbn [snd fine]; rewrite ?orb_false_l.

Lemma hd_fst (ls : list line) : fst (hd line0 ls) = hd "" (map fst ls).
Proof. destruct ls; reflexivity. Qed.
Lemma nth_fst n (ls : list line) : fst (nth n ls line0) = nth n (map fst ls) "".
Proof. symmetry. exact (map_nth fst ls line0 n). Qed.
Lemma skipn_fst n (ls : list line) : map fst (skipn n ls) = skipn n (map fst ls).
Proof. revert ls. induction n; intros [|l ls]; simpl; auto. Qed.
Lemma firstn_fst n (ls : list line) : map fst (firstn n ls) = firstn n (map fst ls).
Proof. symmetry. apply firstn_map. Qed.
Lemma tl_fst (ls : list line) : map fst (tl ls) = tl (map fst ls).
Proof. destruct ls; reflexivity. Qed.

Lemma snd_name w n : snd (log_atom_name w n) = verify_atom_name w.
Proof. unfold log_atom_name. sn. reflexivity. Qed.
Lemma snd_header l us : snd (log_section_header l us) = verify_section_header (fst l) us.
Proof.
  unfold log_section_header, verify_section_header, low_words.
  destruct (py_split (str_lower (fst l))) as [|k [|u [|x t]]]; try reflexivity.
  destruct us as [|e us]; [reflexivity|]. sn. reflexivity.
Qed.
Lemma snd_exact s ls n am : snd (log_size_exact s ls n am) = verify_size_exact (map fst ls) am.
Proof. unfold log_size_exact, verify_size_exact. sn. rewrite map_length. reflexivity. Qed.
Lemma snd_least s ls n k : snd (log_size_at_least s ls n k) = verify_size_at_least (map fst ls) k.
Proof. unfold log_size_at_least, verify_size_at_least. sn. rewrite map_length. reflexivity. Qed.
Lemma snd_short l c : snd (log_short_separator l c) = verify_short_separator (fst l) c.
Proof. unfold log_short_separator. sn. reflexivity. Qed.

Section Verify.
Variable is_float : string -> bool.
Variable is_integer : string -> bool.

Lemma snd_numbers n ws : forall b s, snd (log_numbers is_float n b ws s) = snd s || existsb (fun w => negb (is_float w)) ws.
Proof. induction ws as [|w t IH]; intros b s; cbn [log_numbers existsb]; [symmetry; apply orb_false_r|]. rewrite IH. sn. symmetry. apply orb_assoc. Qed.
Lemma snd_amount k n ws am s : snd (log_amount is_float k n ws am s) = snd s || verify_numbers is_float ws am.
Proof. unfold log_amount, verify_numbers. rewrite snd_numbers. sn. symmetry. apply orb_assoc. Qed.
Lemma snd_lines ls : forall specs s, snd (log_number_lines is_float ls specs s) = snd s || verify_number_lines is_float (map fst ls) specs.
Proof.
  induction ls as [|l t IH]; intros [|a st] s; cbn [log_number_lines verify_number_lines map]; try (symmetry; apply orb_false_r).
  rewrite IH, snd_amount. symmetry. apply orb_assoc.
Qed.
Lemma snd_block ls specs : snd (log_data_block is_float ls specs) = verify_data_block is_float (map fst ls) specs.
Proof. unfold log_data_block, verify_data_block. rewrite snd_lines. sn. rewrite map_length. reflexivity. Qed.
Lemma snd_keyword c k ls specs : snd (log_keyword_block is_float (String c k) ls specs) = verify_keyword_block is_float c (map fst ls) specs.
Proof.
  unfold log_keyword_block, verify_keyword_block. destruct ls as [|l t]; [destruct specs; sn; reflexivity|].
  destruct specs as [|a st]; [sn; reflexivity|]. rewrite snd_lines, snd_amount. sn. cbn [map List.length char0]. rewrite map_length.
  rewrite !orb_assoc. reflexivity.
Qed.

Context {F : Type} {SF : Scalar F}.
Variable to_float : string -> option F.

Lemma snd_cell ls : snd (log_cell is_float to_float ls) = verify_cell is_float to_float (map fst ls).
Proof.
  unfold log_cell, verify_cell. rewrite snd_exact. destruct (verify_size_exact (map fst ls) [4; 5]%nat) eqn:E; [rewrite snd_exact; exact E|].
  unfold line in *. rewrite map_length. destruct (Nat.eqb (List.length ls) 5).
  - sn. rewrite snd_header, !snd_block. cbn [map]. rewrite hd_fst, nth_fst, skipn_fst. unfold words. rewrite nth_fst. reflexivity.
  - sn. rewrite snd_header, snd_block, hd_fst, skipn_fst. reflexivity.
Qed.
Lemma snd_vector ks c n : snd (log_vector_keyword ks c n) = verify_vector_keyword ks c.
Proof. unfold log_vector_keyword. sn. reflexivity. Qed.
Lemma snd_data_header l : forall N i e, log_atoms_data_header l = (N, i, e) -> verify_atoms_data_header (fst l) = (N, i, snd e).
Proof.
  intros N i e H. unfold log_atoms_data_header in H. inversion H; subst. clear H. unfold verify_atoms_data_header. unfold words, low_words.
  f_equal. rewrite !snd_or, !snd_vector, !snd_fail. cbn [snd fine]. reflexivity.
Qed.
Lemma snd_blocks i n ws : forall b s, snd (log_blocks is_float i n b ws s) =
  snd s || existsb (fun p => negb (match i with Some n => Nat.eqb (fst p) n | None => false end) && negb (is_float (snd p)) && (if string_dec (snd p) "-" then false else true))
                   (combine (seq b (List.length ws)) ws).
Proof.
  induction ws as [|w t IH]; intros b s; cbn [log_blocks List.length seq combine existsb]; [symmetry; apply orb_false_r|].
  rewrite IH. sn. cbn [fst snd]. symmetry. apply orb_assoc.
Qed.
Lemma snd_atom_lines N i ls : forall allowed s,
  snd (log_atom_lines is_float N i ls allowed s) = verify_atom_lines is_float N i (map fst ls) allowed (snd s).
Proof.
  induction ls as [|l t IH]; intros allowed s; cbn [log_atom_lines verify_atom_lines map]; [reflexivity|].
  unfold words. destruct i as [i|].
  - destruct (nth_error (py_split (fst l)) i) as [name|]; [|reflexivity]. rewrite IH, snd_blocks. sn. rewrite snd_name. reflexivity.
  - rewrite IH, snd_blocks. sn. reflexivity.
Qed.
Lemma snd_atoms ls : snd (log_atoms is_float ls) = verify_atoms is_float (map fst ls).
Proof.
  unfold log_atoms, verify_atoms. rewrite snd_least. destruct (verify_size_at_least (map fst ls) 3); [reflexivity|].
  destruct (log_atoms_data_header (nth 1 ls line0)) as [[N i] e] eqn:E. apply snd_data_header in E. rewrite nth_fst in E. rewrite E.
  pose proof (snd_atom_lines N i (skipn 2 ls) [] (and_check (log_section_header (hd line0 ls) ["a"; "b"]) e)) as A.
  rewrite skipn_fst, snd_and, snd_header, hd_fst in A. rewrite <- A.
  destruct (log_atom_lines is_float N i (skipn 2 ls) [] (and_check (log_section_header (hd line0 ls) ["a"; "b"]) e)) as [log [[allowed er]|x]]; cbn [snd]; [|reflexivity].
  sn. rewrite map_length. reflexivity.
Qed.

Definition values (d : dict ascii (string * nat)) : dict ascii string := map (fun p => (fst p, fst (snd p))) d.
Lemma values_get d c : dget (values d) c = option_map fst (dget d c).
Proof. induction d as [|[k [v n]] d IH]; cbn; [reflexivity|]. destruct (eq_dec c k); [reflexivity|exact IH]. Qed.
Lemma values_mem d c : dmem (values d) c = dmem d c.
Proof. unfold dmem. rewrite values_get. destruct (dget d c); reflexivity. Qed.
Lemma values_set d c v n : values (dset d c (v, n)) = dset (values d) c v.
Proof. induction d as [|[k [v' n']] d IH]; cbn; [reflexivity|]. destruct (eq_dec c k); cbn; [reflexivity|]. f_equal. exact IH. Qed.
Lemma find_errors (ls : list string) : forall d e, find_properties ls d e = (fst (find_properties ls d false), e || snd (find_properties ls d false)).
Proof.
  induction ls as [|l t IH]; intros d e; cbn [find_properties]; [rewrite orb_false_r; reflexivity|].
  destruct (py_split (str_lower l)) as [|p [|v [|x r]]]; try (rewrite (IH d true); cbn [snd fst]; rewrite orb_true_r; reflexivity).
  destruct (char0 p) as [c|]; [|rewrite (IH d true); cbn [snd fst]; rewrite orb_true_r; reflexivity].
  destruct (dmem d c); [rewrite (IH d true); cbn [snd fst]; rewrite orb_true_r; reflexivity|apply IH].
Qed.
Lemma snd_find ls : forall d s, let r := log_find_properties ls d s in
  (values (fst r), snd (snd r)) = find_properties (map fst ls) (values d) (snd s).
Proof.
  induction ls as [|l t IH]; intros d s; cbn [log_find_properties find_properties map]; [reflexivity|].
  unfold low_words. destruct (py_split (str_lower (fst l))) as [|p [|v [|x r]]]; cbn zeta; try (rewrite IH; reflexivity).
  destruct (char0 p) as [c|]; [|rewrite IH; reflexivity]. rewrite values_mem. destruct (dmem d c); cbn zeta; rewrite IH; [reflexivity|].
  rewrite values_set. reflexivity.
Qed.
Lemma snd_property d n c name kind e test s :
  snd (log_property d n c name kind e test s) = snd s || verify_property (values d) c e test.
Proof. unfold log_property, verify_property. rewrite values_get. destruct (dget d c) as [[v m]|]; cbn [option_map fst]; sn; reflexivity. Qed.
Lemma snd_notation ef of dc sn_ ls : snd (log_notation is_float ef of dc sn_ ls) = verify_notation is_float ef of dc sn_ (map fst ls).
Proof.
  unfold log_notation, verify_notation.
  match goal with |- context [log_find_properties (tl ls) [] ?s] => pose proof (snd_find (tl ls) [] s) as E; set (s0 := s) in * end.
  destruct (log_find_properties (tl ls) [] s0) as [found s1]. cbn zeta in E. cbn [fst snd] in E. rewrite !snd_property.
  rewrite tl_fst in E. change (values []) with (@nil (ascii * string)) in E. rewrite find_errors in E.
  destruct (find_properties (tl (map fst ls)) [] false) as [found' e3]. cbn [fst snd] in E. injection E as <- E1. rewrite E1.
  unfold s0. rewrite snd_or, snd_least, snd_header, hd_fst. reflexivity.
Qed.

Lemma snd_bond_data ls : forall s, snd (log_bond_data is_float ls s) = snd s || fst (verify_bond_data is_float (map fst ls)).
Proof.
  induction ls as [|l t IH]; intros s; cbn [log_bond_data verify_bond_data map]; [symmetry; apply orb_false_r|].
  rewrite IH. unfold low_words. destruct (verify_bond_data is_float (map fst t)) as [e [[[m sy] d] i]] eqn:Ev. cbn [fst].
  set (k := word0 (py_split (str_lower (fst l)))).
  assert (Hex : starts_with "s" k = true -> starts_with "m" k = false).
  { clear. destruct k as [|c k]; [discriminate|]. rewrite !starts_with_cons. destruct (ascii_dec "s" c) as [<-|]; [|discriminate]. intros _. reflexivity. }
  change (fst l :: map fst t) with (map fst (l :: t)). rewrite <- firstn_fst. change [fst l] with (map fst [l]).
  rewrite <- (snd_keyword "i" "sotropic"), <- (snd_keyword "d" "mi"), <- (snd_keyword "s" "ymmetric-anisotropy"), <- (snd_keyword "m" "atrix").
  cbn [append].
  destruct (starts_with "i" k), (starts_with "d" k), (starts_with "s" k) eqn:Es, (starts_with "m" k) eqn:Em; try (specialize (Hex eq_refl); discriminate);
    sn; cbn [andb orb]; rewrite ?orb_false_r, ?orb_assoc; reflexivity.
Qed.
Lemma count_data ls : snd (verify_bond_data is_float (map fst ls)) =
  (data_starting "m" ls, data_starting "s" ls, data_starting "d" ls, data_starting "i" ls).
Proof.
  induction ls as [|l t IH]; [reflexivity|]. cbn [verify_bond_data map]. destruct (verify_bond_data is_float (map fst t)) as [e [[[m sy] d] i]].
  cbn [snd] in *. inversion IH; subst. unfold data_starting, low_words. cbn [filter].
  destruct (starts_with "m" _), (starts_with "s" _), (starts_with "d" _), (starts_with "i" _); reflexivity.
Qed.
Lemma snd_bond allowed ls : snd (log_bond is_float is_integer allowed ls) = verify_bond is_float is_integer allowed (map fst ls).
Proof.
  unfold log_bond, verify_bond. rewrite !snd_fail, snd_bond_data, tl_fst. pose proof (count_data (tl ls)) as E. rewrite tl_fst in E.
  destruct (verify_bond_data is_float (tl (map fst ls))) as [e [[[m sy] d] i]]. cbn [snd fst] in *. inversion E; subst. clear E.
  do 6 f_equal. unfold words. rewrite hd_fst.
  destruct (py_split (hd "" (map fst ls))) as [|a [|b [|c [|d [|e' [|f r]]]]]]; try reflexivity. sn. rewrite !snd_name. reflexivity.
Qed.

Lemma runs_fst sep ls : (map fst (fst (line_runs sep ls)), map (map fst) (snd (line_runs sep ls))) = runs sep (map fst ls).
Proof.
  induction ls as [|l t IH]; [reflexivity|]. cbn [line_runs runs map]. rewrite <- IH. destruct (line_runs sep t) as [cur rest]. cbn [fst snd].
  destruct (sep (fst l)); [|reflexivity]. cbn [fst snd map]. destruct cur; reflexivity.
Qed.
Lemma drop_fst (p : string -> bool) (ls : list line) : map fst (drop_while (fun l => p (fst l)) ls) = drop_while p (map fst ls).
Proof. induction ls as [|l t IH]; [reflexivity|]. cbn [drop_while map]. destruct (p (fst l)); [exact IH|reflexivity]. Qed.
Lemma blocks_fst sep short ls : map (map fst) (line_blocks sep short ls) = filter nonempty (map (drop_while short) (split_runs sep (map fst ls))).
Proof.
  unfold line_blocks, split_runs. rewrite <- runs_fst. destruct (line_runs sep ls) as [cur rest]. cbn [fst snd].
  assert (E : forall L : list (list line), map (map fst) (filter nonempty (map (drop_while (fun l => short (fst l))) L)) = filter nonempty (map (drop_while short) (map (map fst) L))).
  { induction L as [|b L IH]; [reflexivity|]. cbn [map filter]. rewrite <- drop_fst. destruct (drop_while (fun l => short (fst l)) b); cbn [nonempty map]; [exact IH|]. f_equal. exact IH. }
  rewrite E. destruct cur; reflexivity.
Qed.
Lemma rstrip_long c n s : is_space c = false -> (n <= String.length (py_rstrip (repeat_char c n ++ s)))%nat.
Proof.
  intros Hc. induction n as [|n IH]; [lia|]. cbn [repeat_char append py_rstrip]. rewrite Hc, andb_false_r. cbn [String.length]. lia.
Qed.
Lemma prefix_app p : forall l, starts_with p l = true -> exists s, l = p ++ s.
Proof.
  induction p as [|a p IH]; intros l H; [exists l; reflexivity|]. destruct l as [|c l]; [discriminate|]. rewrite starts_with_cons in H.
  destruct (ascii_dec a c) as [<-|]; [|discriminate]. destruct (IH l H) as [s ->]. exists s. reflexivity.
Qed.
Lemma long_not_short c l : is_space c = false -> starts_with (repeat_char c 10) l = true -> verify_short_separator l c = false.
Proof.
  intros Hc H. apply prefix_app in H. destruct H as [s ->]. unfold verify_short_separator. apply andb_false_intro1. apply Nat.ltb_ge.
  unfold py_strip. change (repeat_char c 10 ++ s) with (String c (repeat_char c 9 ++ s)). cbn [py_lstrip]. rewrite Hc.
  change (String c (repeat_char c 9 ++ s)) with (repeat_char c 10 ++ s). apply rstrip_long. exact Hc.
Qed.
Lemma snd_separators c ls : is_space c = false -> forall inside s,
  snd (log_separators (starts_with (repeat_char c 10)) c inside ls s) = snd s || existsb (fun l => verify_short_separator l c) (map fst ls).
Proof.
  intros Hc. induction ls as [|l t IH]; intros inside s; cbn [log_separators map existsb]; [symmetry; apply orb_false_r|].
  destruct (starts_with (repeat_char c 10) (fst l)) eqn:E.
  - rewrite IH, (long_not_short _ _ Hc E). reflexivity.
  - destruct inside; rewrite IH; sn; rewrite snd_short; symmetry; apply orb_assoc.
Qed.
Lemma snd_fold {A} (f : A -> check) (g : A -> bool) (l : list A) : (forall x, snd (f x) = g x) -> forall s,
  snd (fold_left (fun s b => or_check s (f b)) l s) = snd s || existsb g l.
Proof.
  intros H. induction l as [|x t IH]; intros s; cbn [fold_left existsb]; [symmetry; apply orb_false_r|]. rewrite IH. sn. rewrite H. symmetry. apply orb_assoc.
Qed.
Lemma existsb_map {A B} (f : A -> B) g (l : list A) : existsb g (map f l) = existsb (fun x => g (f x)) l.
Proof. induction l as [|x t IH]; [reflexivity|]. cbn [map existsb]. rewrite IH. reflexivity. Qed.
Lemma nonempty_map {A B} (f : A -> B) (l : list A) : nonempty (map f l) = nonempty l.
Proof. destruct l; reflexivity. Qed.
Lemma snd_exchange allowed ls : snd (log_exchange is_float is_integer allowed ls) = verify_exchange is_float is_integer allowed (map fst ls).
Proof.
  unfold log_exchange, verify_exchange. rewrite (@snd_fold (list line) (log_bond is_float is_integer allowed) (fun b => verify_bond is_float is_integer allowed (map fst b))) by (intros; apply snd_bond).
  sn. change (log_separators is_subsep) with (log_separators (starts_with (repeat_char "-" 10))). rewrite snd_separators by reflexivity. rewrite snd_header, hd_fst, tl_fst.
  unfold exchange_blocks. rewrite <- tl_fst, <- blocks_fst, nonempty_map, (existsb_map (map fst)). reflexivity.
Qed.

Lemma snd_on_site_lines allowed ls : forall before found s, let r := log_on_site_lines is_float allowed before ls found s in
  fst r = (found + snd (verify_on_site_lines is_float allowed (match before with Some _ => true | None => false end) (map fst ls)))%nat
  /\ snd (snd r) = snd s || fst (verify_on_site_lines is_float allowed (match before with Some _ => true | None => false end) (map fst ls)).
Proof.
  induction ls as [|l t IH]; intros before found s; cbn [log_on_site_lines verify_on_site_lines map].
  - destruct before; cbn [fst snd]; split; try lia; sn; try reflexivity. symmetry. apply orb_false_r.
  - destruct before as [n|].
    + specialize (IH None (S found) (or_check s (log_data_block is_float [l] [[6]]%nat))). cbn zeta in *. destruct IH as [E1 E2].
      destruct (verify_on_site_lines is_float allowed false (map fst t)) as [e k]. cbn [fst snd] in *. rewrite E1, E2. split; [lia|].
      sn. rewrite snd_block. cbn [map]. symmetry. apply orb_assoc.
    + fold (is_subsep (fst l)). unfold short_dash at 1 2. fold (short_dash (fst l)).
      destruct (short_dash (fst l)) eqn:Es; cbn zeta.
      * rewrite orb_true_r. specialize (IH None found (and_check s (log_short_separator l "-"))). cbn zeta in IH. destruct IH as [E1 E2].
        rewrite E1, E2. cbn [fst snd]. split; [reflexivity|]. sn. rewrite snd_short. unfold short_dash in Es. rewrite Es, !orb_true_r. reflexivity.
      * rewrite orb_false_r. destruct (is_subsep (fst l)) eqn:Eb.
        -- specialize (IH None found (and_check s (log_short_separator l "-"))). cbn zeta in IH. destruct IH as [E1 E2]. rewrite E1, E2. split; [reflexivity|].
           sn. rewrite snd_short. unfold short_dash in Es. rewrite Es, orb_false_r. reflexivity.
        -- match goal with |- context [log_on_site_lines is_float allowed (Some (snd l)) t found ?s'] => specialize (IH (Some (snd l)) found s') end.
           cbn zeta in IH. destruct IH as [E1 E2]. rewrite E1, E2. unfold words.
           destruct (verify_on_site_lines is_float allowed true (map fst t)) as [e k]. cbn [fst snd]. split; [reflexivity|].
           sn. rewrite snd_short, snd_name. unfold short_dash in Es. rewrite Es, orb_false_r, !orb_assoc. reflexivity.
Qed.
Lemma snd_on_site allowed ls : snd (log_on_site is_float allowed ls) = verify_on_site is_float allowed (map fst ls).
Proof.
  unfold log_on_site, verify_on_site. pose proof (snd_on_site_lines allowed (tl ls) None 0%nat (log_section_header (hd line0 ls) energy_units)) as E.
  cbn zeta in E. destruct (log_on_site_lines is_float allowed None (tl ls) 0 (log_section_header (hd line0 ls) energy_units)) as [found s]. cbn [fst snd] in E.
  destruct E as [E1 E2]. rewrite tl_fst in *. destruct (verify_on_site_lines is_float allowed false (tl (map fst ls))) as [e k]. cbn [fst snd] in *.
  sn. rewrite E1, E2, snd_header, hd_fst. reflexivity.
Qed.
Lemma snd_cone ls : snd (log_cone_axis is_float ls) = verify_cone_axis is_float (map fst ls).
Proof.
  unfold log_cone_axis, verify_cone_axis. rewrite snd_exact. destruct (verify_size_exact (map fst ls) [2]%nat) eqn:E; [rewrite snd_exact; exact E|].
  sn. rewrite snd_header, snd_block, hd_fst. cbn [map]. rewrite nth_fst. reflexivity.
Qed.
Lemma snd_spiral ls : snd (log_spiral_vector is_float ls) = verify_spiral_vector is_float (map fst ls).
Proof.
  unfold log_spiral_vector, verify_spiral_vector. rewrite snd_exact. destruct (verify_size_exact (map fst ls) [2]%nat) eqn:E; [rewrite snd_exact; exact E|].
  sn. rewrite snd_header, snd_block, hd_fst. cbn [map]. rewrite nth_fst. reflexivity.
Qed.

Definition texts_of (d : dict string (list line)) : dict string (list string) := map (fun p => (fst p, map fst (snd p))) d.
Lemma texts_get d k : dget (texts_of d) k = option_map (map fst) (dget d k).
Proof. induction d as [|[k' v] d IH]; cbn; [reflexivity|]. destruct (eq_dec k k'); [reflexivity|exact IH]. Qed.
Lemma texts_mem d k : dmem (texts_of d) k = dmem d k.
Proof. unfold dmem. rewrite texts_get. destruct (dget d k); reflexivity. Qed.
Lemma texts_set d k v : texts_of (dset d k v) = dset (texts_of d) k (map fst v).
Proof. induction d as [|[k' v'] d IH]; cbn; [reflexivity|]. destruct (eq_dec k k'); cbn; [reflexivity|]. f_equal. exact IH. Qed.
Lemma sections_fst ls : texts_of (line_sections ls) = found_sections (map fst ls).
Proof.
  unfold line_sections, found_sections, section_blocks. rewrite <- blocks_fst. change (@nil (string * list string)) with (texts_of []).
  generalize (@nil (string * list line)). induction (line_blocks is_sep short_equal ls) as [|b t IH]; intros d; [reflexivity|].
  cbn [fold_left map]. rewrite IH, texts_set. unfold line_keyword, section_keyword, words. rewrite hd_fst. reflexivity.
Qed.
Lemma snd_section d allowed name ls :
  snd (log_section is_float is_integer to_float d allowed name ls) = verify_section is_float is_integer to_float (texts_of d) allowed name (map fst ls).
Proof.
  unfold log_section, verify_section. rewrite !texts_mem.
  destruct (string_dec name "cell"); [apply snd_cell|]. destruct (string_dec name "notation"); [apply snd_notation|].
  destruct (string_dec name "exchange"); [apply snd_exchange|]. destruct (string_dec name "on-site"); [apply snd_on_site|].
  destruct (string_dec name "cone-axis"); [apply snd_cone|]. destruct (string_dec name "spiral-vector"); [apply snd_spiral|reflexivity].
Qed.
Lemma snd_skip (found : dict string (list line)) allowed (l : dict string (list line)) : forall s,
  snd (fold_left (fun s p => if string_dec (fst p) "atoms" then s else or_check s (log_section is_float is_integer to_float found allowed (fst p) (snd p))) l s)
  = snd s || existsb (fun p => if string_dec (fst p) "atoms" then false else verify_section is_float is_integer to_float (texts_of found) allowed (fst p) (snd p)) (texts_of l).
Proof.
  induction l as [|[k v] t IH]; intros s; cbn [fold_left existsb texts_of map]; [symmetry; apply orb_false_r|]. rewrite IH. cbn [fst snd].
  destruct (string_dec k "atoms"); [reflexivity|]. sn. rewrite snd_section. symmetry. apply orb_assoc.
Qed.
Theorem snd_file ls : snd (log_file is_float is_integer to_float ls) =
  match verify_file is_float is_integer to_float (map fst ls) with Ret (_, e) => Ret e | Raise x => Raise x end.
Proof.
  unfold log_file, verify_file. rewrite <- sections_fst, !texts_mem, texts_get. set (d := line_sections ls).
  assert (S0 : snd (fail_if (negb (dmem d "atoms")) (MissingSection "atoms") (fail_if (negb (dmem d "cell")) (MissingSection "cell") (log_separators is_sep "=" false ls fine)))
    = existsb short_equal (map fst ls) || (negb (dmem d "cell") || negb (dmem d "atoms"))).
  { sn. change is_sep with (starts_with (repeat_char "=" 10)). rewrite snd_separators by reflexivity. cbn [snd fine]. rewrite orb_false_l, orb_assoc. reflexivity. }
  destruct (dget d "atoms") as [a|]; cbn [option_map].
  - rewrite <- snd_atoms. destruct (log_atoms is_float a) as [log [[allowed e]|x]]; cbn [snd]; [|reflexivity].
    rewrite snd_skip, snd_and, S0. reflexivity.
  - cbn [fst snd]. rewrite snd_skip, snd_and, S0. reflexivity.
Qed.
End Verify.
