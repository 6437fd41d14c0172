From Coq Require Import String Ascii List ZArith Lia Reals.
From Verif.Base Require Import Scalar ScalarR Linear3 PyString PyText.
From Verif.Model Require Import Hamiltonian TxtDump HistoryText EnergyInit Energy Optimizer.
From Verif.Spec Require Import TxtSpec TxtDumpSpec HistoryTextSpec.
From Verif.Proofs Require Import TextBasics DumpText DumpWords OptimizerProofs.
Import ListNotations.
Local Open Scope string_scope.

Lemma app_assoc_str (a b c : string) : ((a ++ b) ++ c) = (a ++ (b ++ c)).
Proof. induction a; cbn; congruence. Qed.

(** A line that starts a file: no line feed in it, not empty. *)
Definition sound (s : string) : Prop := no_lf s /\ s <> "".

(** ** Joining *)
Section Pieces.
Context {A : Type}.
Variable row : A -> string.
Definition tail_of (rows : list A) : string := String.concat "" (map (fun a => nl ++ row a) rows).
Lemma concat_cons s l : String.concat "" (s :: l) = s ++ String.concat "" l.
Proof. destruct l; cbn; [induction s; cbn; congruence|reflexivity]. Qed.
Lemma tail_cons a l : tail_of (a :: l) = nl ++ row a ++ tail_of l.
Proof. unfold tail_of. cbn [map]. rewrite concat_cons, app_assoc_str. reflexivity. Qed.
Lemma tail_app a b : tail_of (a ++ b) = tail_of a ++ tail_of b.
Proof. induction a as [|x a IH]; [reflexivity|]. cbn [app]. rewrite !tail_cons, IH, !app_assoc_str. reflexivity. Qed.
Lemma join_tail a l : nl ++ join nl (map row (a :: l)) = tail_of (a :: l).
Proof.
  revert a. induction l as [|b l IH]; intros a; [reflexivity|].
  rewrite tail_cons. f_equal. change (join nl (map row (a :: b :: l))) with (row a ++ (nl ++ join nl (map row (b :: l)))). rewrite IH. reflexivity.
Qed.
(** What is written after the header. *)
Lemma written_tail pieces : pieces_of pieces -> forall file, exists e, (e = "" \/ e = nl) /\
  fold_left (write_rows row) pieces file = file ++ tail_of (concat pieces) ++ e /\ (e = nl -> exists t, pieces = t ++ [[]])%list
  /\ ((exists t, pieces = t ++ [[]])%list -> e = nl).
Proof.
  induction pieces as [|p t IH]; intros HP file.
  - exists "". cbn. split; [auto|]. split; [induction file; cbn; congruence|]. split; [discriminate|]. intros [t E]. destruct t; discriminate.
  - destruct t as [|q t].
    + cbn [fold_left concat]. rewrite app_nil_r. unfold write_rows. destruct p as [|a p].
      * exists nl. cbn. repeat split; auto. intros _. exists []. reflexivity.
      * exists "". split; [auto|]. rewrite (join_tail a p). split; [f_equal; clear; induction (tail_of (a :: p)); cbn; congruence|].
        split; [discriminate|]. intros [t E]. destruct t as [|x [|y t]]; discriminate.
    + destruct HP as [N HP]. destruct (IH HP (write_rows row file p)) as (e & He & E & E1 & E2).
      exists e. split; [exact He|]. split.
      * cbn [fold_left] in *. rewrite E. cbn [concat] in *. destruct p as [|a p]; [congruence|]. unfold write_rows. rewrite (join_tail a p), !tail_app, !app_assoc_str. reflexivity.
      * split; [intros Hn; destruct (E1 Hn) as [u Hu]; exists (p :: u)%list; cbn; congruence|].
        intros [u Hu]. apply E2. destruct u as [|x u]; [discriminate|]. exists u. injection Hu. auto.
Qed.
End Pieces.

Lemma lines_tail {A} (row : A -> string) (rows : list A) : (forall a, In a rows -> sound (row a)) -> forall h e, sound h -> e = "" \/ e = nl ->
  map py_split (readlines (h ++ tail_of row rows ++ e)) = (py_split h :: map (fun a => py_split (row a)) rows)%list.
Proof.
  induction rows as [|a rows IH]; intros Hr h e [Hh Hn] He.
  - unfold tail_of. cbn [map String.concat append]. destruct He as [->| ->].
    + replace (h ++ "") with h by (clear; induction h; cbn; congruence). rewrite (readlines_one h Hh Hn). reflexivity.
    + rewrite (readlines_line h Hh). cbn [map]. rewrite py_split_app_blank by apply blank_nl. reflexivity.
  - rewrite tail_cons. rewrite !app_assoc_str. cbn [append].
    rewrite readlines_app, (readlines_line h Hh). cbn [app map].
    rewrite py_split_app_blank by apply blank_nl. f_equal. apply IH; [intros x Hx; apply Hr; right; exact Hx|apply Hr; left; reflexivity|exact He].
Qed.

Lemma table_written {A} (row : A -> string) header (pieces : list (list A)) : sound header -> (forall a, In a (concat pieces) -> sound (row a)) ->
  pieces_of pieces -> table (write_history header row "" pieces) = (py_split header :: map (fun a => py_split (row a)) (concat pieces))%list.
Proof.
  intros Hh Hr HP. unfold write_history. destruct (written_tail row pieces HP (write_header header "")) as (e & He & E & _).
  rewrite E. apply lines_tail; assumption.
Qed.

(** ** Lines *)
Lemma ok_app a b : ok a -> ok b -> ok (a ++ b).
Proof. intros. apply all_app. auto. Qed.
Lemma ok_char c : okc c -> ok (String c "").
Proof. split; [assumption|exact I]. Qed.
Lemma sound_ok s : ok s -> py_split s <> [] -> sound s.
Proof. intros H N. split; [apply ok_no_lf, H|]. intros ->. apply N. reflexivity. Qed.
Lemma split_space a b : py_split (a ++ " " ++ b) = (py_split a ++ py_split b)%list.
Proof. apply (py_split_app_space a " " b). reflexivity. Qed.
Lemma ok_space a b : ok a -> ok b -> ok (a ++ " " ++ b).
Proof. intros. apply ok_app; [assumption|]. apply ok_app; [apply ok_char; split; discriminate|assumption]. Qed.

Lemma int_plain_word z : one_word (str_int z).
Proof. apply plain_one_word, int_plain. Qed.
Lemma name_word (z : Z) (s : string) : s = "_x" \/ s = "_y" \/ s = "_z" -> one_word ("S" ++ str_int z ++ s).
Proof.
  intros H. split; [discriminate|]. apply all_app. split; [repeat split; discriminate|]. apply all_app. split; [apply (int_plain_word z)|].
  destruct H as [->|[->| ->]]; repeat split; discriminate.
Qed.
Lemma spin_cols n : exists b, spin_columns n = b /\ forall a, ok a -> ok (a ++ b) /\ py_split (a ++ b) = (py_split a ++ spin_names n)%list.
Proof.
  eexists. split; [reflexivity|]. unfold spin_columns, spin_names. generalize 0%nat. induction n as [|n IH]; intros k a Ha.
  - cbn. replace (a ++ "") with a by (clear; induction a; cbn; congruence). rewrite app_nil_r. auto.
  - cbn [seq map flat_map]. rewrite concat_cons.
    set (r := String.concat "" _) in *. specialize (IH (S k)). fold r in IH.
    assert (HX : forall s a, s = "_x" \/ s = "_y" \/ s = "_z" -> ok a -> ok (a ++ " " ++ col ("S" ++ str_int (Z.of_nat k + 1) ++ s)) /\
      py_split (a ++ " " ++ col ("S" ++ str_int (Z.of_nat k + 1) ++ s)) = (py_split a ++ [("S" ++ str_int (Z.of_nat k + 1) ++ s)%string])%list).
    { intros s a0 Hs Ha0. destruct (item_left 11 _ (name_word (Z.of_nat k + 1) s Hs)) as [E O]. split; [apply ok_space; assumption|]. rewrite split_space. unfold col. rewrite E. reflexivity. }
    destruct (HX "_x" a (or_introl eq_refl) Ha) as [O1 E1].
    destruct (HX "_y" _ (or_intror (or_introl eq_refl)) O1) as [O2 E2].
    destruct (HX "_z" _ (or_intror (or_intror eq_refl)) O2) as [O3 E3].
    destruct (IH _ O3) as [O4 E4]. rewrite E3, E2, E1 in E4. clear O1 E1 O2 E2 O3 E3 HX.
    repeat rewrite app_assoc_str in O4. repeat rewrite app_assoc_str in E4.
    repeat rewrite app_assoc_str. split; [exact O4|]. etransitivity; [exact E4|]. rewrite <- !app_assoc. reflexivity.
Qed.
Lemma word_ok w : ok (col w) -> py_split (col w) = [w] -> forall a, ok a -> ok (a ++ " " ++ col w) /\ py_split (a ++ " " ++ col w) = (py_split a ++ [w])%list.
Proof. intros O E a Ha. split; [apply ok_space; assumption|]. rewrite split_space, E. reflexivity. Qed.
Ltac words := split; [repeat split; discriminate|reflexivity].
Lemma header_ferro_words n : sound (header_ferro n) /\ py_split (header_ferro n) = names_ferro n.
Proof.
  unfold header_ferro. destruct (spin_cols n) as (b & -> & H).
  destruct (H (pad_left 15 "Energy" ++ " " ++ col "Torque")) as [O E]; [repeat split; discriminate|].
  rewrite !app_assoc_str in O, E. split; [|exact E]. apply sound_ok; [exact O|]. rewrite E. discriminate.
Qed.
Lemma header_cone_words n : sound (header_cone n) /\ py_split (header_cone n) = names_cone n.
Proof.
  unfold header_cone. destruct (spin_cols n) as (b & -> & H).
  destruct (H (pad_left 15 "Energy" ++ " " ++ col "Torque" ++ " " ++ col "Torque_n")) as [O E]; [repeat split; discriminate|].
  set (r := " " ++ col "n_x" ++ " " ++ col "n_y" ++ " " ++ col "n_z" ++ " " ++ col "q_x" ++ " " ++ col "q_y" ++ " " ++ col "q_z").
  assert (Er : forall a, ok a -> ok (a ++ r) /\ py_split (a ++ r) = (py_split a ++ ["n_x"; "n_y"; "n_z"; "q_x"; "q_y"; "q_z"])%list).
  { intros a Ha. unfold r. split; [apply ok_app; [exact Ha|repeat split; discriminate]|]. rewrite split_space. reflexivity. }
  destruct (Er _ O) as [O' E']. rewrite !app_assoc_str in O', E'.
  replace (pad_left 15 "Energy" ++ " " ++ col "Torque" ++ " " ++ col "Torque_n" ++ b ++ r)
    with (pad_left 15 "Energy" ++ " " ++ col "Torque" ++ " " ++ col "Torque_n" ++ b ++ r) by reflexivity.
  assert (E2 : py_split (pad_left 15 "Energy" ++ " " ++ col "Torque" ++ " " ++ col "Torque_n" ++ b ++ r) = names_cone n).
  { rewrite E'. rewrite <- !app_assoc_str. rewrite !app_assoc_str. rewrite !app_assoc_str in E. rewrite E. unfold names_cone. cbn [py_split]. rewrite <- app_assoc. reflexivity. }
  split; [|exact E2]. apply sound_ok; [exact O'|]. rewrite E2. discriminate.
Qed.

Section Rows.
Context {F : Type}.
Variables sci fixed : F -> string.
Hypothesis Hs : forall x, one_word (sci x).
Hypothesis Hf : forall x, one_word (fixed x).
Lemma fixed_join l : ok (join " " (map (f11 fixed) l)) /\ py_split (join " " (map (f11 fixed) l)) = map fixed l.
Proof.
  destruct (items_split (map (f11 fixed) l) (map fixed l)) as [E O]; [|auto].
  induction l; constructor; [apply item_left, Hf|assumption].
Qed.
Lemma flat_fixed l : map fixed (flat l) = flat_map (xyz fixed) l.
Proof. induction l; [reflexivity|]. unfold flat in *. cbn [flat_map map app]. rewrite IHl. reflexivity. Qed.
Lemma energy_col e : ok (f15 sci e) /\ py_split (f15 sci e) = [sci e].
Proof. destruct (item_left 15 (sci e) (Hs e)) as [A B]. auto. Qed.
Lemma row_ferro_words e : sound (row_ferro sci fixed e) /\ py_split (row_ferro sci fixed e) = cells_ferro sci fixed e.
Proof.
  destruct e as [[e t] x]. unfold row_ferro, cells_ferro. cbn [fst snd].
  destruct (energy_col e) as [O1 E1]. destruct (fixed_join t) as [O2 E2]. destruct (fixed_join (flat x)) as [O3 E3].
  assert (E : py_split (f15 sci e ++ " " ++ join " " (map (f11 fixed) t) ++ " " ++ join " " (map (f11 fixed) (flat x))) = (sci e :: map fixed t ++ flat_map (xyz fixed) x)%list).
  { rewrite !split_space, E1, E2, E3, flat_fixed. reflexivity. }
  split; [|exact E]. apply sound_ok; [|rewrite E; discriminate]. apply ok_space; [exact O1|]. apply ok_space; assumption.
Qed.
Lemma row_cone_words e : sound (row_cone sci fixed e) /\ py_split (row_cone sci fixed e) = cells_cone sci fixed e.
Proof.
  destruct e as [[e t] x]. unfold row_cone, cells_cone. cbn [fst snd].
  destruct (energy_col e) as [O1 E1]. destruct (fixed_join t) as [O2 E2]. destruct (fixed_join (flat (fst x))) as [O3 E3].
  destruct (fixed_join [vx (snd x); vy (snd x); vz (snd x)]) as [O4 E4].
  assert (E : py_split (f15 sci e ++ " " ++ join " " (map (f11 fixed) t) ++ " " ++ join " " (map (f11 fixed) (flat (fst x))) ++ " " ++ join " " (map (f11 fixed) [vx (snd x); vy (snd x); vz (snd x)]))
              = (sci e :: map fixed t ++ flat_map (xyz fixed) (fst x) ++ xyz fixed (snd x))%list).
  { rewrite !split_space, E1, E2, E3, E4, flat_fixed. reflexivity. }
  split; [|exact E]. apply sound_ok; [|rewrite E; discriminate]. apply ok_space; [exact O1|]. apply ok_space; [exact O2|]. apply ok_space; assumption.
Qed.

Lemma ferro_table n pieces : pieces_of pieces ->
  table (write_history (header_ferro n) (row_ferro sci fixed) "" pieces) = (names_ferro n :: map (cells_ferro sci fixed) (concat pieces))%list.
Proof.
  intros HP. rewrite table_written; [|apply header_ferro_words|intros; apply row_ferro_words|exact HP].
  rewrite (proj2 (header_ferro_words n)). f_equal. apply map_ext. intros a. apply row_ferro_words.
Qed.
Lemma cone_table n pieces : pieces_of pieces ->
  table (write_history (header_cone n) (row_cone sci fixed) "" pieces) = (names_cone n :: map (cells_cone sci fixed) (concat pieces))%list.
Proof.
  intros HP. rewrite table_written; [|apply header_cone_words|intros; apply row_cone_words|exact HP].
  rewrite (proj2 (header_cone_words n)). f_equal. apply map_ext. intros a. apply row_cone_words.
Qed.
End Rows.

(** ** Sizes *)
Lemma spin_names_length n : List.length (spin_names n) = (3 * n)%nat.
Proof. unfold spin_names. generalize 0%nat at 1. induction n; intros k; [reflexivity|]. cbn [seq flat_map]. rewrite app_length, IHn. cbn [List.length]. lia. Qed.
Lemma xyz_length {F} (fixed : F -> string) l : List.length (flat_map (xyz fixed) l) = (3 * List.length l)%nat.
Proof. induction l; [reflexivity|]. cbn [flat_map List.length]. rewrite app_length, IHl. cbn [List.length xyz]. lia. Qed.
Lemma ferro_width {F} (sci fixed : F -> string) n e : shape_ferro n e -> List.length (cells_ferro sci fixed e) = List.length (names_ferro n).
Proof. intros [A B]. unfold cells_ferro, names_ferro. cbn [List.length app]. rewrite app_length, map_length, xyz_length, spin_names_length, A, B. lia. Qed.
Lemma cone_width {F} (sci fixed : F -> string) n e : shape_cone n e -> List.length (cells_cone sci fixed e) = List.length (names_cone n).
Proof. intros [A B]. unfold cells_cone, names_cone. cbn [List.length app]. rewrite !app_length, map_length, xyz_length, spin_names_length, A, B. cbn [List.length xyz]. lia. Qed.

(** ** Appending to what an earlier run wrote *)
Lemma readlines_glue a : no_lf a -> forall b, a <> "" -> b <> "" -> List.length (readlines (a ++ b)) = List.length (readlines b).
Proof.
  induction a as [|c a IH]; intros Ha b Na Nb; [congruence|]. cbn [append readlines]. destruct Ha as [Hc Ha].
  destruct (Ascii.eqb c line_feed) eqn:E; [apply Ascii.eqb_eq in E; congruence|].
  destruct a as [|d a]; [|specialize (IH Ha b)]; cbn [append].
  - pose proof (readlines_nonempty b Nb). destruct (readlines b); [congruence|]. reflexivity.
  - rewrite <- IH by (try discriminate; assumption). cbn [append]. pose proof (readlines_nonempty (String d (a ++ b))). destruct (readlines (String d (a ++ b))); [exfalso; apply H; [discriminate|reflexivity]|]. reflexivity.
Qed.
Lemma last_line {A} (row : A -> string) rows : (forall a, In a rows -> sound (row a)) -> forall h, sound h -> exists u v, h ++ tail_of row rows = u ++ v /\
  sound v /\ (u = "" \/ exists u', u = u' ++ nl).
Proof.
  induction rows as [|a rows IH]; intros Hr h Hh.
  - exists "", h. cbn. repeat split; auto; try apply Hh. clear. induction h; cbn; congruence.
  - destruct (IH (fun x Hx => Hr x (or_intror Hx)) (row a) (Hr a (or_introl eq_refl))) as (u & v & E & Hv & Hu).
    exists (h ++ nl ++ u), v. rewrite tail_cons. cbn [append] in *. rewrite !app_assoc_str. cbn [append]. rewrite E. split; [reflexivity|]. split; [exact Hv|].
    right. destruct Hu as [->|[u' ->]]; [exists h; reflexivity|]. exists (h ++ nl ++ u'). rewrite !app_assoc_str. cbn [append]. rewrite ?app_assoc_str. reflexivity.
Qed.
Lemma count_glued u v b : (u = "" \/ exists u', u = u' ++ nl) -> sound v -> b <> "" ->
  List.length (readlines ((u ++ v) ++ b)) + 1 = List.length (readlines (u ++ v)) + List.length (readlines b).
Proof.
  intros Hu [Hv Nv] Nb. destruct Hu as [->|[u' ->]].
  - cbn [append]. rewrite (readlines_glue v Hv b Nv Nb), (readlines_one v Hv Nv). cbn. lia.
  - rewrite !app_assoc_str. cbn [append]. rewrite (readlines_app u' (v ++ b)), (readlines_app u' v), !app_length, (readlines_glue v Hv b Nv Nb), (readlines_one v Hv Nv). cbn. lia.
Qed.
(** Written to a file an earlier run left (with something in its last piece), the header continues the last line. *)
Lemma glued {A B} (row : A -> string) (row' : B -> string) header header' pieces pieces' :
  sound header -> sound header' -> (forall a, In a (concat pieces) -> sound (row a)) -> pieces_of pieces -> pieces <> [] -> last pieces [] <> [] ->
  let old := write_history header row "" pieces in
  List.length (lines_of (write_history header' row' old pieces')) + 1
    = List.length (lines_of old) + List.length (lines_of (write_history header' row' "" pieces')).
Proof.
  intros Hh Hh' Hr HP NP NL old.
  assert (Eold : exists u v, old = u ++ v /\ sound v /\ (u = "" \/ exists u', u = u' ++ nl)).
  { unfold old, write_history. destruct (written_tail row pieces HP (write_header header "")) as (e & He & E & E1 & _). rewrite E.
    assert (e = "") as -> by (destruct He as [|En]; [assumption|]; destruct (E1 En) as [t ->]; rewrite last_last in NL; congruence).
    replace (write_header header "" ++ tail_of row (concat pieces) ++ "") with (header ++ tail_of row (concat pieces))
      by (unfold write_header; cbn [append]; f_equal; clear; induction (tail_of row (concat pieces)); cbn; congruence).
    apply last_line; assumption. }
  destruct Eold as (u & v & E & Hv & Hu). clearbody old. subst old.
  assert (Ew : forall file, exists t, write_history header' row' file pieces' = file ++ header' ++ t).
  { intros file. unfold write_history, write_header. revert file. induction pieces' as [|p t IH]; intros file; [exists ""; cbn; clear; induction file; [cbn; induction header'|]; cbn; congruence|].
    cbn [fold_left]. unfold write_rows at 2. rewrite app_assoc_str. revert file. generalize (nl ++ join nl (map row' p)). intros s. clear IH.
    induction t as [|q t IH] in s |- *; intros file; [exists s; reflexivity|]. cbn [fold_left]. unfold write_rows at 2. rewrite !app_assoc_str. apply IH. }
  assert (Ec : exists t, forall file, write_history header' row' file pieces' = file ++ header' ++ t).
  { clear Ew. unfold write_history, write_header. induction pieces' as [|p t IH] using rev_ind; [exists ""; intros file; cbn; clear; induction file; [cbn; induction header'|]; cbn; congruence|].
    destruct IH as [s IH]. exists (s ++ (nl ++ join nl (map row' p))). intros file. rewrite fold_left_app, IH. cbn [fold_left]. unfold write_rows. rewrite !app_assoc_str. reflexivity. }
  destruct Ec as [t Et]. rewrite !Et. unfold lines_of. cbn [append]. apply count_glued; [exact Hu|exact Hv|]. destruct Hh' as [_ N]. destruct header'; [congruence|discriminate].
Qed.

(** ** The histories of [optimize] have the right shape *)
Local Open Scope R_scope.
Section Shape.
Variable X : Type.
Variable P : problem X.
Variables okx : X -> Prop.
Variable okt : list R -> Prop.
Hypothesis Hupd : forall x sd s x', p_update P x sd s = Ret x' -> okx x -> okx x'.
Hypothesis Htar : forall ts t, p_target P ts = Ret t -> okt t.
Definition oke (e : Optimizer.entry X) : Prop := okt (snd (fst e)) /\ okx (snd e).
Variables (m im hs : nat) (c1 c2 tol : R) (tols : list R) (mx : option Z).
Definition oks (s : ost X) : Prop := okx (o_x X s) /\ Forall oke (o_hist X s) /\ Forall oke (o_out X s).
Lemma step_shape s s' : opt_step X P m c1 c2 im true hs s = Ret s' -> oks s -> oks s'.
Proof.
  unfold opt_step. intros H (A & B & C).
  inv_bind H g Hg. destruct g as [g ts]. inv_bind H q Hq. destruct q as [[L k] sd]. inv_bind H st Hst. inv_bind H x Hx. inv_bind H e He. inv_bind H t Ht.
  assert (Hx' : okx x) by (eapply Hupd; eassumption). assert (Ht' : okt t) by (eapply Htar; eassumption).
  assert (B' : Forall oke (o_hist X s ++ [(e, t, x)])) by (apply Forall_app; split; [exact B|]; constructor; [split; assumption|constructor]).
  destruct hs as [|h]; [discriminate|]. destruct (Nat.eqb _ 0); injection H as <-; split; cbn; auto. split; [constructor|]. apply Forall_app. auto.
Qed.
Lemma loop_shape fuel : forall s x h, opt_loop X P m c1 c2 im true hs tol tols mx fuel s = Some (Ret (x, h)) -> oks s -> Forall oke h.
Proof.
  induction fuel as [|fuel IH]; intros s x h H (A & B & C); cbn in H; destruct (continues tol tols (o_diff X s) (o_targets X s)).
  - destruct mx as [z|]; [destruct (Z.leb _ _)|]; try discriminate. injection H as _ <-. exact C.
  - injection H as _ <-. apply Forall_app. auto.
  - destruct (match mx with Some z => _ | None => false end); [injection H as _ <-; exact C|].
    destruct (opt_step X P m c1 c2 im true hs s) as [s'|] eqn:E; [|discriminate]. apply (IH s' x h H). apply (step_shape s s' E). repeat split; assumption.
  - injection H as _ <-. apply Forall_app. auto.
Qed.
Lemma run_shape fuel x0 x h : optimize_from X P m c1 c2 im true hs tol tols mx fuel x0 = Some (Ret (x, h)) -> okx x0 -> okt (map (fun a => 2 * a) tols) -> Forall oke h.
Proof.
  unfold optimize_from, opt_start. intros H Hx Ht. destruct (p_energy P x0) as [e|] eqn:Ee; cbn in H; [|discriminate].
  apply (loop_shape fuel _ x h H). split; [exact Hx|]. split; cbn; constructor; [split; assumption|constructor].
Qed.
End Shape.

Lemma turn_rows_length a b c rows y : turn_rows a b c rows = Ret y -> List.length y = List.length rows.
Proof.
  revert b c rows y. induction a as [|a0 a IH]; intros [|b0 b] [|c0 c] rows y H; try discriminate.
  - injection H as <-. reflexivity.
  - cbn in H. destruct rows as [|x t]; [discriminate|]. inv_bind H r Hr. injection H as <-. cbn. rewrite (IH _ _ _ _ Hr). reflexivity.
Qed.

Lemma every_length rows y sd st : turn_by sd st rows = Ret y -> List.length y = List.length rows.
Proof. apply turn_rows_length. Qed.
Lemma normalize_all_length l : forall y, normalize_all l = Ret y -> List.length y = List.length l.
Proof. induction l as [|a l IH]; intros y H; cbn in H; [injection H as <-; reflexivity|]. destruct (Req_EM_T (norm a) 0); [discriminate|]. destruct (normalize_all l) as [r|]; [|discriminate]. injection H as <-. cbn. rewrite (IH r eq_refl). reflexivity. Qed.
Lemma starting_ferro_length rnd n g x : List.length rnd = n -> starting_ferro rnd n g = Ret x -> List.length x = n.
Proof.
  intros Hr H. destruct g as [| |[rows|v|]]; cbn in H; try discriminate.
  - apply normalize_all_length in H. congruence.
  - destruct rows as [|r rows]; [discriminate|]. destruct (Nat.eqb n (List.length (r :: rows))) eqn:E; [|discriminate]. apply Nat.eqb_eq in E.
    apply (normalize_all_length (r :: rows)) in H. congruence.
  - destruct (Nat.eqb n 1) eqn:E; [|discriminate]. apply Nat.eqb_eq in E. apply (normalize_all_length [v]) in H. cbn in H. congruence.
Qed.
Lemma tolerances_length n t e ts : tolerances n t = Ret (e, ts) -> List.length ts = (n - 1)%nat.
Proof.
  destruct t as [l|]; cbn; intros H; [|injection H as _ <-; apply repeat_length].
  destruct (Nat.eqb (List.length l) n) eqn:E; [|discriminate]. apply Nat.eqb_eq in E. destruct l; [discriminate|]. injection H as _ <-. cbn in E. lia.
Qed.
Lemma ferro_shape mu st E a rnd g fuel x h : a_save a = true -> List.length rnd = List.length (e_spins E) -> optimize_ferro mu st E a rnd g fuel = Some (Ret (x, h)) ->
  Forall (shape_ferro (List.length (e_spins E))) h.
Proof.
  intros Hs Hr H. unfold optimize_ferro, optimize in H. rewrite Hs in H.
  destruct (starting_ferro rnd (List.length (e_spins E)) g) as [x0|] eqn:E0; [|discriminate]. cbn in H.
  destruct (tolerances 2 (a_tolerance a)) as [[te ts]|] eqn:Et; [|discriminate].
  apply (run_shape _ _ (fun y => List.length y = List.length (e_spins E)) (fun t => List.length t = 1%nat)) in H.
  - eapply Forall_impl; [|exact H]. intros [[e t] y] HH. exact HH.
  - intros y sd s y' Hu Hy. apply every_length in Hu. congruence.
  - intros tq t Ht. cbn in Ht. unfold target_ferro in Ht. inv_bind Ht q Hq. injection Ht as <-. reflexivity.
  - apply (starting_ferro_length _ _ _ _ Hr E0).
  - rewrite map_length, (tolerances_length _ _ _ _ Et). reflexivity.
Qed.
Lemma cone_shape (P : problem (list (V3 R) * V3 R)) n te ts m c1 c2 im hs mx fuel x0 x h :
  p_target P = target_cone -> (forall y sd s y', p_update P y sd s = Ret y' -> List.length (fst y') = List.length (fst y)) ->
  List.length (fst x0) = (n + 1)%nat -> List.length ts = 2%nat ->
  optimize_from _ P m c1 c2 im true hs te ts mx fuel x0 = Some (Ret (x, h)) -> Forall (shape_cone n) h.
Proof.
  intros Ht Hu Hx Hl H.
  apply (run_shape _ _ (fun y => List.length (fst y) = (n + 1)%nat) (fun t => List.length t = 2%nat)) in H.
  - eapply Forall_impl; [|exact H]. intros [[e t] y] HH. exact HH.
  - intros y sd s y' E Hy. apply Hu in E. congruence.
  - intros tq t E. rewrite Ht in E. unfold target_cone in E. inv_bind E q Hq. injection E as <-. reflexivity.
  - exact Hx.
  - rewrite map_length. exact Hl.
Qed.
Lemma antiferro_shape mu st E a rnd ra q g ga fuel x h : a_save a = true -> List.length rnd = List.length (e_spins E) ->
  optimize_antiferro mu st E a rnd ra q g ga fuel = Some (Ret (x, h)) -> Forall (shape_cone (List.length (e_spins E))) h.
Proof.
  intros Hs Hr H. unfold optimize_antiferro, optimize in H. rewrite Hs in H.
  destruct (starting_antiferro rnd ra (List.length (e_spins E)) q g ga) as [x0|] eqn:E0; [|discriminate].
  cbn [obind] in H. destruct (tolerances 3 (a_tolerance a)) as [[te ts]|] eqn:Et; [|discriminate]. cbn [obind] in H.
  unfold starting_antiferro in E0. inv_bind E0 sp Hsp. inv_bind E0 ax Hax.
  apply (starting_ferro_length _ _ _ _ Hr) in Hsp.
  eapply cone_shape; [| | |exact (tolerances_length _ _ _ _ Et)|exact H]; [reflexivity| |].
  - intros y sd s y' Hu. cbn in Hu. unfold update_antiferro in Hu. inv_bind Hu r Hr'. injection Hu as <-. apply (every_length _ _ _ _ Hr').
  - destruct q; try discriminate. injection E0 as <-. cbn. rewrite app_length, Hsp. reflexivity.
Qed.
Lemma spiral_shape mu st E a rnd ra rq g ga gq fuel x h : a_save a = true -> List.length rnd = List.length (e_spins E) ->
  optimize_spiral mu st E a rnd ra rq g ga gq fuel = Some (Ret (x, h)) -> Forall (shape_cone (List.length (e_spins E))) h.
Proof.
  intros Hs Hr H. unfold optimize_spiral, optimize in H. rewrite Hs in H.
  destruct (starting_spiral rnd ra rq (List.length (e_spins E)) g ga gq) as [x0|] eqn:E0; [|discriminate].
  cbn [obind] in H. destruct (tolerances 3 (a_tolerance a)) as [[te ts]|] eqn:Et; [|discriminate]. cbn [obind] in H.
  unfold starting_spiral in E0. inv_bind E0 sp Hsp. inv_bind E0 ax Hax.
  apply (starting_ferro_length _ _ _ _ Hr) in Hsp.
  eapply cone_shape; [| | |exact (tolerances_length _ _ _ _ Et)|exact H]; [reflexivity| |].
  - intros y sd s y' Hu. cbn in Hu. unfold update_spiral in Hu. inv_bind Hu r Hr'. destruct (take_last 3 sd) as [|? [|? [|? [|]]]]; try discriminate. injection Hu as <-. apply (every_length _ _ _ _ Hr').
  - destruct gq; try discriminate; injection E0 as <-; cbn; rewrite app_length, Hsp; reflexivity.
Qed.

(** ** The statements *)
Section Statements.
Variables sci fixed : R -> string.
Hypothesis Hsci : forall x, one_word (sci x).
Hypothesis Hfix : forall x, one_word (fixed x).
Lemma ferro_file mu st E a rnd g fuel x h pieces : a_save a = true -> List.length rnd = List.length (e_spins E) ->
  optimize_ferro mu st E a rnd g fuel = Some (Ret (x, h)) -> pieces_of pieces -> concat pieces = h ->
  let t := table (write_history (header_ferro (List.length (e_spins E))) (row_ferro sci fixed) "" pieces) in
  t = (names_ferro (List.length (e_spins E)) :: map (cells_ferro sci fixed) h)%list /\ Forall (fun l => List.length l = List.length (names_ferro (List.length (e_spins E)))) t.
Proof.
  intros Hs Hr H HP E0. pose proof (ferro_shape _ _ _ _ _ _ _ _ _ Hs Hr H) as HS. cbv zeta. subst h. rewrite (ferro_table _ _ Hsci Hfix _ _ HP).
  split; [reflexivity|]. constructor; [reflexivity|]. apply Forall_map. eapply Forall_impl; [|exact HS]. intros e He. apply ferro_width, He.
Qed.
Lemma cone_file n h pieces : Forall (shape_cone n) h -> pieces_of pieces -> concat pieces = h ->
  let t := table (write_history (header_cone n) (row_cone sci fixed) "" pieces) in
  t = (names_cone n :: map (cells_cone sci fixed) h)%list /\ Forall (fun l => List.length l = List.length (names_cone n)) t.
Proof.
  intros HS HP E0. cbv zeta. subst h. rewrite (cone_table _ _ Hsci Hfix _ _ HP).
  split; [reflexivity|]. constructor; [reflexivity|]. apply Forall_map. eapply Forall_impl; [|exact HS]. intros e He. apply cone_width, He.
Qed.
Lemma antiferro_file mu st E a rnd ra q g ga fuel x h pieces : a_save a = true -> List.length rnd = List.length (e_spins E) ->
  optimize_antiferro mu st E a rnd ra q g ga fuel = Some (Ret (x, h)) -> pieces_of pieces -> concat pieces = h ->
  let t := table (write_history (header_cone (List.length (e_spins E))) (row_cone sci fixed) "" pieces) in
  t = (names_cone (List.length (e_spins E)) :: map (cells_cone sci fixed) h)%list /\ Forall (fun l => List.length l = List.length (names_cone (List.length (e_spins E)))) t.
Proof. intros Hs Hr H. apply cone_file. exact (antiferro_shape _ _ _ _ _ _ _ _ _ _ _ _ Hs Hr H). Qed.
Lemma spiral_file mu st E a rnd ra rq g ga gq fuel x h pieces : a_save a = true -> List.length rnd = List.length (e_spins E) ->
  optimize_spiral mu st E a rnd ra rq g ga gq fuel = Some (Ret (x, h)) -> pieces_of pieces -> concat pieces = h ->
  let t := table (write_history (header_cone (List.length (e_spins E))) (row_cone sci fixed) "" pieces) in
  t = (names_cone (List.length (e_spins E)) :: map (cells_cone sci fixed) h)%list /\ Forall (fun l => List.length l = List.length (names_cone (List.length (e_spins E)))) t.
Proof. intros Hs Hr H. apply cone_file. exact (spiral_shape _ _ _ _ _ _ _ _ _ _ _ _ _ Hs Hr H). Qed.
(** Two runs with one file name. *)
Lemma ferro_glued n n' pieces pieces' : pieces_of pieces -> pieces <> [] -> last pieces [] <> [] ->
  let old := write_history (header_ferro n) (row_ferro sci fixed) "" pieces in
  (List.length (lines_of (write_history (header_ferro n') (row_ferro sci fixed) old pieces')) + 1
    = List.length (lines_of old) + List.length (lines_of (write_history (header_ferro n') (row_ferro sci fixed) "" pieces')))%nat.
Proof. intros. apply glued; auto; try apply header_ferro_words. intros. apply row_ferro_words; assumption. Qed.
End Statements.

(** Two runs of two entries each, one spin. *)
Definition bit (x : R) : string := if Rlt_dec 0 x then "1.0" else "0.0".
Lemma bit_word x : one_word (bit x).
Proof. unfold bit. destruct (Rlt_dec 0 x); repeat split; discriminate. Qed.
Definition run2 : list (list (R * list R * list (V3 R))) := [[(1, [0], [mkV 0 0 1]); (0, [0], [mkV 0 0 1])]].
Lemma append_refuted : exists (sci fixed : R -> string) n pieces pieces', (forall x, one_word (sci x)) /\ (forall x, one_word (fixed x)) /\
  pieces_of pieces /\ pieces_of pieces' /\ Forall (shape_ferro n) (concat pieces) /\ Forall (shape_ferro n) (concat pieces') /\
  let old := write_history (header_ferro n) (row_ferro sci fixed) "" pieces in
  let t := table (write_history (header_ferro n) (row_ferro sci fixed) old pieces') in
  ~ In (names_ferro n) (tl t) /\ exists l, In l t /\ List.length l = (2 * List.length (names_ferro n))%nat.
Proof.
  exists bit, bit, 1%nat, run2, run2. split; [exact bit_word|]. split; [exact bit_word|]. split; [exact I|]. split; [exact I|].
  split; [repeat constructor|]. split; [repeat constructor|]. cbv zeta.
  assert (B1 : bit 1 = "1.0") by (unfold bit; destruct (Rlt_dec 0 1) as [|N]; [reflexivity|destruct N; apply Rlt_0_1]).
  assert (B0 : bit 0 = "0.0") by (unfold bit; destruct (Rlt_dec 0 0) as [N|]; [destruct (Rlt_irrefl _ N)|reflexivity]).
  unfold run2, write_history, write_header, write_rows, row_ferro, f15, f11, flat. cbn [map flat_map fold_left vx vy vz app]. rewrite B1, B0.
  match goal with |- context [table ?s] => let v := eval vm_compute in (table s) in change (table s) with v end.
  split.
  - intros H. vm_compute in H. repeat destruct H as [H|H]; try discriminate. destruct H.
  - eexists. split; [right; right; left; reflexivity|]. reflexivity.
Qed.
