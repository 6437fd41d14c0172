(** The table of the dispersion script. *)
From Coq Require Import String Ascii List Bool ZArith Lia Reals.
From Coquelicot Require Import Complex.
From Coq Require Import List.
From Verif.Base Require Import Scalar ScalarR Linear3 PyString PyText.
From Verif.Model Require Import Hamiltonian TxtDump Dispersion DispersionScript.
From Verif.Spec Require Import TxtSpec TxtDumpSpec HistoryTextSpec DispersionSpec ScriptSpec.
From Verif.Proofs Require Import TextBasics DumpText DumpWords HistoryTextProofs DispersionGlue DispersionWitness.
Import ListNotations.
Local Open Scope string_scope.

(** ** Transposing *)
Lemma map_nth_seq {A} (d : A) (l : list A) : map (fun i => nth i l d) (seq 0 (List.length l)) = l.
Proof.
  induction l as [|x l IH]; [reflexivity|]. cbn [List.length seq map nth]. f_equal. rewrite <- seq_shift, map_map. exact IH.
Qed.
Lemma nth_map_in {A B} (f : A -> B) (l : list A) d e n : (n < List.length l)%nat -> nth n (map f l) e = f (nth n l d).
Proof. intros H. rewrite <- (map_nth f l d n). apply nth_indep. rewrite map_length. exact H. Qed.
Lemma transposed_rows {A} (zero : A) data N : data <> [] -> Forall (fun r => List.length r = N) data ->
  transposed zero data = map (fun i => map (fun row => nth i row zero) data) (seq 0 N).
Proof. intros H L. destruct data as [|r t]; [congruence|]. inversion L; subst. reflexivity. Qed.

Section Spectra.
Variable solve : mat -> option (list C * mat).
Variable st : list (M3 R).
Variable D : dispersion.
Hypothesis HS : one_energy_per_row (2 * d_N D) solve.
Definition energies (z : bool) (k : V3 R) : list num := fst (omega solve (d_N D) (d_h st D k) z false false).
Lemma energies_length z k : List.length (energies z k) = d_N D.
Proof. apply omega_count, HS. Qed.
Lemma omegas_rows z ks : ks <> [] -> omegas solve st D z ks = map (fun i => map (fun k => nth i (energies z k) NaN) ks) (seq 0 (d_N D)).
Proof.
  intros H. unfold omegas. fold (energies z). rewrite (transposed_rows _ _ (d_N D)).
  - apply map_ext. intros i. apply map_map.
  - destruct ks; [congruence|discriminate].
  - apply Forall_forall. intros r Hr. apply in_map_iff in Hr. destruct Hr as (k & <- & _). apply energies_length.
Qed.
Lemma omegas_ok z ks : ks <> [] ->
  List.length (omegas solve st D z ks) = d_N D /\ Forall (fun r => List.length r = List.length ks) (omegas solve st D z ks) /\
  forall m, (m < List.length ks)%nat -> map (fun r => nth m r NaN) (omegas solve st D z ks) = energies z (nth m ks vzero).
Proof.
  intros H. rewrite (omegas_rows z ks H). split; [rewrite map_length, seq_length; reflexivity|]. split.
  - apply Forall_forall. intros r Hr. apply in_map_iff in Hr. destruct Hr as (i & <- & _). apply map_length.
  - intros m Hm. rewrite map_map. rewrite <- (map_nth_seq NaN (energies z (nth m ks vzero))). rewrite energies_length.
    apply map_ext. intros i. apply (nth_map_in (fun k => nth i (energies z k) NaN) ks vzero NaN m Hm).
Qed.
End Spectra.

(** ** The rows of the table *)
Lemma all_cells_seq fixed sci en cs rel abs : List.length rel = List.length cs -> List.length abs = List.length cs ->
  all_cells fixed sci en cs rel abs = map (fun m => cells fixed sci en (nth m cs 0%R) (nth m rel vzero) (nth m abs vzero)) (seq 0 (List.length cs)).
Proof.
  revert rel abs. induction cs as [|c cs IH]; intros rel abs L1 L2; [reflexivity|].
  destruct rel as [|r rel]; [discriminate|]. destruct abs as [|a abs]; [discriminate|]. cbn [all_cells List.length seq map nth].
  f_equal. rewrite <- seq_shift, map_map. apply IH; [injection L1; auto|injection L2; auto].
Qed.
Definition row_of (en : V3 R -> list num) (c : R) (r a : V3 R) : list num :=
  ([number c] ++ en a ++ [number (vx r); number (vy r); number (vz r)] ++ [number (vx a); number (vy a); number (vz a)])%list.
Lemma table_rows_ok en kp om : kp_flat kp <> [] -> List.length (kp_rel kp) = List.length (kp_flat kp) -> List.length (kp_abs kp) = List.length (kp_flat kp) ->
  Forall (fun r => List.length r = List.length (kp_flat kp)) om ->
  (forall m, (m < List.length (kp_flat kp))%nat -> map (fun r => nth m r NaN) om = en (nth m (kp_abs kp) vzero)) ->
  table_rows kp om = Ret (map (fun m => row_of en (nth m (kp_flat kp) 0%R) (nth m (kp_rel kp) vzero) (nth m (kp_abs kp) vzero)) (seq 0 (List.length (kp_flat kp)))).
Proof.
  intros N L1 L2 LO HO. unfold table_rows. set (rows := ([_] ++ om ++ xyz_rows (kp_rel kp) ++ xyz_rows (kp_abs kp))%list).
  assert (LR : Forall (fun r => List.length r = List.length (kp_flat kp)) rows).
  { unfold rows, xyz_rows. repeat (apply Forall_app; split); repeat constructor; rewrite ?map_length; auto. }
  assert (B : forallb (fun r : list num => Nat.eqb (List.length r) (List.length (kp_flat kp))) rows = true).
  { apply forallb_forall. intros r Hr. rewrite Forall_forall in LR. apply Nat.eqb_eq. auto. }
  rewrite B. f_equal. rewrite (transposed_rows NaN rows (List.length (kp_flat kp))); [|discriminate|exact LR].
  apply map_ext_in. intros m Hm. apply in_seq in Hm. destruct Hm as [_ Hm]. cbn in Hm. unfold rows, row_of, xyz_rows. rewrite !map_app, HO by exact Hm. cbn [map app].
  assert (Ha : (m < List.length (kp_abs kp))%nat) by (rewrite L2; exact Hm). assert (Hr : (m < List.length (kp_rel kp))%nat) by (rewrite L1; exact Hm).
  rewrite (nth_map_in (fun x => Num (RtoC x)) (kp_flat kp) 0%R NaN m Hm).
  rewrite (nth_map_in (fun v => Num (RtoC (vx v))) (kp_rel kp) vzero NaN m Hr), (nth_map_in (fun v => Num (RtoC (vy v))) (kp_rel kp) vzero NaN m Hr),
    (nth_map_in (fun v => Num (RtoC (vz v))) (kp_rel kp) vzero NaN m Hr).
  rewrite (nth_map_in (fun v => Num (RtoC (vx v))) (kp_abs kp) vzero NaN m Ha), (nth_map_in (fun v => Num (RtoC (vy v))) (kp_abs kp) vzero NaN m Ha),
    (nth_map_in (fun v => Num (RtoC (vz v))) (kp_abs kp) vzero NaN m Ha).
  reflexivity.
Qed.

(** ** Lines *)
Section Lines.
Variables fixed sci : num -> string.
Hypothesis Hf : forall x, one_word (fixed x).
Hypothesis Hs : forall x, one_word (sci x).

(** A printed column: blanks before the number, at least one unless it is the first of the line. *)
Inductive columns : list (string * (num -> string)) -> Prop :=
| Col_nil : columns []
| Col_cons b p f : blank b -> ok b -> b <> "" -> (forall x, one_word (p x)) -> columns f -> columns ((b, p) :: f).
Lemma columns_app f g : columns f -> columns g -> columns (f ++ g).
Proof. induction 1; [auto|]. intros G. constructor; auto. Qed.
Lemma columns_repeat b p n : blank b -> ok b -> b <> "" -> (forall x, one_word (p x)) -> columns (repeat (b, p) n).
Proof. intros. induction n; [constructor|]. cbn. constructor; auto. Qed.
Lemma split_blank_between a b c : blank b -> b <> "" -> py_split (a ++ b ++ c) = (py_split a ++ py_split c)%list.
Proof.
  intros Hb Nb. destruct b as [|x b]; [congruence|]. destruct Hb as [Hx Hb]. cbn [append]. rewrite (py_split_app_space a x _ Hx). rewrite (py_split_blank_app b c Hb). reflexivity.
Qed.
Lemma columns_text f : columns f -> forall row, List.length row = List.length f ->
  exists t, line_text f row = Ret t /\ ok t /\ (t = "" \/ exists b u, t = b ++ u /\ blank b /\ b <> "") /\ py_split t = map (fun q => snd (fst q) (snd q)) (combine f row).
Proof.
  induction 1 as [|b p f Hb Ob Nb Hp HC IH]; intros row L.
  - destruct row; [|discriminate]. exists "". repeat split; auto.
  - destruct row as [|x row]; [discriminate|]. injection L as L. destruct (IH row L) as (t & E & O & Ht & W). cbn [line_text]. rewrite E.
    exists (b ++ p x ++ t). split; [reflexivity|]. split; [apply ok_app; [exact Ob|apply ok_app; [apply one_word_ok, Hp|exact O]]|]. split; [right; exists b, (p x ++ t); auto|].
    rewrite py_split_blank_app by exact Hb. cbn [combine map fst snd]. rewrite <- W. clear W E.
    destruct Ht as [->|(b2 & u & -> & Hb2 & Nb2)].
    + rewrite app_nil_r_s, (py_split_word _ (one_word_word _ (Hp x))). reflexivity.
    + rewrite (split_blank_between (p x) b2 u Hb2 Nb2), (py_split_word _ (one_word_word _ (Hp x))), (py_split_blank_app b2 u Hb2). reflexivity.
Qed.
Lemma combine_app_eq {A B} (a : list A) (b : list A) (c d : list B) : List.length a = List.length c -> combine (a ++ b) (c ++ d) = (combine a c ++ combine b d)%list.
Proof. revert c. induction a as [|x a IH]; intros [|y c] L; try discriminate; [reflexivity|]. cbn. f_equal. apply IH. injection L; auto. Qed.
Lemma combine_repeat {A B} (a : A) (l : list B) : combine (repeat a (List.length l)) l = map (fun x => (a, x)) l.
Proof. induction l; [reflexivity|]. cbn. congruence. Qed.
Lemma row_text en N c r a : List.length (en a) = N ->
  exists t, line_text (line_format fixed sci N) (row_of en c r a) = Ret t /\ ok t /\ py_split t = cells fixed sci en c r a.
Proof.
  intros L. unfold line_format, row_of, cells. cbn [app line_text].
  set (f := (repeat (" ", sci) N ++ _)%list). set (row := (en a ++ _)%list).
  assert (B1 : blank " ") by (split; [reflexivity|exact I]). assert (B4 : blank "    ") by (repeat split).
  assert (O1 : ok " ") by (repeat split; discriminate). assert (O4 : ok "    ") by (repeat split; discriminate).
  assert (CF : columns f).
  { unfold f. apply columns_app; [apply columns_repeat; auto; discriminate|]. repeat (constructor; auto; try discriminate). }
  assert (LF : List.length row = List.length f). { unfold row, f. rewrite !app_length, repeat_length. cbn. lia. }
  destruct (columns_text f CF row LF) as (t & E & O & Ht & W). rewrite E. eexists. split; [reflexivity|]. cbn [append].
  split; [apply ok_app; [apply one_word_ok, Hf|exact O]|].
  assert (W2 : py_split (fixed (number c) ++ t) = (fixed (number c) :: py_split t)%list).
  { destruct Ht as [->|(b2 & u & -> & Hb2 & Nb2)].
    - rewrite app_nil_r_s, (py_split_word _ (one_word_word _ (Hf _))). reflexivity.
    - rewrite (split_blank_between _ b2 u Hb2 Nb2), (py_split_word _ (one_word_word _ (Hf _))), (py_split_blank_app b2 u Hb2). reflexivity. }
  rewrite W2, W. f_equal. unfold f, row. rewrite combine_app_eq by (rewrite repeat_length; symmetry; exact L).
  rewrite <- L, combine_repeat, map_app, map_map. reflexivity.
Qed.
Lemma rows_text (f : list (string * (num -> string))) rows cs : Forall2 (fun r c => exists t, line_text f r = Ret t /\ ok t /\ py_split t = c) rows cs ->
  exists text, lines_text f rows = Ret text /\ table text = cs.
Proof.
  induction 1 as [|r c rows cs (t & E & O & W) _ (text & E2 & W2)]; [exists ""; auto|]. cbn [lines_text]. rewrite E, E2. eexists. split; [reflexivity|].
  unfold table, lines_of in *. cbn [append]. rewrite readlines_app, (readlines_line t (ok_no_lf t O)). cbn [app map].
  rewrite py_split_app_blank by apply blank_nl. rewrite W, W2. reflexivity.
Qed.

(** ** The names of the columns *)
Lemma omega_word i : one_word ("omega_" ++ str_int (Z.of_nat i)).
Proof. split; [discriminate|]. apply all_app. split; [repeat split; discriminate|]. apply (int_plain_word (Z.of_nat i)). Qed.
Lemma omega_columns N : forall k a, ok a -> let b := String.concat "" (map (fun i => " " ++ pad_left 14 ("omega_" ++ str_int (Z.of_nat i))) (seq k N)) in
  ok (a ++ b) /\ py_split (a ++ b) = (py_split a ++ map (fun i => String.append "omega_" (str_int (Z.of_nat i))) (seq k N))%list.
Proof.
  induction N as [|N IH]; intros k a Ha.
  - cbn. rewrite app_nil_r_s, app_nil_r. auto.
  - cbn [seq map]. rewrite concat_cons. destruct (item_left 14 _ (omega_word k)) as [E O].
    destruct (IH (S k) (a ++ " " ++ pad_left 14 ("omega_" ++ str_int (Z.of_nat k)))) as [O2 E2]; [apply ok_space; assumption|].
    rewrite split_space, E in E2. rewrite !app_assoc_str in O2, E2. rewrite !app_assoc_str. split; [exact O2|]. rewrite E2, <- app_assoc. reflexivity.
Qed.
Lemma names_ok N : ok (names_line N) /\ py_split (names_line N) = column_names N.
Proof.
  unfold names_line. destruct (omega_columns N 0 "Coordinate") as [O E]; [repeat split; discriminate|].
  set (b := String.concat "" _) in *. set (r := "    " ++ _ ++ _).
  assert (Er : exists r', r = String " " r' /\ ok r /\ py_split r' = ["b1"; "(rel)"; "b2"; "(rel)"; "b3"; "(rel)"; "k_x"; "(abs)"; "k_y"; "(abs)"; "k_z"; "(abs)"]).
  { eexists. split; [reflexivity|]. split; [repeat split; discriminate|reflexivity]. }
  destruct Er as (r' & Er & Or & Wr). rewrite <- app_assoc_str. split; [apply ok_app; [exact O|exact Or]|].
  rewrite Er. rewrite (py_split_app_space _ " " r') by reflexivity. rewrite E, Wr. unfold column_names. rewrite <- app_assoc. reflexivity.
Qed.
End Lines.

(** ** The files *)
Lemma cells_length fixed sci en N c r a : List.length (en a) = N -> List.length (cells fixed sci en c r a) = (N + 7)%nat.
Proof. intros L. unfold cells. rewrite !app_length, map_length, L. cbn. lia. Qed.
Lemma Forall2_map {A B C} (f : A -> B) (g : A -> C) (P : B -> C -> Prop) l : (forall a, In a l -> P (f a) (g a)) -> Forall2 P (map f l) (map g l).
Proof. intros H. induction l; constructor; [apply H; left; reflexivity|]. apply IHl. intros a0 Ha. apply H. right. exact Ha. Qed.

Theorem files_ok fixed sci solve st D abspath spinham seedname info kp :
  (forall x, one_word (fixed x)) -> (forall x, one_word (sci x)) -> one_energy_per_row (2 * d_N D) solve ->
  kp_flat kp <> [] -> List.length (kp_rel kp) = List.length (kp_flat kp) -> List.length (kp_abs kp) = List.length (kp_flat kp) ->
  let name := output_name spinham seedname in
  let wanted := all_cells fixed sci (fun k => fst (omega solve (d_N D) (d_h st D k) false false false)) (kp_flat kp) (kp_rel kp) (kp_abs kp) in
  Forall (fun l => List.length l = (d_N D + 7)%nat) wanted /\ List.length wanted = List.length (kp_flat kp) /\
  (exists i d, manager_files fixed sci solve st D abspath spinham seedname info false kp = Ret [(name ++ "_info.txt", i); (name ++ "_data.txt", d)] /\ table d = wanted) /\
  (exists d, manager_files fixed sci solve st D abspath spinham seedname info true kp = Ret [(name ++ ".txt", info ++ d)] /\
     table d = (["dispersion"] :: column_names (d_N D) :: wanted)%list).
Proof.
  intros Hf Hs HS N L1 L2 name. set (en := fun k => fst (omega solve (d_N D) (d_h st D k) false false false)). intros wanted.
  assert (LE : forall k, List.length (en k) = d_N D) by (intros k; apply (energies_length solve st D HS false k)).
  assert (NA : kp_abs kp <> []) by (intros X; rewrite X in L2; destruct (kp_flat kp); [congruence|discriminate]).
  destruct (omegas_ok solve st D HS false (kp_abs kp) NA) as (LO & LR & HO). rewrite L2 in LR, HO.
  set (om := omegas solve st D false (kp_abs kp)) in *.
  pose proof (table_rows_ok en kp om N L1 L2 LR HO) as ET.
  assert (EW : wanted = map (fun m => cells fixed sci en (nth m (kp_flat kp) 0%R) (nth m (kp_rel kp) vzero) (nth m (kp_abs kp) vzero)) (seq 0 (List.length (kp_flat kp)))).
  { apply all_cells_seq; assumption. }
  destruct (rows_text (line_format fixed sci (d_N D)) (map (fun m => row_of en (nth m (kp_flat kp) 0%R) (nth m (kp_rel kp) vzero) (nth m (kp_abs kp) vzero)) (seq 0 (List.length (kp_flat kp)))) wanted) as (text & E1 & E2).
  { rewrite EW. apply Forall2_map. intros m _. apply row_text; auto. }
  assert (EM : forall j, manager_files fixed sci solve st D abspath spinham seedname info j kp = script_files fixed sci abspath name info j kp om).
  { intros j. unfold manager_files. destruct (kp_flat kp); [congruence|reflexivity]. }
  split; [|split; [|split]].
  - rewrite EW. apply Forall_forall. intros l Hl. apply in_map_iff in Hl. destruct Hl as (m & <- & _). apply cells_length, LE.
  - rewrite EW, map_length, seq_length. reflexivity.
  - eexists _, text. rewrite EM. unfold script_files. rewrite ET, LO, E1. split; [reflexivity|exact E2].
  - eexists. rewrite EM. unfold script_files. rewrite ET, LO, E1. split.
    + rewrite app_assoc_s. reflexivity.
    + rewrite app_assoc_s. cbn [append]. unfold table, lines_of in *. destruct (names_ok (d_N D)) as [On En].
      match goal with |- map py_split (readlines ?x) = _ => change x with ("dispersion" ++ String line_feed (names_line (d_N D) ++ String line_feed text)) end.
      rewrite (readlines_app "dispersion"), map_app, (readlines_app (names_line (d_N D)) text), map_app, E2. rewrite (readlines_line (names_line (d_N D)) (ok_no_lf _ On)). cbn [map app].
      rewrite py_split_app_blank by apply blank_nl. rewrite En. reflexivity.
Qed.

(** ** Additional points *)
Section Points.
Context {F : Type}.
Variable to_float : string -> option F.
Lemma flat_group_length gs : List.length (flat_map group gs) = (5 * List.length gs)%nat.
Proof. induction gs as [|[[[[n l] a] b] c] gs IH]; [reflexivity|]. cbn [flat_map group]. rewrite app_length, IH. cbn. lia. Qed.
Lemma point_at_group pre g post : point_at to_float (flat_map group pre ++ group g ++ post) (List.length pre) =
  match group_point to_float g with Some p => Ret p | None => Raise ValueError end.
Proof.
  destruct g as [[[[n l] a] b] c]. unfold point_at. pose proof (flat_group_length pre) as L.
  rewrite (nth_error_app2 _ _ (n := (5 * List.length pre)%nat)) by lia. rewrite (nth_error_app2 _ _ (n := (5 * List.length pre + 1)%nat)) by lia.
  replace (5 * List.length pre - List.length (flat_map group pre))%nat with 0%nat by lia.
  replace (5 * List.length pre + 1 - List.length (flat_map group pre))%nat with 1%nat by lia.
  rewrite skipn_app. replace (5 * List.length pre + 2 - List.length (flat_map group pre))%nat with 2%nat by lia.
  rewrite skipn_all2 by lia. cbn [group app nth_error skipn firstn group_point].
  destruct (to_float a); [|reflexivity]. destruct (to_float b); [|reflexivity]. destruct (to_float c); reflexivity.
Qed.
Lemma points_from_groups gs : forall pre post, points_from to_float (flat_map group pre ++ flat_map group gs ++ post) (seq (List.length pre) (List.length gs)) =
  match all_points to_float gs with Some ps => Ret ps | None => Raise ValueError end.
Proof.
  induction gs as [|g gs IH]; intros pre post; [reflexivity|]. cbn [List.length seq points_from flat_map all_points].
  rewrite <- (app_assoc (group g)). rewrite point_at_group. destruct (group_point to_float g) as [p|]; [|reflexivity].
  specialize (IH (pre ++ [g])%list post). rewrite flat_map_app, app_length in IH. cbn [flat_map List.length] in IH. rewrite app_nil_r, <- app_assoc in IH.
  replace (List.length pre + 1)%nat with (S (List.length pre)) in IH by lia. rewrite IH. destruct (all_points to_float gs); reflexivity.
Qed.
Theorem extra_points_ok gs rest : (List.length rest < 5)%nat ->
  extra_points to_float (flat_map group gs ++ rest) = match all_points to_float gs with Some ps => Ret ps | None => Raise ValueError end.
Proof.
  intros H. unfold extra_points. rewrite app_length, flat_group_length.
  replace ((5 * List.length gs + List.length rest) / 5)%nat with (List.length gs).
  - exact (points_from_groups gs [] rest).
  - rewrite (Nat.mul_comm 5). rewrite Nat.div_add_l by lia. rewrite Nat.div_small by exact H. lia.
Qed.
End Points.

(** ** Examples *)
Definition two_points : kpath := mkPath [0; 1]%R [mkV 0 0 0; mkV 1 0 0]%R [mkV 0 0 0; mkV 2 0 0]%R.
Definition one_mode : dispersion := mkDisp 1 [] [mkV 0 0 1]%R [mkV (RtoC 1) (RtoC 0) (RtoC 0)] [mkV (RtoC 0) (RtoC 0) (RtoC 1)].
Definition digit (x : num) : string := "0".
Lemma files_case : exists (fixed sci : num -> string) (solve : mat -> option (list C * mat)) D kp, (forall x, one_word (fixed x)) /\ (forall x, one_word (sci x)) /\ one_energy_per_row (2 * d_N D) solve /\
  kp_flat kp <> [] /\ List.length (kp_rel kp) = List.length (kp_flat kp) /\ List.length (kp_abs kp) = List.length (kp_flat kp) /\ List.length (kp_flat kp) = 2%nat /\ d_N D = 1%nat.
Proof.
  destruct (contract_case 2) as (solve & _ & H & _). exists digit, digit, solve, one_mode, two_points.
  assert (W : forall x, one_word (digit x)) by (intros x; repeat split; discriminate). repeat split; try discriminate; try exact H; apply W.
Qed.
Lemma points_case : extra_points (fun w => if string_dec w "1/2" then None else Some w) (["G"; "Gamma"; "0"; "0"; "0"] ++ ["X"; "X"; "1"; "0"; "0"])
  = Ret [("G", "Gamma", ["0"; "0"; "0"]); ("X", "X", ["1"; "0"; "0"])].
Proof. reflexivity. Qed.
Lemma points_lost : exists args, args <> [] /\ forall F (to_float : string -> option F), extra_points to_float args = Ret [].
Proof. exists ["X"; "X"; "1"; "0"]. split; [discriminate|reflexivity]. Qed.
