(** Reading back a dumped file. *)
From Coq Require Import String Ascii List Bool ZArith Arith Lia DecimalString.
From Coq Require Import Ring Field Field_theory Ring_theory.
From Verif.Base Require Import Scalar Linear3 PyDict PyString PyText.
From Verif.Spec Require Import HamSpec HistorySpec ParameterSpec TxtSpec TxtFormat Hdf5Spec TxtDumpSpec.
From Verif.Model Require Import MatrixParam Hamiltonian TxtVerify TxtRead Hdf5 TxtDump.
From Verif.Proofs Require Import DictProofs HamBasics HistoryProofs ParameterProofs TextBasics SectionProofs TxtReadProofs TextGlue VerifyProofs LoadProofs FileProofs TotalProofs TextMore DumpText DumpWords DumpVerify.
Import ListNotations.
Local Open Scope string_scope.

Definition wname (ws : list (list string)) : string := str_lower (hd "" (hd [] ws)).
Lemma section_words s : section_name s = wname (map py_split s).
Proof. destruct s; reflexivity. Qed.

Lemma headed_or_sep l : Forall (fun s => s <> [] /\ Forall headed s) l ->
  Forall (fun ws => headed ws \/ ws = sep_words) (flat_map (fun s => s ++ [sep_words])%list l).
Proof.
  induction 1 as [|x l [_ Hx] _ IH]; [constructor|]. cbn [flat_map]. rewrite <- app_assoc. apply Forall_app. split.
  - eapply Forall_impl; [|exact Hx]. auto.
  - constructor; [right; reflexivity|exact IH].
Qed.

Section Load.
Context {F : Type} {SF : Scalar F}.
Add Field F_field : (@f_field F SF).
Variable X : externals F.
Variable P : printer F.
Variable rnd : nat -> F -> F.
Hypothesis HX : sane X.
Hypothesis HP : prints X P rnd.
Notation spinham := (@spinham F).
Notation site := (@site F).
Notation world := (@world F).
Notation isf := (isfloat X).
Notation w8 := (w8 P). Notation w4 := (w4 P). Notation w8v := (w8v P). Notation w4v := (w4v P).

(** ** Acceptance from the sections *)
Lemma accepted_if secs ts : laid_out secs ts -> NoDup (map section_name secs) -> Forall (fun l => short_equal l = false) ts ->
  (exists sc, has_section secs "cell" sc) -> (exists sa, has_section secs "atoms" sa) ->
  (forall sa, has_section secs "atoms" sa -> exists allowed, verify_atoms isf sa = Ret (allowed, false)
    /\ forall s, In s secs -> section_name s <> "atoms" -> verify_section isf (isint X) (x_float X) (dict_of secs) allowed (section_name s) s = false) ->
  verify_model_file isf (isint X) (x_float X) true ts = Ret (dict_of secs).
Proof.
  intros La N Sh Hc [sa Ha] H. assert (Shc : Forall (fun l => short_equal l = false) (concat secs)).
  { clear - La Sh. induction La; cbn; [constructor|inversion Sh; auto|rewrite app_nil_r; exact Sh|]. apply Forall_app in Sh. destruct Sh as [A B]. inversion B; subst. apply Forall_app. auto. }
  assert (Hh : Forall (fun s => short_equal (hd "" s) = false) secs).
  { pose proof (SectionProofs.laid_out_nonempty _ _ La) as Ne. rewrite Forall_forall in *. intros s I. destruct s as [|l s]; [destruct (Ne [] I); reflexivity|].
    apply Shc. apply in_concat. exists (l :: s). split; [exact I|left; reflexivity]. }
  unfold verify_model_file, verify_file. rewrite (found_laid_out secs ts La Hh N). fold (dict_of secs).
  rewrite (proj2 (dict_of_mem secs "cell" N)) by assumption. rewrite (proj2 (dict_of_mem secs "atoms" N)) by eauto. cbn [negb orb].
  rewrite (proj2 (dict_of_get secs "atoms" sa N) Ha). destruct (H sa Ha) as (allowed & V & Vs). rewrite V.
  replace (existsb short_equal ts) with false.
  - cbn [orb]. match goal with |- context [existsb ?g (dict_of secs)] => destruct (existsb g (dict_of secs)) eqn:Q end; [|reflexivity]. exfalso.
    apply existsb_exists in Q. destruct Q as ([n s] & I & Q). cbn [fst snd] in Q. unfold dict_of in I. apply in_map_iff in I. destruct I as (s' & E & I).
    injection E as E1 E2. subst n s'. destruct (string_dec (section_name s) "atoms") as [|Nm]; [discriminate|]. rewrite (Vs s I Nm) in Q. discriminate.
  - symmetry. clear - Sh. induction Sh as [|l ts Hl _ IH]; [reflexivity|]. cbn. rewrite Hl, IH. reflexivity.
Qed.

Lemma printable_good (s : spinham) : printable rnd s -> Forall (fun x => good_name (a_name (st_atom x))) (sh_sites s).
Proof. intros (_ & _ & A & _). eapply Forall_impl; [|exact A]. intros x [G _]. exact G. Qed.

Section File.
Variables (fl : flags) (s : spinham) (content : string).
Hypothesis Ho : one_object s.
Hypothesis Hg : Forall (fun x => good_name (a_name (st_atom x))) (sh_sites s).
Hypothesis Hp : printable rnd s.
Hypothesis Hw : something_written fl.
Hypothesis Hd : dump_txt P fl s = Ret content.
Let w := sh_ham s.
Let h := w_ham w.
Let ex := Hdf5.nonempty (h_exch h).
Let os := Hdf5.nonempty (h_ons h).
Let names := map (fun x => a_name (st_atom x)) (sh_sites s).

Lemma all_spun : Forall spun (sh_sites s).
Proof. destruct Hp as (_ & _ & A & _). exact A. Qed.
Lemma atom_good a : In a (h_atoms h) -> good_name (a_name a) /\ In (a_name a) names.
Proof.
  unfold h, w. rewrite (proj1 Ho). intros I. apply in_map_iff in I. destruct I as (x & <- & I). pose proof Hg as S. rewrite Forall_forall in S. split; [apply (S x I)|].
  apply in_map_iff. exists x. auto.
Qed.
Lemma bond_good k : In k (bonds w) -> (good_name (a_name (b_from k)) /\ good_name (a_name (b_to k))) /\ In (a_name (b_from k)) names /\ In (a_name (b_to k)) names.
Proof.
  intros I. destruct Ho as (_ & (_ & _ & _ & _ & A & _) & _). destruct (A k I) as [I1 I2]. destruct (atom_good _ I1), (atom_good _ I2). auto.
Qed.
Lemma site_good a : In a (sites w) -> good_name (a_name a) /\ In (a_name a) names.
Proof. intros I. destruct Ho as (_ & (_ & _ & _ & _ & _ & A) & _). apply atom_good, A, I. Qed.
Lemma no_angles : fl_angles fl = false.
Proof.
  clear Hg. pose proof Hd as E. unfold dump_txt, dump_text in E. destruct (atom_texts P fl (sh_sites s)) as [t|] eqn:Ea; [|discriminate]. clear E.
  destruct Hp as (N & _). pose proof all_spun as S. destruct (sh_sites s) as [|x l]; [congruence|]. inversion S as [|? ? [_ Sx] _]; subst.
  cbn [atom_texts] in Ea. unfold atom_text in Ea. destruct (st_spin x); [|congruence]. destruct (fl_angles fl); [discriminate|reflexivity].
Qed.
Lemma notation_set : ((ex || os)%bool = true -> h_sn h <> None) /\ (ex = true -> h_dc h <> None /\ h_ef h <> None) /\ (os = true -> h_of h <> None).
Proof.
  pose proof Hd as E. unfold dump_txt, dump_text in E. destruct (atom_texts P fl (sh_sites s)) as [t|]; [|discriminate]. cbn [obind] in E.
  destruct (notation_text P (w_ham (sh_ham s))) as [nt|] eqn:En; [|discriminate]. apply (notation_entries X P rnd HP) in En. apply En.
Qed.
Lemma named_s : named s.
Proof.
  split; [|split].
  - eapply Forall_impl; [|exact Hg]. intros x G. apply good_one_word, G.
  - intros k I. destruct (bond_good k I) as [[A B] _]. split; apply good_one_word; assumption.
  - intros a I. apply good_one_word, (site_good a I).
Qed.

(** The sections of the file by their words. *)
Definition sec_words : list (list (list string)) := wsecs P fl s.
Lemma sec_cases ws : In ws sec_words <->
  ws = w_cell P (sh_cell s) \/ ws = w_atoms P fl (sh_sites s) \/ ((ex || os)%bool = true /\ ws = ["Notation"] :: w_props P h)
  \/ (ex = true /\ ws = w_exchange P fl w) \/ (os = true /\ ws = w_on_site P w)
  \/ (exists n, sh_cone s = Some n /\ ws = w_cone P n) \/ (exists q, sh_spiral s = Some q /\ ws = w_spiral P q).
Proof.
  unfold sec_words, wsecs. cbv zeta. fold w h ex os. rewrite !in_app_iff. destruct ex, os, (sh_cone s) as [n|], (sh_spiral s) as [q|]; cbn [orb In];
    split; intros H; repeat match goal with
      | H : _ \/ _ |- _ => destruct H | H : False |- _ => destruct H | H : exists _, _ |- _ => destruct H | H : _ /\ _ |- _ => destruct H
      | H : Some _ = Some _ |- _ => injection H as H | H : None = Some _ |- _ => discriminate H | H : false = true |- _ => discriminate H end; subst;
    intuition (eauto; congruence).
Qed.
Lemma names_distinct : NoDup (map wname sec_words).
Proof.
  unfold sec_words, wsecs. cbv zeta. fold w h ex os. destruct ex, os, (sh_cone s) as [n|], (sh_spiral s) as [q|]; cbn; repeat constructor; cbn; intuition discriminate.
Qed.
Lemma sections_headed : Forall (fun s => s <> [] /\ Forall headed s) sec_words.
Proof.
  assert (L8 : forall v, headed (w8v v)) by (intros v; apply led_headed, (led8 X P rnd HP)).
  assert (K : forall a r, solid a -> headed (a :: r)) by (intros; left; assumption).
  assert (Fm : forall {A} (f : A -> list (list string)) l, (forall x, In x l -> Forall headed (f x)) -> Forall headed (flat_map f l)).
  { intros A f l. induction l as [|x l IH]; intros Hl; [constructor|]. cbn. apply Forall_app. split; [apply Hl; left; reflexivity|apply IH; intros; apply Hl; right; assumption]. }
  rewrite Forall_forall. intros ws I. apply sec_cases in I. destruct I as [->|[->|[[_ ->]|[[_ ->]|[[_ ->]|[(n & _ & ->)|(q & _ & ->)]]]]]]; (split; [discriminate|]).
  - constructor; [left; split; [discriminate|left; discriminate]|]. repeat (constructor; [apply L8|]). constructor.
  - unfold w_atoms. constructor; [left; split; [discriminate|left; discriminate]|]. constructor; [left; split; [discriminate|left; discriminate]|].
    rewrite Forall_map. eapply Forall_impl; [|exact Hg]. intros x G. left. apply good_solid, G.
  - unfold w_props, opt. repeat (constructor; [left; split; [discriminate|left; discriminate]|]).
    rewrite !Forall_app. repeat split; repeat match goal with |- Forall _ (if ?b then _ else _) => destruct b | |- Forall _ (match ?o with _ => _ end) => destruct o | |- Forall _ (_ ++ _) => apply Forall_app; split end;
      repeat (constructor; [left; split; [discriminate|left; discriminate]|]); constructor.
  - unfold w_exchange. constructor; [left; split; [discriminate|left; discriminate]|]. constructor; [exact sub_headed|]. apply Fm. intros [k l] I. cbn [fst snd].
    destruct (self_bond k); [constructor|]. apply Forall_app. split; [|constructor; [exact sub_headed|constructor]].
    destruct (bond_good k) as [[G _] _]; [apply in_map_iff; exists (k, l); auto|]. unfold w_bond. constructor.
    + unfold w_bond_header. destruct (b_cell k) as [[? ?] ?]. left. apply good_solid, G.
    + eapply Forall_impl; [exact led_headed|apply (data_led X P rnd HP)].
  - unfold w_on_site. constructor; [left; split; [discriminate|left; discriminate]|]. constructor; [exact sub_headed|]. apply Fm. intros [a l] I. cbn [fst snd]. cbv zeta.
    destruct (site_good a) as [G _]; [apply in_map_iff; exists (a, l); auto|]. constructor; [left; apply good_solid, G|]. constructor; [apply led_headed, (led4 X P rnd HP)|].
    constructor; [exact sub_headed|constructor].
  - constructor; [left; split; [discriminate|left; discriminate]|]. repeat (constructor; [apply L8|]). constructor.
  - constructor; [left; split; [discriminate|left; discriminate]|]. repeat (constructor; [apply L8|]). constructor.
Qed.
Record layout secs ts : Prop := {
  ly_file : file_shows (readlines content) ts; ly_laid : laid_out secs ts; ly_names : NoDup (map section_name secs);
  ly_words : map (map py_split) secs = sec_words; ly_clean : Forall (Forall clean) secs; ly_short : Forall (fun l => short_equal l = false) ts }.
Theorem file_layout : exists secs ts, layout secs ts.
Proof.
  destruct (dump_words X P rnd HP fl s content named_s Hd) as (ts & Fs & E). pose proof (file_shows_clean _ _ Fs) as C.
  destruct ts as [|t ts]; [discriminate|].
  pose proof (f_equal (@hd _ []) E) as E0. apply (f_equal (@tl _)) in E. cbn [map hd tl] in E0, E. fold sec_words in E. inversion C as [|? ? Ct Cts]; subst.
  destruct (laid_out_words sec_words sections_headed ts Cts E) as (secs & La & Ws). pose proof (sep_line t (proj1 Ct) E0) as St.
  assert (La' : laid_out secs (t :: ts)) by (apply lo_sep; assumption).
  exists secs, (t :: ts). constructor; auto.
  - replace (map section_name secs) with (map wname sec_words); [exact names_distinct|]. rewrite <- Ws, map_map. apply map_ext. intros x. symmetry. apply section_words.
  - eapply laid_out_clean; eassumption.
  - constructor; [apply separator_not_short, St|]. assert (G : Forall (fun l => headed (py_split l) \/ separator l) ts).
    { assert (Q : Forall (fun ws => headed ws \/ ws = sep_words) (map py_split ts)).
      { rewrite E. apply headed_or_sep, sections_headed. }
      rewrite Forall_map in Q. rewrite Forall_forall in *. intros l I. destruct (Q l I) as [A|A]; [left; exact A|right; apply sep_line; [apply Cts, I|exact A]]. }
    rewrite Forall_forall in *. intros l I. destruct (G l I) as [A|A]; [apply (headed_line l (py_split l) (proj1 (Cts l I)) eq_refl A)|apply separator_not_short, A].
Qed.

Section Laid.
Variables (secs : list (list string)) (ts : list string).
Hypothesis L : layout secs ts.
Lemma section_in ws : In ws sec_words -> exists sec, has_section secs (wname ws) sec /\ map py_split sec = ws /\ Forall clean sec.
Proof.
  intros I. rewrite <- (ly_words _ _ L) in I. apply in_map_iff in I. destruct I as (sec & <- & I). exists sec. split; [split; [exact I|apply section_words]|]. split; [reflexivity|].
  pose proof (ly_clean _ _ L) as C. rewrite Forall_forall in C. apply C, I.
Qed.
Lemma section_out n sec : has_section secs n sec -> In (map py_split sec) sec_words /\ wname (map py_split sec) = n /\ Forall clean sec.
Proof.
  intros [I E]. split; [rewrite <- (ly_words _ _ L); apply in_map; exact I|]. rewrite section_words in E. split; [exact E|].
  pose proof (ly_clean _ _ L) as C. rewrite Forall_forall in C. apply C, I.
Qed.
Ltac pick H := apply section_out in H; let I := fresh "I" in let E := fresh "E" in let C := fresh "C" in destruct H as (I & E & C); apply sec_cases in I;
  repeat match goal with I : _ \/ _ |- _ => destruct I as [I|I] | I : _ /\ _ |- _ => destruct I | I : exists _, _ |- _ => destruct I end;
  match goal with I : map py_split _ = _ |- _ => rewrite I in E; try discriminate E end.
Lemma cell_is sec : has_section secs "cell" sec -> map py_split sec = w_cell P (sh_cell s).
Proof. intros H. pick H. exact I. Qed.
Lemma atoms_is sec : has_section secs "atoms" sec -> map py_split sec = w_atoms P fl (sh_sites s).
Proof. intros H. pick H. exact I. Qed.
Lemma notation_is_ sec : has_section secs "notation" sec -> (ex || os)%bool = true /\ map py_split sec = ["Notation"] :: w_props P h.
Proof. intros H. pick H. auto. Qed.
Lemma exchange_is sec : has_section secs "exchange" sec -> ex = true /\ map py_split sec = w_exchange P fl w /\ Forall clean sec.
Proof. intros H. pick H. auto. Qed.
Lemma on_site_is sec : has_section secs "on-site" sec -> os = true /\ map py_split sec = w_on_site P w /\ Forall clean sec.
Proof. intros H. pick H. auto. Qed.
Lemma cone_is sec : has_section secs "cone-axis" sec -> exists n, sh_cone s = Some n /\ map py_split sec = w_cone P n.
Proof. intros H. pick H. eauto. Qed.
Lemma spiral_is sec : has_section secs "spiral-vector" sec -> exists q, sh_spiral s = Some q /\ map py_split sec = w_spiral P q.
Proof. intros H. pick H. eauto. Qed.
Lemma has_cell : exists sec, has_section secs "cell" sec.
Proof. destruct (section_in (w_cell P (sh_cell s))) as (sec & H & _); [apply sec_cases; auto|]. exists sec. exact H. Qed.
Lemma has_atoms : exists sec, has_section secs "atoms" sec.
Proof. destruct (section_in (w_atoms P fl (sh_sites s))) as (sec & H & _); [apply sec_cases; auto|]. exists sec. exact H. Qed.
Lemma has_notation : (ex || os)%bool = true -> exists sec, has_section secs "notation" sec.
Proof. intros B. destruct (section_in (["Notation"] :: w_props P h)) as (sec & H & _); [apply sec_cases; auto|]. exists sec. exact H. Qed.
Lemma has_exchange : ex = true -> exists sec, has_section secs "exchange" sec.
Proof. intros B. destruct (section_in (w_exchange P fl w)) as (sec & H & _); [apply sec_cases; auto 6|]. exists sec. exact H. Qed.
Lemma has_on_site : os = true -> exists sec, has_section secs "on-site" sec.
Proof. intros B. destruct (section_in (w_on_site P w)) as (sec & H & _); [apply sec_cases; auto 7|]. exists sec. exact H. Qed.
Lemma has_cone n : sh_cone s = Some n -> exists sec, has_section secs "cone-axis" sec.
Proof. intros B. destruct (section_in (w_cone P n)) as (sec & H & _); [apply sec_cases; eauto 9|]. exists sec. exact H. Qed.
Lemma has_spiral q : sh_spiral s = Some q -> exists sec, has_section secs "spiral-vector" sec.
Proof. intros B. destruct (section_in (w_spiral P q)) as (sec & H & _); [apply sec_cases; eauto 10|]. exists sec. exact H. Qed.

Lemma ex_mem : dmem (dict_of secs) "exchange" = ex.
Proof.
  destruct ex eqn:E; [apply (dict_of_mem secs _ (ly_names _ _ L)), has_exchange, E|].
  destruct (dmem (dict_of secs) "exchange") eqn:D; [|reflexivity]. apply (dict_of_mem secs _ (ly_names _ _ L)) in D. destruct D as [sec D]. apply exchange_is in D. destruct D as [D _]. congruence.
Qed.
Lemma os_mem : dmem (dict_of secs) "on-site" = os.
Proof.
  destruct os eqn:E; [apply (dict_of_mem secs _ (ly_names _ _ L)), has_on_site, E|].
  destruct (dmem (dict_of secs) "on-site") eqn:D; [|reflexivity]. apply (dict_of_mem secs _ (ly_names _ _ L)) in D. destruct D as [sec D]. apply on_site_is in D. destruct D as [D _]. congruence.
Qed.
Lemma self_bond_spec k : self_bond k = true <-> within_cell k.
Proof. unfold self_bond, within_cell. destruct (eq_dec (b_from k) (b_to k)), (eq_dec (b_cell k) (0, 0, 0)%Z); cbn; intuition congruence. Qed.
Lemma some_written : ex = true -> written w <> [].
Proof.
  intros E. destruct Hp as (_ & _ & _ & _ & _ & B). destruct B as (k & I & Nk).
  - unfold bonds. fold w h. unfold ex in E. destruct (h_exch h); discriminate.
  - apply in_map_iff in I. destruct I as ([k' l] & E' & I). cbn in E'. subst k'. intros Q. assert (In (k, l) (written w)); [|rewrite Q in *; contradiction].
    apply filter_In. split; [exact I|]. cbn [fst]. destruct (self_bond k) eqn:S; [|reflexivity]. apply self_bond_spec in S. contradiction.
Qed.
Theorem file_verified : verify_model_file isf (isint X) (x_float X) true ts = Ret (dict_of secs).
Proof.
  apply accepted_if; [apply L|apply L|apply L|exact has_cell|exact has_atoms|]. intros sa Ha. exists names. split.
  - apply (atoms_verified X P rnd HP fl (sh_sites s)); [exact no_angles|exact all_spun|apply Hp|apply Hp|apply atoms_is, Ha].
  - intros sec I N. assert (Hs : has_section secs (section_name sec) sec) by (split; auto). destruct notation_set as (N1 & N2 & N3).
    unfold verify_section. rewrite ex_mem, os_mem. remember (section_name sec) as n. clear Heqn I.
    destruct (string_dec n "cell") as [->|]; [apply (cell_verified X P rnd HX HP (sh_cell s)), cell_is, Hs|].
    destruct (string_dec n "notation") as [->|]; [apply (notation_verified X P rnd HX HP h sec N1 N2 N3); apply notation_is_, Hs|].
    destruct (string_dec n "exchange") as [->|].
    { destruct (exchange_is sec Hs) as (E & W & C). apply (exchange_verified X P rnd HX HP fl w); auto; [intros k I; apply (bond_good k I)|intros k I; apply (bond_good k I)|apply some_written, E]. }
    destruct (string_dec n "on-site") as [->|].
    { destruct (on_site_is sec Hs) as (E & W & C). apply (on_site_verified X P rnd HX HP w); auto; [apply site_good|]. unfold os, h in E. destruct (h_ons (w_ham w)); [discriminate|congruence]. }
    destruct (string_dec n "cone-axis") as [->|]; [destruct (cone_is sec Hs) as (v & _ & W); apply (cone_verified X P rnd HX HP v), W|].
    destruct (string_dec n "spiral-vector") as [->|]; [destruct (spiral_is sec Hs) as (v & _ & W); apply (spiral_verified X P rnd HX HP v), W|]. reflexivity.
Qed.
End Laid.
End File.
End Load.
