(** Consequences: nearness, and when a text is written at all. *)
From Coq Require Import String Ascii List Bool ZArith Arith Lia.
From Coq Require Import Ring Field Field_theory Ring_theory.
From Verif.Base Require Import Scalar Linear3 PyDict PyString PyText.
From Verif.Spec Require Import HamSpec HistorySpec TxtSpec TxtFormat Hdf5Spec TxtDumpSpec.
From Verif.Model Require Import MatrixParam Hamiltonian TxtVerify TxtRead Hdf5 TxtDump.
From Verif.Proofs Require Import DictProofs HamBasics SectionProofs TotalProofs FileProofs TextMore DumpBack.
Import ListNotations.
Local Open Scope string_scope.

Section More.
Context {F : Type} {SF : Scalar F}.
Add Field F_field : (@f_field F SF).
Variable X : externals F.
Variable P : printer F.
Variable rnd : nat -> F -> F.
Notation spinham := (@spinham F).

Lemma three_nz : (f1 + f1 + f1)%fld <> f0.
Proof. apply f_three. Qed.
Lemma parts_determine (m m' : M3 F) : iso_of m = iso_of m' -> dmi_of m = dmi_of m' -> five_of m = five_of m' -> m = m'.
Proof.
  intros Ei Ed E5.
  assert (K : forall m : M3 F, m = let '(a, b, c, d, e) := five_of m in let j := iso_of m in let v := dmi_of m in
     (mkM (a + j) (c + vz v) (d - vy v) (c - vz v) (b + j) (e + vx v) (d + vy v) (e - vx v) (j - a - b))%fld).
  { intros [a b c d e f g h i]. unfold five_of, iso_of, dmi_of, mtrace. cbn [mxx mxy mxz myx myy myz mzx mzy mzz vx vy vz]. f_equal; field; fside. }
  rewrite (K m), (K m'), Ei, Ed, E5. reflexivity.
Qed.
Lemma parts_default fl m m' : matrices_only fl -> kept_parts rnd fl m m' -> m' = rm rnd 4 m.
Proof. intros (A & B & C & D) (K1 & K2 & K3). rewrite A, B in K1. rewrite A, C in K2. rewrite A, D in K3. apply parts_determine; assumption. Qed.

Hypothesis HP : prints X P rnd.
Lemma near_rv p v : near_v p v (rv rnd p v).
Proof. repeat split; apply (pn_near _ _ _ HP). Qed.
Lemma near_rm p m : near_m p m (rm rnd p m).
Proof. repeat split; apply (pn_near _ _ _ HP). Qed.

Hypothesis HX : sane X.
Hypothesis HU : units_defined X.
Theorem dump_then_load_near fl s content : one_object s -> printable rnd s -> matrices_only fl -> no_self_bonds s -> symmetric_sites s ->
  dump_txt P fl s = Ret content -> exists L, load_txt X (readlines content) = Ret L /\ restored s L.
Proof.
  intros Ho Hp Hf Hb Hs Hd. destruct (dump_then_load X P rnd HX HP HU fl s content Ho Hp (or_introl (proj1 Hf)) Hd) as (L & HL & K & _ & _).
  exists L. split; [exact HL|]. destruct K as (K1 & K2 & K3 & K4 & K5 & K6 & _). split; [rewrite K1; apply near_rm|]. split; [|split; [exact K3|split; [exact K4|split]]].
  - clear - K2 HP. revert K2. generalize (ld_atoms L) as l. induction (sh_sites s) as [|x t IH]; intros [|a l] E; try discriminate; constructor.
    + cbn [map] in E. injection E as E1 E2 E3 _. rewrite E1, E2. split; [reflexivity|]. split; [apply near_rv|]. rewrite E3. destruct (st_spin x); [apply near_rv|exact I].
    + apply IH. cbn [map] in E. injection E as _ _ _ E. exact E.
  - intros a a' b b' R Na Nb. specialize (K5 a a' b b' R Na Nb). unfold bond_kept in K5. destruct (bond_value (sh_ham s) (mkB a b R)) as [m|] eqn:Ev.
    + destruct K5 as [[W _]|(_ & m' & E & Kp)].
      * exfalso. apply (Hb (mkB a b R)); [|exact W]. unfold bond_value in Ev. destruct (dget (h_exch (w_ham (sh_ham s))) (mkB a b R)) eqn:D; [|discriminate].
        apply dget_Some_In in D. unfold bonds, dkeys. apply in_map_iff. eexists. split; [|exact D]. reflexivity.
      * rewrite E. rewrite (parts_default fl m m' Hf Kp). apply near_rm.
    + rewrite K5. exact I.
  - intros a a' Na. rewrite (K6 a a' Na). destruct (onsite_value (sh_ham s) a) as [m|] eqn:E; [|exact I]. cbn [option_map near_opt].
    destruct (Hs a m E) as (E1 & E2 & E3). replace (upper m) with m; [apply near_rm|]. destruct m; cbn in *; subst; reflexivity.
Qed.

(** ** When a text is written *)
Definition dumped (o : out string) (Q : Prop) (e : exn) : Prop := (Q -> exists t, o = Ret t) /\ (~ Q -> o = Raise e).
Lemma atoms_outcome fl l :
  (fl_angles fl = true -> (exists x, In x l /\ st_spin x <> None) -> atom_texts P fl l = Raise AttributeError)
  /\ ((fl_angles fl = false \/ forall x, In x l -> st_spin x = None) -> exists ts, atom_texts P fl l = Ret ts).
Proof.
  induction l as [|x l [IH1 IH2]]; [split; [intros _ (x & [] & _)|intros _; exists []; reflexivity]|]. cbn [atom_texts]. unfold atom_text. cbv zeta. split.
  - intros A (y & I & Hy). rewrite A. destruct (st_spin x) eqn:E; [reflexivity|]. cbn [obind]. rewrite IH1; [reflexivity|exact A|]. exists y. split; [|exact Hy].
    destruct I as [->|I]; [congruence|exact I].
  - intros H. destruct IH2 as [ts E2]; [destruct H as [H|H]; [left; exact H|right; intros y I; apply H; right; exact I]|]. rewrite E2. destruct (st_spin x) eqn:E.
    + destruct H as [-> |H]; [eexists; reflexivity|]. rewrite H in E; [discriminate|left; reflexivity].
    + eexists. reflexivity.
Qed.
Lemma nonempty_keys {K V} (d : dict K V) : Hdf5.nonempty d = true <-> dkeys d <> [].
Proof. destruct d; cbn; split; congruence. Qed.
Lemma notation_outcome (s : spinham) : (noted_for s -> exists ts, notation_text P (w_ham (sh_ham s)) = Ret ts)
  /\ (~ noted_for s -> notation_text P (w_ham (sh_ham s)) = Raise NotationError).
Proof.
  unfold noted_for, bonds, sites, notation_text. pose proof (nonempty_keys (h_exch (w_ham (sh_ham s)))) as A. pose proof (nonempty_keys (h_ons (w_ham (sh_ham s)))) as B.
  destruct (Hdf5.nonempty (h_exch (w_ham (sh_ham s)))), (Hdf5.nonempty (h_ons (w_ham (sh_ham s)))); cbn [orb];
    destruct (h_sn (w_ham (sh_ham s))), (h_dc (w_ham (sh_ham s))), (h_ef (w_ham (sh_ham s))), (h_of (w_ham (sh_ham s))); cbn;
    (split; [intros (H1 & H2 & H3)|intros N]); try (eexists; reflexivity); try reflexivity; exfalso;
    first [ apply N; repeat split; intros; try discriminate; repeat match goal with H : _ \/ _ |- _ => destruct H end; intuition congruence
          | intuition congruence ].
Qed.
Theorem dump_outcome fl (s : spinham) :
  (fl_angles fl = true -> (exists x, In x (sh_sites s) /\ st_spin x <> None) -> dump_txt P fl s = Raise AttributeError)
  /\ (fl_angles fl = false -> noted_for s -> exists content, dump_txt P fl s = Ret content)
  /\ (fl_angles fl = false -> ~ noted_for s -> dump_txt P fl s = Raise NotationError).
Proof.
  destruct (atoms_outcome fl (sh_sites s)) as [A1 A2]. destruct (notation_outcome s) as [N1 N2]. unfold dump_txt, dump_text. cbv zeta. split; [|split].
  - intros H1 H2. rewrite (A1 H1 H2). reflexivity.
  - intros H1 H2. destruct A2 as [ts ->]; [auto|]. destruct (N1 H2) as [nt ->]. eexists. reflexivity.
  - intros H1 H2. destruct A2 as [ts ->]; [auto|]. rewrite (N2 H2). reflexivity.
Qed.
End More.
