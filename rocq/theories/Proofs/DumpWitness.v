(** Concrete files for C42. *)
From Coq Require Import String Ascii List Bool ZArith Arith QArith Qcanon Lia.
From Verif.Base Require Import Scalar QcLit Linear3 PyDict PyString PyText.
From Verif.Model Require Import MatrixParam Hamiltonian History TxtVerify TxtRead Hdf5 TxtDump.
From Verif.Spec Require Import HamSpec HistorySpec TxtSpec TxtFormat Hdf5Spec TxtDumpSpec.
From Verif.Proofs Require Import HamBasics HistoryProofs HamWitness TextWitness TextSane Hdf5Witness DumpBack DumpMore DumpPrinter.
Import ListNotations.
Local Open Scope string_scope.

Definition text_of (fl : flags) (s : @spinham Qc) : string := match dump_txt QP fl s with Ret c => c | Raise _ => "" end.
Definition read_of (fl : flags) (s : @spinham Qc) : out (@loaded Qc) := load_txt QY (readlines (text_of fl s)).
Lemma good_by w c t : w = String c t -> one_word w -> letter_or_digit c -> (forall u, w <> u ++ "__") -> good_name w.
Proof. intros E O L U. split; [exact O|]. split; [exists c, t; auto|]. intros [u Hu]. exact (U u Hu). Qed.
Lemma good_letter c : letter_or_digit c -> is_space c = false -> c <> "#"%char -> good_name (String c "").
Proof.
  intros L Sp N. apply (good_by _ c ""); auto; [split; [discriminate|split; [auto|exact I]]|]. intros [|x u] H; [discriminate|]. injection H as _ H. destruct u; discriminate.
Qed.
Lemma names_good : good_name "A" /\ good_name "B" /\ good_name "C".
Proof. repeat split; try discriminate; try (eexists _, _; split; [reflexivity|unfold letter_or_digit; cbn; lia]); intros [[|x [|y u]] H]; discriminate. Qed.
Lemma rich_sites_good : NoDup (map name_of rich_sites) /\ Forall (fun x => good_name (name_of x) /\ st_spin x <> None) rich_sites.
Proof.
  split; [apply (nodup_names ["A"; "B"; "C"]); [apply NoDup_nodup|reflexivity]|]. destruct names_good as (A & B & C). repeat (constructor; [split; [assumption|discriminate]|]). constructor.
Qed.
(** Every Hamiltonian here is on the atoms A, B, C in the same box. *)
Definition on_abc (w : @world Qc) (q n : option (V3 Qc)) : @spinham Qc := mkSH box rich_sites w q n.
Lemma box_regular : mdet (rm qround 8 box) <> f0.
Proof. qne. Qed.
Lemma abc_printable w q n : (forall v, n = Some v -> v = mkV f0 f0 f1) -> (bonds w <> [] -> exists k, In k (bonds w) /\ ~ within_cell k) -> printable qround (on_abc w q n).
Proof.
  intros Hn Hb. destruct rich_sites_good as [A B]. split; [discriminate|]. split; [exact A|]. split; [exact B|]. split; [exact box_regular|]. split; [|exact Hb].
  intros v E. rewrite (Hn v E). intros H. apply (f_equal vz) in H. revert H. qne.
Qed.
Lemma abc_object w q n : reachable w -> h_atoms (w_ham w) = [atA; atB; atC] -> one_object (on_abc w q n).
Proof. intros R E. split; [exact E|exact (reachable_Inv w R)]. Qed.
Lemma rich_printable : printable qround s_rich.
Proof.
  apply abc_printable; [intros v E; injection E as <-; reflexivity|]. intros _. exists (mkB atA atB c0). split; [vm_compute; left; reflexivity|]. intros [H _]. discriminate.
Qed.
Definition all_flags : flags := mkFlags true true true true true false.
Lemma rich_text fl : fl = default_flags \/ fl = all_flags -> dump_txt QP fl s_rich = Ret (text_of fl s_rich).
Proof. intros [-> | ->]; vm_compute; reflexivity. Qed.
(** [s_rich] without its spiral vector. *)
Definition s_plain : @spinham Qc := on_abc w_rich None (Some (mkV f0 f0 f1)).
Lemma plain_printable : printable qround s_plain.
Proof. apply abc_printable; [intros v E; injection E as <-; reflexivity|apply rich_printable]. Qed.
Lemma plain_object : one_object s_plain.
Proof. apply abc_object; [exact r_rich|vm_compute; reflexivity]. Qed.
Lemma plain_lossless : no_self_bonds s_plain /\ symmetric_sites s_plain.
Proof.
  split.
  - intros k I [E1 E2]. vm_compute in I. repeat (destruct I as [<-|I]; [first [discriminate E1|discriminate E2]|]). destruct I.
  - intros a m E. unfold onsite_value in E. destruct (dget (h_ons (w_ham (sh_ham s_plain))) a) as [l|] eqn:D; [|discriminate].
    assert (l = 4%nat) by (apply SectionProofs.dget_Some_In in D; vm_compute in D; destruct D as [D|[]]; injection D as _ <-; reflexivity). subst l.
    vm_compute in E. injection E as <-. repeat split.
Qed.

(** ** The spiral vector *)
Definition along_z : V3 Qc := mkV f0 f0 f1.
Definition s_spiral_z : @spinham Qc := on_abc w_rich (Some along_z) None.
Lemma spiral_refuted : exists (s : @spinham Qc) content L, one_object s /\ printable qround s /\ dump_txt QP default_flags s = Ret content
  /\ load_txt QY (readlines content) = Ret L /\ sh_spiral s = Some along_z /\ rv qround 8 along_z = along_z /\ ld_spiral L = Some (mkV f0 f0 (qq 44 35)).
Proof.
  exists s_spiral_z, (text_of default_flags s_spiral_z), (match read_of default_flags s_spiral_z with Ret L => L | Raise _ => mkL mzero [] (start []) None None end).
  split; [apply abc_object; [exact r_rich|vm_compute; reflexivity]|]. split; [apply abc_printable; [discriminate|apply rich_printable]|].
  split; [vm_compute; reflexivity|]. split; [unfold read_of; vm_compute; reflexivity|]. split; [reflexivity|]. split; [|vm_compute; reflexivity].
  unfold rv, along_z. cbn [vx vy vz]. f_equal; apply Qc_is_canon; reflexivity.
Qed.

(** ** Bonds of an atom with itself *)
Definition w_self_and : @world Qc := run ([OSetDC false; OAddExchangeNew (AObj atA) (AObj atA) c0 (Some one); OAddExchangeNew (AObj atA) (AObj atB) c0 (Some one)] ++ finish) (start []).
Lemma r_self_and : reachable w_self_and. Proof. known. Qed.
Lemma self_bond_refuted : exists (s : @spinham Qc) content L a', reachable (sh_ham s) /\ one_object s /\ printable qround s /\ dump_txt QP default_flags s = Ret content
  /\ load_txt QY (readlines content) = Ret L /\ namesake s L atA a' /\ bond_value (sh_ham s) (mkB atA atA c0) <> None /\ bond_value (ld_ham L) (mkB a' a' c0) = None.
Proof.
  set (s := on_abc w_self_and None None).
  exists s, (text_of default_flags s), (match read_of default_flags s with Ret L => L | Raise _ => mkL mzero [] (start []) None None end), atA.
  split; [exact r_self_and|]. split; [apply abc_object; [exact r_self_and|vm_compute; reflexivity]|].
  split; [apply abc_printable; [discriminate|]; intros _; exists (mkB atA atB c0); split; [vm_compute; right; left; reflexivity|intros [H _]; discriminate]|].
  split; [vm_compute; reflexivity|]. split; [unfold read_of; vm_compute; reflexivity|]. split; [split; [left; reflexivity|split; [vm_compute; left; reflexivity|reflexivity]]|].
  split; [vm_compute; discriminate|vm_compute; reflexivity].
Qed.
Lemma only_self_refused : exists (s : @spinham Qc) content, reachable (sh_ham s) /\ one_object s /\ bonds (sh_ham s) = [mkB atA atA c0] /\ dump_txt QP default_flags s = Ret content
  /\ load_txt QY (readlines content) = Raise FailedToVerifyTxtModelFile.
Proof.
  set (s := on_abc w_self None None). exists s, (text_of default_flags s). split; [exact r_self|]. split; [apply abc_object; [exact r_self|vm_compute; reflexivity]|].
  split; [vm_compute; reflexivity|]. split; [vm_compute; reflexivity|]. vm_compute. reflexivity.
Qed.

(** ** On-site matrices *)
Definition w_twist : @world Qc := run [OAddOnSiteNew (AObj atB) (Some gen); OSetSN false; OSetOF (q 1)] (start []).
Lemma r_twist : reachable w_twist. Proof. known. Qed.
Lemma antisymmetric_refuted : exists (s : @spinham Qc) content L a' m, reachable (sh_ham s) /\ one_object s /\ printable qround s /\ dump_txt QP default_flags s = Ret content
  /\ load_txt QY (readlines content) = Ret L /\ namesake s L atB a' /\ onsite_value (sh_ham s) atB = Some m /\ rm qround 4 m = m /\ onsite_value (ld_ham L) a' <> Some m.
Proof.
  set (s := on_abc w_twist None None).
  exists s, (text_of default_flags s), (match read_of default_flags s with Ret L => L | Raise _ => mkL mzero [] (start []) None None end), atB, gen.
  split; [exact r_twist|]. split; [apply abc_object; [exact r_twist|vm_compute; reflexivity]|].
  split; [apply abc_printable; [discriminate|]; intros N; exfalso; apply N; vm_compute; reflexivity|].
  split; [vm_compute; reflexivity|]. split; [unfold read_of; vm_compute; reflexivity|]. split; [split; [right; left; reflexivity|split; [vm_compute; right; left; reflexivity|reflexivity]]|].
  split; [vm_compute; reflexivity|]. split; [unfold rm, gen, qm; cbn; f_equal; apply Qc_is_canon; reflexivity|].
  intros H. apply (f_equal (fun o => match o with Some m => this (mzx m) | None => 0%Q end)) in H. vm_compute in H. discriminate H.
Qed.

(** ** No spin, nothing written *)
Definition s_spinless : @spinham Qc := mkSH box [at_ atA None; at_ atB (along (q 2)); at_ atC (along (q 1))] (fresh [] [atA; atB; atC] [(atB, q 2); (atC, q 1)]) None None.
Lemma r_spinless : reachable (sh_ham s_spinless).
Proof. exists [], [atA; atB; atC], [(atB, q 2); (atC, q 1)], []. reflexivity. Qed.
Lemma spinless_refuted : exists (s : @spinham Qc) content, reachable (sh_ham s) /\ one_object s /\ dump_txt QP default_flags s = Ret content
  /\ accepts QY (readlines content) /\ load_txt QY (readlines content) = Raise ValueError.
Proof.
  exists s_spinless, (text_of default_flags s_spinless). split; [exact r_spinless|]. split; [split; [reflexivity|exact (reachable_Inv _ r_spinless)]|].
  split; [vm_compute; reflexivity|]. split; [eexists; vm_compute; reflexivity|]. vm_compute. reflexivity.
Qed.
Definition no_flags : flags := mkFlags false false false false false false.
Lemma nothing_written_refused : exists (s : @spinham Qc) content, reachable (sh_ham s) /\ one_object s /\ printable qround s /\ dump_txt QP no_flags s = Ret content
  /\ load_txt QY (readlines content) = Raise FailedToVerifyTxtModelFile.
Proof.
  exists s_rich, (text_of no_flags s_rich). split; [exact r_rich|]. split; [exact rich_object|]. split; [exact rich_printable|]. split; [vm_compute; reflexivity|]. vm_compute. reflexivity.
Qed.
(** ** Two atoms of one name *)
Lemma twins_text_refused : exists (s : @spinham Qc) content, reachable (sh_ham s) /\ one_object s /\ dump_txt QP default_flags s = Ret content
  /\ load_txt QY (readlines content) = Raise FailedToVerifyTxtModelFile.
Proof.
  exists s_twins, (text_of default_flags s_twins). assert (R : reachable w_twins) by known. split; [exact R|]. split; [split; [reflexivity|exact (reachable_Inv _ R)]|].
  split; [vm_compute; reflexivity|]. vm_compute. reflexivity.
Qed.

Lemma dump_example : sane QY /\ prints QY QP qround /\ units_defined QY /\ one_object s_rich /\ printable qround s_rich
  /\ (exists c, dump_txt QP default_flags s_rich = Ret c) /\ something_written default_flags
  /\ (exists c, dump_txt QP all_flags s_rich = Ret c) /\ something_written all_flags
  /\ one_object s_plain /\ printable qround s_plain /\ matrices_only default_flags /\ no_self_bonds s_plain /\ symmetric_sites s_plain
  /\ exists c, dump_txt QP default_flags s_plain = Ret c.
Proof.
  split; [exact QY_sane|]. split; [exact QY_prints|]. split; [exact QY_units|]. split; [exact rich_object|]. split; [exact rich_printable|].
  split; [eexists; apply rich_text; left; reflexivity|]. split; [left; reflexivity|]. split; [eexists; apply rich_text; right; reflexivity|]. split; [left; reflexivity|].
  split; [exact plain_object|]. split; [exact plain_printable|]. split; [repeat split|]. split; [apply plain_lossless|]. split; [apply plain_lossless|].
  eexists. vm_compute. reflexivity.
Qed.
