(** The name of the HDF5 file made from a TB2J file. *)
From Coq Require Import String Ascii List Bool ZArith Arith Lia QArith Qcanon.
From Verif.Base Require Import Scalar Linear3 QcLit PyDict PyString PyText.
From Verif.Spec Require Import HamSpec TxtSpec TxtFormat Hdf5Spec TxtDumpSpec Tb2jSpec ConvertSpec.
From Verif.Model Require Import MatrixParam Hamiltonian TxtVerify TxtRead Hdf5 TxtDump Tb2j Convert.
From Verif.Proofs Require Import TextWitness DispatchProofs DumpPrinter DumpWitness Tb2jCases ConvertProofs.
Import ListNotations.
Local Open Scope string_scope.

Lemma str_length_app a b : String.length (a ++ b) = (String.length a + String.length b)%nat.
Proof. induction a as [|c a IH]; cbn; [reflexivity|now rewrite IH]. Qed.
Lemma take_app a b : substring 0 (String.length a) (a ++ b) = a.
Proof. induction a as [|c a IH]; cbn; [destruct b; reflexivity|now rewrite IH]. Qed.
Lemma cut_end_app a b : cut_end (String.length b) (a ++ b) = a.
Proof. unfold cut_end. rewrite str_length_app. replace (_ + _ - _)%nat with (String.length a) by lia. apply take_app. Qed.
Lemma str_app_assoc (a b c : string) : (a ++ b) ++ c = a ++ b ++ c.
Proof. induction a as [|x a IH]; cbn; [reflexivity|now rewrite IH]. Qed.
Lemma no_end p s : ends_with p s = false -> ~ ends_in p s.
Proof. intros E H. apply ends_in_spec in H. congruence. Qed.

Lemma hdf5_name_target name : hdf5_target name (hdf5_name name).
Proof.
  unfold hdf5_name. destruct (ends_with ".txt" name) eqn:E1.
  - apply ends_in_spec in E1 as [t ->]. change (cut_end 4 (t ++ ".txt")) with (cut_end (String.length ".txt") (t ++ ".txt")). rewrite cut_end_app.
    cbv zeta. destruct (ends_with ".hdf5" t) eqn:E2.
    + apply ends_in_spec in E2 as [s ->]. change (cut_end 5 (s ++ ".hdf5")) with (cut_end (String.length ".hdf5") (s ++ ".hdf5")). rewrite cut_end_app.
      exists s. split; [reflexivity|]. right. left. apply str_app_assoc.
    + exists t. split; [reflexivity|]. right. right. left. split; [reflexivity|apply no_end, E2].
  - cbv zeta. destruct (ends_with ".hdf5" name) eqn:E2.
    + apply ends_in_spec in E2 as [s ->]. change (cut_end 5 (s ++ ".hdf5")) with (cut_end (String.length ".hdf5") (s ++ ".hdf5")). rewrite cut_end_app.
      exists s. split; [reflexivity|]. left. reflexivity.
    + exists name. split; [reflexivity|]. right. right. right. split; [reflexivity|]. split; apply no_end; assumption.
Qed.

Lemma hdf5_written : forall F (SF : Scalar F) (X : externals F) P pos g dflt old lines name format name' file,
  convert X P pos g dflt old lines name format = Ret (WHdf5 name' file) ->
  asks_hdf5 format name /\ hdf5_target name name' /\ exists r, load_tb2j X lines = Ret r /\ tl_atoms r = [] /\ file = fst (dump (spinham_of pos g dflt r) ["spinham"] false (old name')).
Proof.
  intros F SF X P pos g dflt old lines name format name' file H. assert (H' := H). unfold convert in H. destruct (load_tb2j X lines) as [r|] eqn:El; [|discriminate]. cbn [obind] in H.
  destruct (choose_writer format name) as [[|]|] eqn:Ec; cbn [obind] in H; [destruct (dump_txt _ _ _); discriminate| |discriminate].
  apply writer_hdf5 in Ec. destruct (dump _ _ _ _) as [f [u|]] eqn:Ed; [|discriminate]. injection H as <- <-. split; [exact Ec|]. split; [apply hdf5_name_target|].
  exists r. split; [reflexivity|]. rewrite Ed. split; [|reflexivity]. destruct (tl_atoms r) as [|a l] eqn:Ea; [reflexivity|]. exfalso.
  destruct (hdf5_fails X P pos g dflt old lines name format r El) as [e He]; [congruence|exact Ec|]. congruence.
Qed.

Lemma hdf5_written_case : exists file, convert QY QP at0 (Some f2) tb_cell no_file [] "model.txt" (Some "HDF5") = Ret (WHdf5 "model.hdf5" file).
Proof. eexists. vm_compute. reflexivity. Qed.
