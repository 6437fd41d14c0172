(** Property C86: the .mat file of the export to Vampire. *)
From Coq Require Import List Bool ZArith QArith Qcanon String Permutation.
From Verif.Base Require Import Scalar QcLit Linear3 PyDict.
From Verif.Model Require Import MatrixParam Hamiltonian History Vampire.
From Verif.Spec Require Import HamSpec HistorySpec NotationSpec VampireSpec MatSpec.
From Verif.Proofs Require Import HamWitness VampireWitness MatProofs MatWitness.
Import ListNotations.
Local Open Scope string_scope.

(** The announced number of materials, and one description for the first atom of each material, in order. *)
Theorem C86_content : forall (F : Type) order can_write (w w' : @world F) filename materials atoms N rows,
  magnetic_atoms order w = (w, Ret atoms) ->
  dump_mat order can_write filename materials w = (w', Ret (N, rows)) ->
  w' = w /\ enough materials (List.length atoms) /\ declared materials (List.length atoms) N /\
  exists idx, first_atoms (mats_of materials (List.length atoms)) (List.length atoms) idx /\
    Forall2 (describes w (mats_of materials (List.length atoms)) atoms) idx rows.
Proof. exact @mat_content. Qed.
Print Assumptions C86_content.

(** No material is described twice, no number exceeds the announced one, the material of every atom is described. *)
Theorem C86_every : forall (F : Type) order can_write (w w' : @world F) filename materials atoms N rows,
  magnetic_atoms order w = (w, Ret atoms) ->
  dump_mat order can_write filename materials w = (w', Ret (N, rows)) ->
  NoDup (map (@t_number F) rows) /\
  (forall r, In r rows -> (t_number r <= N)%Z) /\
  forall i m, (i < List.length atoms)%nat -> nth_error (mats_of materials (List.length atoms)) i = Some m ->
    exists r, In r rows /\ t_number r = (m + 1)%Z.
Proof. exact @mat_every. Qed.
Print Assumptions C86_every.

(** The causes of a failure; without them the call succeeds. *)
Theorem C86_failure : forall (F : Type) order can_write (w w' : @world F) filename materials atoms x,
  magnetic_atoms order w = (w, Ret atoms) ->
  dump_mat order can_write filename materials w = (w', Raise x) ->
  (x = ValueError /\ materials = Some []) \/
  (x = IndexError /\ ~ enough materials (List.length atoms)) \/
  (x = ValueError /\ exists i a, nth_error atoms i = Some a /\ spin_of w a = None /\
     forall j, (j < i)%nat -> nth_error (mats_of materials (List.length atoms)) j <> nth_error (mats_of materials (List.length atoms)) i) \/
  (x = OSError /\ exists f, filename = Some f /\ can_write f = false).
Proof. exact @mat_failure. Qed.
Print Assumptions C86_failure.

Example C86_shared : magnetic_atoms (fun l => l) w_three = (w_three, Ret [atA; atB; atC]) /\
  dump_mat (fun l => l) always None (Some [1; 0; 1]%Z) w_three = (w_three, Ret (2%Z, [mkMat 2 "A" (qq 3 2); mkMat 1 "B" (q 2)])) /\
  spin_of w_three atA <> spin_of w_three atC.
Proof. exact shared_material. Qed.
Example C86_failures : dump_mat (fun l => l) always None (Some []) w_three = (w_three, Raise ValueError) /\
  dump_mat (fun l => l) always None (Some [0; 1]%Z) w_three = (w_three, Raise IndexError) /\
  dump_mat (fun l => l) always None None w_nospin = (w_nospin, Raise ValueError) /\
  dump_mat (fun l => l) (fun _ => false) (Some "x.mat") None w_three = (w_three, Raise OSError).
Proof. exact mat_failures. Qed.

(** Every atom of the .UCF file has its material in the .mat file; the two files announce the same number of materials
    when the materials are numbered without gaps. Full claim: also with gaps. *)
Theorem C86_files_partial : forall (F : Type) (SF : Scalar F) e order, (forall l, Permutation (order l) l) -> forall can_write
  (w w' w'' : @world F) dc sn ef of_ f f' anisotropic dmi custom materials u N rows,
  convertible w dc sn ef of_ -> harmless custom ->
  dump_ucf e order can_write f anisotropic dmi custom materials w = (w', Ret u) ->
  dump_mat order can_write f' materials w = (w'', Ret (N, rows)) ->
  (forall i a m, In (i, a, m) (u_atoms u) -> exists r, In r rows /\ t_number r = (m + 1)%Z) /\
  ((forall l, materials = Some l -> gapless l) -> Z.of_nat (u_nmat u) = N).
Proof. exact @files_agree. Qed.
Print Assumptions C86_files_partial.

Theorem C86_gap_refuted : exists (w w' w'' : @world Qc) dc sn ef of_ l u N rows,
  reachable w /\ convertible w dc sn ef of_ /\
  dump_ucf milli (fun l => l) always None true true None (Some l) w = (w', Ret u) /\
  dump_mat (fun l => l) always None (Some l) w = (w'', Ret (N, rows)) /\
  Z.of_nat (u_nmat u) <> N /\ exists k, (1 <= k <= N)%Z /\ ~ In k (map (@t_number Qc) rows).
Proof. exact gap_refuted. Qed.
Print Assumptions C86_gap_refuted.

Example C86_gapless : gapless [1; 0; 1]%Z /\ ~ gapless [0; 2]%Z.
Proof. exact gapless_case. Qed.
