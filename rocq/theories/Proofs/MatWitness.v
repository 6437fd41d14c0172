(** Concrete files for C86. *)
From Coq Require Import List Bool ZArith QArith Qcanon String Permutation Lia.
From Verif.Base Require Import Scalar QcLit Linear3 PyDict.
From Verif.Model Require Import MatrixParam Hamiltonian History Vampire.
From Verif.Spec Require Import HamSpec HistorySpec NotationSpec VampireSpec MatSpec.
From Verif.Proofs Require Import HamBasics HistoryProofs HamWitness VampireProofs VampireWitness.
Import ListNotations.
Local Open Scope string_scope.

(** Materials 0 and 2 without 1: the two files announce different numbers of materials and material 2 has no description. *)
Lemma gap_refuted : exists (w w' w'' : @world Qc) dc sn ef of_ l u N rows,
  reachable w /\ convertible w dc sn ef of_ /\
  dump_ucf milli (fun l => l) always None true true None (Some l) w = (w', Ret u) /\
  dump_mat (fun l => l) always None (Some l) w = (w'', Ret (N, rows)) /\
  Z.of_nat (u_nmat u) <> N /\ exists k, (1 <= k <= N)%Z /\ ~ In k (map (@t_number Qc) rows).
Proof.
  pose (x := dump_ucf milli (fun l => l) always None true true None (Some [0%Z; 2%Z]) w_rich).
  pose (u := match snd x with Ret u => u | _ => mkUcf 0 [] 0 [] end).
  exists w_rich, (fst x), w_rich, true, false, (qq 1 2), (q 1), [0%Z; 2%Z], u, 3%Z, [mkMat 1 "A" (qq 3 2); mkMat 3 "B" (q 2)].
  split; [exact r_rich|]. split; [exact rich_convertible|]. split; [apply outcome_pair; vm_compute; reflexivity|].
  split; [vm_compute; reflexivity|]. split; [vm_compute; discriminate|]. exists 2%Z. split; [split; discriminate|].
  cbn. intros [E|[E|[]]]; discriminate E.
Qed.

(** Two atoms with different spins in one material: only the spin of the first is written. *)
Lemma shared_material : magnetic_atoms (fun l => l) w_three = (w_three, Ret [atA; atB; atC]) /\
  dump_mat (fun l => l) always None (Some [1; 0; 1]%Z) w_three = (w_three, Ret (2%Z, [mkMat 2 "A" (qq 3 2); mkMat 1 "B" (q 2)])) /\
  spin_of w_three atA <> spin_of w_three atC.
Proof.
  split; [vm_compute; reflexivity|]. split; [vm_compute; reflexivity|]. intros E.
  apply (f_equal (fun o => this (valof o))) in E. vm_compute in E. discriminate E.
Qed.

Lemma mat_failures : dump_mat (fun l => l) always None (Some []) w_three = (w_three, Raise ValueError) /\
  dump_mat (fun l => l) always None (Some [0; 1]%Z) w_three = (w_three, Raise IndexError) /\
  dump_mat (fun l => l) always None None w_nospin = (w_nospin, Raise ValueError) /\
  dump_mat (fun l => l) (fun _ => false) (Some "x.mat") None w_three = (w_three, Raise OSError).
Proof. repeat split; vm_compute; reflexivity. Qed.

Lemma gapless_case : gapless [1; 0; 1]%Z /\ ~ gapless [0; 2]%Z.
Proof.
  split.
  - split; [intros x [<-|[<-|[<-|[]]]]; discriminate|].
    intros x y I [A B]. assert (y <= 1)%Z by (destruct I as [<-|[<-|[<-|[]]]]; discriminate).
    assert (x = 0 \/ x = 1)%Z as [->| ->] by lia;
    cbn; auto.
  - intros [_ H]. assert (I : In 1%Z [0; 2]%Z) by (apply (H 1%Z 2%Z); [right; left; reflexivity|split; discriminate]).
    destruct I as [E|[E|[]]]; discriminate E.
Qed.
