(** Concrete Hamiltonians for C49 and C61. *)
From Coq Require Import List Bool ZArith QArith Qcanon String Permutation.
From Verif.Base Require Import Scalar QcLit Linear3 PyDict.
From Verif.Model Require Import MatrixParam Hamiltonian History Vampire.
From Verif.Spec Require Import ParameterSpec HamSpec HistorySpec NotationSpec VampireSpec.
From Verif.Proofs Require Import HamBasics HistoryProofs HamWitness VampireProofs.
Import ListNotations.
Local Open Scope Qc_scope.

Definition always (_ : string) : bool := true.
Definition milli : Qc := qq 1 1000.
Lemma id_order : forall l : list atom, Permutation ((fun x => x) l) l.
Proof. intros; apply Permutation_refl. Qed.

Lemma rich_convertible : convertible w_rich true false (qq 1 2) (q 1).
Proof.
  unfold convertible. splits; [exact rich_wf|exact rich_unshared|exact rich_spins|exact rich_storage|exact rich_notation|qne|qne].
Qed.

(** A list of materials that is too short: the Hamiltonian is left in the notation of Vampire. *)
Lemma short_refuted : exists (w w' : @world Qc) dc sn ef of_ k,
  reachable w /\ convertible w dc sn ef of_ /\
  dump_ucf milli (fun l => l) always None true true None (Some [0%Z]) w = (w', Raise IndexError) /\
  ~ notation_is w' dc sn ef of_ /\ bond_value w' k <> bond_value w k.
Proof.
  pose (x := dump_ucf milli (fun l => l) always None true true None (Some [0%Z]) w_rich).
  exists w_rich, (fst x), true, false, (qq 1 2), (q 1), (mkB atA atB c0).
  split; [exact r_rich|]. split; [exact rich_convertible|]. split; [apply outcome_pair; vm_compute; reflexivity|]. split.
  - intros (_ & H & _). vm_compute in H. discriminate H.
  - intros H. apply (f_equal (fun o => this (mxx (matof o)))) in H. vm_compute in H. discriminate H.
Qed.

(** A mask that writes to its argument changes the parameters even when the call succeeds. *)
Definition zeroing : @mask Qc := fun m => (mzero, Ret m).
Lemma mask_refuted : exists (w w' : @world Qc) dc sn ef of_ u k,
  reachable w /\ convertible w dc sn ef of_ /\
  dump_ucf milli (fun l => l) always None true true (Some zeroing) None w = (w', Ret u) /\ bond_value w' k <> bond_value w k.
Proof.
  pose (x := dump_ucf milli (fun l => l) always None true true (Some zeroing) None w_rich).
  pose (u := match snd x with Ret u => u | _ => mkUcf 0 [] 0 [] end).
  exists w_rich, (fst x), true, false, (qq 1 2), (q 1), u, (mkB atA atB c0).
  split; [exact r_rich|]. split; [exact rich_convertible|]. split; [apply outcome_pair; vm_compute; reflexivity|].
  intros H. apply (f_equal (fun o => this (mxx (matof o)))) in H. vm_compute in H. discriminate H.
Qed.

(** On-site terms reach the file with a quarter of their energy. *)
Lemma onsite_refuted : exists (w w' : @world Qc) dc sn ef of_ u L s E E',
  reachable w /\ convertible w dc sn ef of_ /\ periodic L s /\
  dump_ucf (q 1) (fun l => l) always None true true None None w = (w', Ret u) /\
  energy w L s = Some E /\ vampire_energy u L s = Some E' /\ E' <> E.
Proof.
  pose (x := dump_ucf (q 1) (fun l => l) always None true true None None w_rich).
  pose (u := match snd x with Ret u => u | _ => mkUcf 0 [] 0 [] end).
  exists w_rich, (fst x), true, false, (qq 1 2), (q 1), u, cell1, up, (valof (energy w_rich cell1 up)), (valof (vampire_energy u cell1 up)).
  split; [exact r_rich|]. split; [exact rich_convertible|]. split; [apply up_periodic|]. split; [apply outcome_pair; vm_compute; reflexivity|].
  splits; [vm_compute; reflexivity|vm_compute; reflexivity|].
  intros H. apply (f_equal this) in H. vm_compute in H. discriminate H.
Qed.
