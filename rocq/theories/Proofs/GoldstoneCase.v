(** The isotropic ferromagnet of C57 has magnetic atoms. *)
From Coq Require Import List Bool ZArith Reals Lra Lia.
From Verif.Base Require Import Scalar ScalarR Linear3 PyDict.
From Verif.Model Require Import MatrixParam Hamiltonian History EnergyInit Energy Dispersion.
From Verif.Spec Require Import HamSpec NotationSpec HistorySpec EnergySpec DispersionSpec.
From Verif.Proofs Require Import HamBasics HistoryProofs HamDouble HamWitness EnergyWitness OptimizerWitness DispersionInit DispersionGlue DispersionWitness.
Import ListNotations.
Local Open Scope R_scope.

Lemma goldstone_case : wf w_iso /\ unshared w_iso /\ reciprocal w_iso /\
  (forall k J, bond_value w_iso k = Some J -> exists x : R, J = mscale x mid) /\ (forall a, onsite_value w_iso a = None) /\
  (forall a s, up a = Some s -> exists c : R, 0 < c /\ s = vscale c ez) /\
  exists w1 D, dispersion_init keep one3 origin up w_iso = (w1, Ret D) /\ (0 < d_N D)%nat.
Proof.
  destruct iso_case as (_ & (A & B & C0 & E) & Hb & w1 & D & H). destruct zero_mode_case as (P & Q & S0).
  refine (conj A (conj B (conj C0 (conj P (conj Q (conj S0 _)))))). exists w1, D. split; [exact H|].
  destruct (dispersion_made keep one3 origin up w_iso w1 D ltac:(unfold Sym; auto) H) as (w4 & atoms & M0).
  rewrite (md_N _ _ _ _ _ _ _ _ _ M0). destruct (bonds w4) as [|k l] eqn:Eb.
  - exfalso. destruct (md_spinw _ _ _ _ _ _ _ _ _ M0) as [(W4 & _) _ _ [fe Fe] _].
    set (k := mkB atA atB c0). assert (V : forall q, In q (bonds w_iso) -> bond_value w_iso q <> None).
    { intros q I. apply (bond_value_stored w_iso q A) in I as [J EJ]. rewrite EJ. discriminate. }
    assert (X : bond_value w4 k <> None).
    { rewrite Fe. unfold mirrored_value. assert (V1 := V k). assert (V2 := V (mirror k)). rewrite iso_bonds in V1, V2.
      specialize (V1 ltac:(left; reflexivity)). specialize (V2 ltac:(right; left; reflexivity)).
      destruct (dmem _ _); [destruct (bond_value w_iso (mirror k))|destruct (bond_value w_iso k)]; cbn; congruence. }
    destruct (bond_value w4 k) as [J'|] eqn:E'; [|congruence]. assert (I : In k (bonds w4)) by (apply (bond_value_stored w4 k W4); eauto).
    rewrite Eb in I. destruct I.
  - assert (I : In (b_from k) atoms). { apply (md_covers _ _ _ _ _ _ _ _ _ M0). right. exists k. rewrite Eb. split; [left; reflexivity|left; reflexivity]. }
    destruct atoms; [destruct I|cbn; lia].
Qed.
