(** Case for C90: a ferrimagnet. *)
From Coq Require Import List Bool ZArith Reals Lra Permutation.
From Coquelicot Require Import Coquelicot.
From Coq Require Import List.
From Verif.Base Require Import Scalar ScalarR Linear3 PyDict.
From Verif.Model Require Import MatrixParam Hamiltonian EnergyInit Energy.
From Verif.Spec Require Import HamSpec NotationSpec EnergySpec DispersionSpec TextbookSpec SublatticeSpec CollinearSpec.
From Verif.Proofs Require Import DictProofs HamBasics HamDouble FilterProofs HamWitness EnergyInitProofs EnergyProofs InvarianceProofs RotationEnergy RotationCases EnergyWitness ConeProofs DispersionWitness SublatticeCases EasyAxisCases.
Import ListNotations.
Local Open Scope R_scope.

Definition only_A (a : atom) : bool := if eq_dec a atA then true else false.
Lemma ferri_ground : (forall l, Permutation (keep l) l) /\ wf w_ferri /\ mirror_closed w_ferri /\ notation_is w_ferri true false 1 1 /\
  (forall a, carries w_ferri a -> spin_of w_ferri a <> None) /\ (forall a s, spin_of w_ferri a = Some s -> 0 <= s) /\ unfrustrated only_A (mkV 0 0 1) 1 1 w_ferri /\
  magnetic_atoms keep w_ferri = (w_ferri, Ret [atA; atB]) /\ map (along_or_against only_A (mkV 0 0 1)) [atA; atB] = [mkV 0 0 1; vopp (mkV 0 0 1)] /\
  bonds w_ferri <> [] /\ sites w_ferri <> [] /\ exists w1 E, energy_init keep (fun _ => 2) one3 w_ferri = (w1, Ret E) /\
  forall q, exists e, e_spiral 1 (w_store w1) (set_field E None) (SRows [mkV 1 0 0; mkV 2 0 0]) (Some ez) (Some q) = Ret e.
Proof.
  destruct ferri_case as ((W & U & Sd & (R1 & R2 & R3 & R4) & N) & _ & CA & CB & Cov & _ & _ & SA & SB & _ & Dz & _ & Vb & Vo & _).
  assert (Sp : forall a, carries w_ferri a -> spin_of w_ferri a <> None) by (intros a C; destruct (Cov a C) as [-> | ->]; congruence).
  split; [apply keep_perm|]. split; [exact W|]. split; [exact R3|]. split; [exact N|]. split; [exact Sp|]. split; [|split; [|split; [reflexivity|split; [reflexivity|split; [|split]]]]].
  - intros a s H. assert (X : In (a, s) [(atA, 2); (atB, 1)]) by (apply dget_In in H; exact H). destruct X as [X|[X|[]]]; injection X as <- <-; lra.
  - assert (P : forall x z u v, dot u (mvec (madd (mscale x mid) (mscale z (projector (mkV 0 0 1)))) v) = x * dot u v + z * (dot (mkV 0 0 1) u * dot (mkV 0 0 1) v)).
    { intros. unfold projector. destruct u, v. rlin. ring. }
    rewrite Dz in *. split.
    + intros k J H. assert (I : In k (bonds w_ferri)) by (apply (bond_value_stored w_ferri k W); eauto).
      exists (x_ferri k), (z_ferri k). split; [rewrite (Vb k J H); apply P|]. rewrite ferri_bonds in I.
      destruct I as [<-|[<-|[<-|[<-|[]]]]]; [change (1 * -1 <= 0 /\ 1 * 0 <= 0)|change (1 * -1 <= 0 /\ 1 * 0 <= 0)|change (0 <= 1 * 1 /\ 0 <= 1 * 1)|change (0 <= 1 * 1 /\ 0 <= 1 * 1)]; split; lra.
    + intros a A H. exists 0, (-1). split; [lra|]. rewrite (Vo a A H). intros u v. unfold projector. destruct u, v. rlin. ring.
  - rewrite ferri_bonds. discriminate.
  - rewrite ferri_sites. discriminate.
  - destruct (init_atoms keep w_ferri keep_perm Sp) as (atoms & Ea & Sa).
    destruct (@energy_init_ok R R_Scalar keep (fun _ => 2) one3 w_ferri atoms 1 1 true keep_perm W (fun _ => R3) ltac:(discriminate) eq_refl eq_refl eq_refl R1_neq_R0 Ea Sa) as (w1 & E & ro & re & X & _ & B & _).
    exists w1, E. split; [exact X|]. intros q. apply (cone_total spiral_C 1 (w_store w1) (set_field E None) _ [ex; ex] ez ez q).
    + assert (Y := f_equal (@List.length _) (bu_spins _ _ _ _ _ _ _ _ _ B)). rewrite !map_length in Y. change (e_spins (set_field E None)) with (e_spins E). rewrite <- Y.
      assert (Z : magnetic_atoms keep w_ferri = (w_ferri, Ret [atA; atB])) by reflexivity. rewrite Z in Ea. injection Ea as <-. reflexivity.
    + discriminate.
    + constructor; [exact dir_ex|]. constructor; [exact dir_2ex|constructor].
    + exact dir_ez.
    + exact (built_bounds _ _ _ _ _ _ _ _ _ W B).
Qed.
