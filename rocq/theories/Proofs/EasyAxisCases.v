(** Lemmas and a case for C88. *)
From Coq Require Import List Bool ZArith Reals Lra Permutation.
From Coquelicot Require Import Coquelicot.
From Coq Require Import List.
From Verif.Base Require Import Scalar ScalarR Linear3 PyDict.
From Verif.Model Require Import MatrixParam Hamiltonian EnergyInit Energy.
From Verif.Spec Require Import HamSpec NotationSpec EnergySpec DispersionSpec TextbookSpec SublatticeSpec EasyAxisSpec.
From Verif.Proofs Require Import DictProofs HamBasics HamDouble FilterProofs HamWitness EnergyInitProofs EnergyProofs InvarianceProofs RotationEnergy RotationCases EnergyWitness ConeProofs DispersionWitness ParallelCases EasyAxisProofs.
Import ListNotations.
Local Open Scope R_scope.

Section Ground.
Variables (order : list atom -> list atom) (g : atom -> R) (cell : M3 R) (w w1 : @world R) (E : @energy_obj R) (dc sn : bool) (ef of_ : R) (n : V3 R).
Hypotheses (Po : forall l, Permutation (order l) l) (W : wf w) (Hd : if dc then mirror_closed w else unshared w)
  (No : notation_is w dc sn ef of_) (Nz : of_ <> 0) (Sp : forall a, carries w a -> spin_of w a <> None)
  (Pos : forall a s, spin_of w a = Some s -> 0 <= s) (Hn : dot n n = 1) (Ea : easy_axis n ef of_ w) (Hi : energy_init order g cell w = (w1, Ret E)).
Let F := init_floor order g cell w w1 E dc sn ef of_ n Po W Hd No Nz Sp Pos Hn Ea Hi.
Let aligned := SRows (repeat n (List.length (e_spins E))).

Lemma ground_ferro mu a e : e_ferro mu (w_store w1) (set_field E None) a = Ret e -> exists e0, e_ferro mu (w_store w1) (set_field E None) aligned = Ret e0 /\ e0 <= e.
Proof. apply (ferro_floor _ _ _ F Hn). intros dirs _ _. unfold zeeman. cbn [set_field e_field]. lra. Qed.
Lemma ground_spiral mu a m q e : e_spiral mu (w_store w1) (set_field E None) a m q = Ret e -> exists e0, e_ferro mu (w_store w1) (set_field E None) aligned = Ret e0 /\ e0 <= e.
Proof. apply (cone_floor _ _ _ F Hn spiral_C). intros. apply spiral_bond_floor; assumption. Qed.
Lemma ground_antiferro mu a m q e : e_antiferro mu (w_store w1) (set_field E None) a m q = Ret e -> exists e0, e_ferro mu (w_store w1) (set_field E None) aligned = Ret e0 /\ e0 <= e.
Proof. apply (cone_floor _ _ _ F Hn antiferro_C). intros. apply antiferro_bond_floor; assumption. Qed.
Lemma ground_field mu h a e : (forall c, mu * h * g c <= 0) -> e_ferro mu (w_store w1) (set_field E (Some (vscale h n))) a = Ret e ->
  exists e0, e_ferro mu (w_store w1) (set_field E (Some (vscale h n))) aligned = Ret e0 /\ e0 <= e.
Proof.
  intros Hg. apply (ferro_floor _ _ _ F Hn). intros dirs L U. apply zeeman_floor; auto.
  destruct No as (N1 & N2 & N3 & N4). destruct (init_atoms order w Po Sp) as (atoms & Ea' & Sa).
  assert (Mc : dc = true -> mirror_closed w) by (intros Q; assert (Hd' := Hd); rewrite Q in Hd'; exact Hd'). assert (Uu : dc = false -> unshared w) by (intros Q; assert (Hd' := Hd); rewrite Q in Hd'; exact Hd').
  destruct (@energy_init_ok R R_Scalar order g cell w atoms ef of_ dc Po W Mc Uu N1 N3 N4 Nz Ea' Sa) as (v1 & F1 & ro & re & X1 & G1 & _).
  assert (E1 : E = F1) by congruence. rewrite E1, G1. intros x I. apply in_map_iff in I as (c & <- & _). apply Hg.
Qed.
End Ground.

Lemma built_bounds atoms cell (w w1 : @world R) E ef of_ ro re : wf w -> built atoms cell w w1 E ef of_ ro re ->
  forall i j d l, In (i, j, d, l) (e_bonds E) -> (i < List.length (e_spins E) /\ j < List.length (e_spins E) /\ l < List.length (w_store w1))%nat.
Proof.
  intros W B i j d l I. destruct B as [_ B2 _ B4 B5 B6 _ B8 B9 _ _].
  assert (L : List.length atoms = List.length (e_spins E)) by (assert (X := f_equal (@List.length _) B2); rewrite !map_length in X; exact X).
  assert (X : exists kl, In kl (ro ++ re) /\ indexed atoms cell kl (i, j, d, l)).
  { clear - B4 I. induction B4 as [|kl b t t' H _ IH]; [destruct I|]. destruct I as [->|I]; [exists kl; split; [left; reflexivity|exact H]|].
    destruct (IH I) as (kl' & A & B). exists kl'. split; [right; exact A|exact B]. }
  destruct X as ([k l'] & Ik & (Xi & Xj & _ & El)). cbn [snd fst] in *. subst l'. rewrite <- L.
  split; [apply nth_error_Some; congruence|]. split; [apply nth_error_Some; congruence|]. apply nth_error_Some. apply in_app_or in Ik as [Ik|Ik].
  - assert (Y : In (nth_error (w_store w1) l) (map (fun a => option_map (mscale (ef / of_)%fld) (onsite_value w a)) (sites w))).
    { rewrite <- B6. apply in_map_iff. exists (k, l). auto. }
    apply in_map_iff in Y as (a & Ya & Ia). rewrite <- Ya. apply (onsite_value_stored w a W) in Ia as [A ->]. discriminate.
  - rewrite (B9 _ _ Ik). assert (K : In k (bonds w) \/ In (mirror k) (bonds w)) by (apply B8, in_map_iff; exists (k, l); auto).
    unfold mirrored_value. destruct (dmem (h_exch (w_ham w)) (mirror k)) eqn:M.
    + apply dmem_key in M. apply (bond_value_stored w (mirror k) W) in M as [J ->]. discriminate.
    + destruct K as [K|K]; [apply (bond_value_stored w k W) in K as [J ->]; discriminate|]. apply dmem_key in K. congruence.
Qed.

Lemma easy_case : (forall l, Permutation (keep l) l) /\ wf w_side /\ mirror_closed w_side /\ notation_is w_side true false 1 1 /\
  (forall a, carries w_side a -> spin_of w_side a <> None) /\ (forall a s, spin_of w_side a = Some s -> 0 <= s) /\ easy_axis (mkV 0 0 1) 1 1 w_side /\
  bonds w_side <> [] /\ sites w_side <> [] /\ exists w1 E, energy_init keep (fun _ => 2) one3 w_side = (w1, Ret E) /\
  forall q, exists e, e_spiral 1 (w_store w1) (set_field E None) (SRows [mkV 1 0 0; mkV 2 0 0]) (Some ez) (Some q) = Ret e.
Proof.
  destruct side_case as ((W & U & Sd & (R1 & R2 & R3 & R4) & N) & _ & CA & CB & Cov & _ & _ & SA & SB & _ & Dz & _ & Vb & Vo & _). destruct side_easy as (_ & _ & Le & _).
  assert (Sp : forall a, carries w_side a -> spin_of w_side a <> None) by (intros a C; destruct (Cov a C) as [-> | ->]; congruence).
  split; [apply keep_perm|]. split; [exact W|]. split; [exact R3|]. split; [exact N|]. split; [exact Sp|]. split; [|split; [|split; [|split]]].
  - intros a s H. assert (X : In (a, s) [(atA, 2); (atB, 1)]) by (apply dget_In in H; exact H). destruct X as [X|[X|[]]]; injection X as <- <-; lra.
  - assert (P : forall x z u v, dot u (mvec (madd (mscale x mid) (mscale z (projector (mkV 0 0 1)))) v) = x * dot u v + z * (dot (mkV 0 0 1) u * dot (mkV 0 0 1) v)).
    { intros. unfold projector. destruct u, v. rlin. ring. }
    rewrite Dz in *. split.
    + intros k J H. assert (I : In k (bonds w_side)) by (apply (bond_value_stored w_side k W); eauto). destruct (Le k I) as [X Z].
      exists (x_side k), (z_side k). rewrite !Rmult_1_l. split; [exact X|]. split; [exact Z|]. rewrite (Vb k J H). apply P.
    + intros a A H. exists 0, (-1). split; [lra|]. rewrite (Vo a A H). intros u v. unfold projector. destruct u, v. rlin. ring.
  - rewrite side_bonds. discriminate.
  - rewrite side_sites. discriminate.
  - destruct (init_atoms keep w_side keep_perm Sp) as (atoms & Ea & Sa).
    destruct (@energy_init_ok R R_Scalar keep (fun _ => 2) one3 w_side atoms 1 1 true keep_perm W (fun _ => R3) ltac:(discriminate) eq_refl eq_refl eq_refl R1_neq_R0 Ea Sa) as (w1 & E & ro & re & X & _ & B & _).
    exists w1, E. split; [exact X|]. intros q. apply (cone_total spiral_C 1 (w_store w1) (set_field E None) _ [ex; ex] ez ez q).
    + assert (Y := f_equal (@List.length _) (bu_spins _ _ _ _ _ _ _ _ _ B)). rewrite !map_length in Y. change (e_spins (set_field E None)) with (e_spins E). rewrite <- Y.
      assert (Z : magnetic_atoms keep w_side = (w_side, Ret [atA; atB])) by reflexivity. rewrite Z in Ea. injection Ea as <-. reflexivity.
    + discriminate.
    + constructor; [exact dir_ex|]. constructor; [exact dir_2ex|constructor].
    + exact dir_ez.
    + exact (built_bounds _ _ _ _ _ _ _ _ _ W B).
Qed.
