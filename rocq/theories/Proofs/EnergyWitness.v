(** Concrete Hamiltonians and Energy objects: counterexamples and non-vacuity cases for C21-C26. *)
From Coq Require Import List Bool ZArith String Lia Permutation QArith Qcanon Reals Lra.
From Coquelicot Require Import Coquelicot.
From Verif.Base Require Import Scalar ScalarR Linear3 PyDict QcLit.
From Verif.Model Require Import MatrixParam Hamiltonian History EnergyInit Energy.
From Verif.Spec Require Import HamSpec HistorySpec NotationSpec EnergySpec.
From Verif.Proofs Require Import DictProofs HamBasics HamSetters HamDouble HamDcEnergy NotationProofs HistoryProofs CallProofs FilterProofs HamGlue HamWitness EnergyInitProofs EnergyProofs ConeProofs.
Import ListNotations.

(** ** C21, over the rationals *)
Definition keep : list atom -> list atom := fun l => l.
Lemma keep_perm l : Permutation (keep l) l. Proof. apply Permutation_refl. Qed.
Definition unit_cell : M3 Qc := one.
Definition g2 : atom -> Qc := fun _ => q 2.

(** on_site_factor is zero: the constructor divides by it after switching double counting on. *)
Definition w_zero : world := run [OSetDC false; OAddExchangeNew (AObj atA) (AObj atB) c0 (Some gen); OSetSN true; OSetEF (q 1); OSetOF (q 0)] (start []).
Definition w_once : world := run [OSetDC false; OAddExchangeNew (AObj atA) (AObj atB) c0 (Some gen); OAddExchangeNew (AName "A") (AObj atA) c1 (Some gen);
       OAddOnSiteNew (AName "B") (Some (qm 1 0 0 0 2 0 0 0 3)); OSetSN true; OSetEF (q 1); OSetOF (q (-1))] (start []).
Lemma r_zero : reachable w_zero. Proof. known. Qed.
Lemma r_once : reachable w_once. Proof. known. Qed.

Lemma init_raises_refuted : exists (w w' : @world Qc) order g cell e, reachable w /\ (forall l, Permutation (order l) l) /\
  (exists ef of_, notation_is w false true ef of_) /\ energy_init order g cell w = (w', Raise e) /\ h_dc (w_ham w') <> h_dc (w_ham w).
Proof.
  exists w_zero, (fst (energy_init keep g2 unit_cell w_zero)), keep, g2, unit_cell, ZeroDivisionError.
  split; [exact r_zero|]. split; [exact keep_perm|]. split; [exists (q 1), (q 0); unfold notation_is; splits; reflexivity|].
  split; [apply outcome_pair; vm_compute; reflexivity|]. vm_compute. discriminate.
Qed.
Lemma init_changes_refuted : exists (w w' : @world Qc) order g cell E L s e e', reachable w /\ (forall l, Permutation (order l) l) /\ periodic L s /\
  unshared w /\ energy_init order g cell w = (w', Ret E) /\ energy w L s = Some e /\ energy w' L s = Some e' /\ e <> e'.
Proof.
  destruct (energy_init keep g2 unit_cell w_both) as [w' [E|x]] eqn:H.
  2:{ apply (f_equal snd) in H. vm_compute in H. discriminate H. }
  exists w_both, w', keep, g2, unit_cell, E, cell1, up, (valof (energy w_both cell1 up)), (valof (energy w' cell1 up)).
  assert (Hw : w' = fst (energy_init keep g2 unit_cell w_both)) by (rewrite H; reflexivity).
  split; [exact r_both|]. split; [exact keep_perm|]. split; [apply up_periodic|].
  split; [unfold unshared; vm_compute; repeat constructor; cbn; intuition discriminate|].
  split; [exact H|]. rewrite Hw. splits; [apply valof_some; eexists; vm_compute; reflexivity|apply valof_some; eexists; vm_compute; reflexivity|qne].
Qed.
Lemma spins_carried (w : @world Qc) atoms : magnetic_atoms keep w = (w, Ret atoms) -> forallb (fun a => match spin_of w a with Some _ => true | None => false end) atoms = true ->
  forall a, carries w a -> spin_of w a <> None.
Proof.
  intros E H a C. destruct (magnetic_covers keep w atoms keep_perm E) as [_ Cov]. apply Cov in C.
  rewrite forallb_forall in H. specialize (H a C). destruct (spin_of w a); [discriminate|congruence].
Qed.
Lemma rich_case21 : (wf w_rich /\ mirror_closed w_rich) /\ notation_is w_rich true false (qq 1 2) (q 1) /\ (q 1 <> 0)%fld /\
  (forall a, carries w_rich a -> spin_of w_rich a <> None) /\ bonds w_rich <> [] /\ sites w_rich <> [].
Proof.
  assert (I := reachable_Inv _ r_rich). split; [exact (conj (proj1 I) (proj2 I eq_refl))|]. splits; try discriminate.
  - unfold notation_is. splits; reflexivity.
  - apply (spins_carried w_rich [atA; atB]); [apply outcome_pair; vm_compute; reflexivity|reflexivity].
Qed.
Lemma once_case21 : wf w_once /\ unshared w_once /\ reciprocal_storage w_once false /\ notation_is w_once false true (q 1) (q (-1)) /\ (q (-1) <> 0)%fld /\
  (forall a, carries w_once a -> spin_of w_once a <> None) /\ bonds w_once = [mkB atA atB c0; mkB atA atA c1] /\ sites w_once = [atB].
Proof.
  assert (I := reachable_Inv _ r_once). split; [exact (proj1 I)|]. splits; try reflexivity.
  - unfold unshared. vm_compute. repeat constructor; cbn; intuition discriminate.
  - assert (Eb : bonds w_once = [mkB atA atB c0; mkB atA atA c1]) by reflexivity. unfold reciprocal_storage, distinct_indices. rewrite Eb. splits.
    + intros k [<-|[<-|[]]]; discriminate.
    + intros k [<-|[<-|[]]]; cbn; discriminate.
    + intros k [<-|[<-|[]]]; unfold kept_direction; cbn; lia.
  - unfold notation_is. splits; reflexivity.
  - qne.
  - apply (spins_carried w_once [atA; atB]); [apply outcome_pair; vm_compute; reflexivity|reflexivity].
Qed.

Local Open Scope R_scope.
(** ** Over the real numbers *)
Definition one3 : M3 R := mkM 1 0 0 0 1 0 0 0 1.
Definition ez : V3 R := mkV 0 0 1.
Definition gR : atom -> R := fun _ => 2.
Definition w_r (dc sn : bool) (S of_ : R) : @world R :=
  run [OSetDC dc; OSetSN sn; OSetEF 1; OSetOF of_; OAddExchangeNew (AObj atA) (AObj atB) c0 (Some one3); OAddOnSiteNew (AObj atA) (Some one3)] (fresh [] [atA; atB] [(atA, S); (atB, S)]).
Lemma r_r dc sn S of_ : reachable (w_r dc sn S of_). Proof. do 4 eexists; reflexivity. Qed.
Ltac rcbv := cbv -[Rplus Rmult Rdiv Rinv Ropp Rminus Req_EM_T IZR].
Lemma dir_ez : direction ez ez.
Proof. split; [unfold ez; rlin; ring|]. exists 1. split; [lra|]. unfold ez. apply V3_ext; rlin; ring. Qed.

Definition E_r : @energy_obj R := mkEnergy 1 [2; 2] [1; 1] [(0%nat, 0%nat, lattice_vector one3 c0, 3%nat); (0%nat, 1%nat, lattice_vector one3 c0, 0%nat); (1%nat, 0%nat, lattice_vector one3 c0, 2%nat)] None.
Lemma init_r : exists w', energy_init keep gR one3 (w_r false false 1 1) = (w', Ret E_r) /\
  exists x x', bonds_energy (w_store w') E_r (fun _ J => J) [ez; ez] = Some x /\
    bonds_energy (w_store (run [OSetDC true] w')) E_r (fun _ J => J) [ez; ez] = Some x' /\ x <> x'.
Proof.
  eexists. split.
  - rcbv. destruct (Req_EM_T 1 0) as [X|X]; [lra|]. reflexivity.
  - eexists _, _. split; [rcbv; reflexivity|]. split; [rcbv; reflexivity|]. intros X. field_simplify in X. lra.
Qed.
Lemma E_r_ferro mu st x : bonds_energy st E_r (fun _ J => J) [ez; ez] = Some x -> e_ferro mu st E_r (SRows [ez; ez]) = Ret x.
Proof.
  intros H. unfold e_ferro. cbn [check_spins e_spins E_r List.length Nat.eqb obind].
  rewrite (normalize_all_ok [ez; ez] [ez; ez]) by (repeat constructor; apply dir_ez). cbn [obind]. rewrite H. cbn [of_option obind].
  unfold zeeman. cbn [e_field E_r]. f_equal. change (@f0 R R_Scalar) with 0. ring.
Qed.
Lemma shared_objects_refuted : exists (w w' : @world R) order g cell E mu a ops e e', reachable w /\ (forall l, Permutation (order l) l) /\
  energy_init order g cell w = (w', Ret E) /\ (forall o l, In o ops -> In l (mentions o) -> False) /\
  e_ferro mu (w_store w') E a = Ret e /\ e_ferro mu (w_store (run ops w')) E a = Ret e' /\ e <> e'.
Proof.
  destruct init_r as (w' & H & x & x' & Hx & Hx' & N).
  exists (w_r false false 1 1), w', keep, gR, one3, E_r, 1, (SRows [ez; ez]), [OSetDC true], x, x'.
  split; [apply r_r|]. split; [exact keep_perm|]. split; [exact H|]. split; [intros o l [<-|[]] []|].
  split; [apply E_r_ferro, Hx|]. split; [apply E_r_ferro, Hx'|exact N].
Qed.

(** ** C23 *)
Lemma w_r_atoms dc sn S of_ : magnetic_atoms keep (w_r dc sn S of_) = (w_r dc sn S of_, Ret [atA; atB]).
Proof. destruct dc; reflexivity. Qed.
Lemma w_r_spins dc sn S of_ a : In a [atA; atB] -> spin_of (w_r dc sn S of_) a <> None.
Proof. intros [<-|[<-|[]]]; destruct dc; discriminate. Qed.
Lemma w_r_notation dc sn S of_ : notation_is (w_r dc sn S of_) dc sn 1 of_.
Proof. destruct dc; unfold notation_is; splits; reflexivity. Qed.
Lemma w_r_rows : Forall2 (fun (a : atom) v => direction v ((fun _ => ez) a)) [atA; atB] [ez; ez].
Proof. repeat constructor; apply dir_ez. Qed.
Lemma w_r_case dc sn S of_ : wf (w_r dc sn S of_) /\ (if dc then mirror_closed (w_r dc sn S of_) else
  unshared (w_r dc sn S of_) /\ forall k, In k (bonds (w_r dc sn S of_)) -> ~ In (mirror k) (bonds (w_r dc sn S of_))).
Proof.
  assert (I := reachable_Inv _ (r_r dc sn S of_)). split; [exact (proj1 I)|]. destruct dc.
  - exact (proj2 I eq_refl).
  - split; [unfold unshared; cbv; repeat constructor; cbn; intuition discriminate|].
    change (bonds (w_r false sn S of_)) with [mkB atA atB c0]. intros k [<-|[]] [X|[]]. discriminate X.
Qed.
Lemma carries_atoms {F} (w : @world F) atoms : magnetic_atoms keep w = (w, Ret atoms) -> (forall a, In a atoms -> spin_of w a <> None) -> forall a, carries w a -> spin_of w a <> None.
Proof. intros E H a C. destruct (magnetic_covers keep w atoms keep_perm E) as [_ Cov]. apply H, Cov, C. Qed.

Lemma ferro_refuted dc sn S of_ : (dc, sn, S, of_) = (false, false, 1, 1) \/ (dc, sn, S, of_) = (true, true, 2, 1) \/ (dc, sn, S, of_) = (true, false, 1, 2) ->
  exists (w w' : @world R) order g cell mu atoms u rows E e e',
  reachable w /\ (forall l, Permutation (order l) l) /\ notation_is w dc sn 1 of_ /\ (forall a, carries w a -> spin_of w a <> None) /\
  magnetic_atoms order w = (w, Ret atoms) /\ Forall2 (fun a v => direction v (u a)) atoms rows /\
  energy_init order g cell w = (w', Ret E) /\ energy w (1, 1, 1)%nat (ferro_config u) = Some e /\ e_ferro mu (w_store w') E (SRows rows) = Ret e' /\ e <> e'.
Proof.
  intros H. set (w := w_r dc sn S of_). assert (Hz : of_ <> 0) by (destruct H as [H|[H|H]]; injection H as -> -> -> ->; lra).
  destruct (w_r_case dc sn S of_) as [W St].
  assert (V : exists X Y e, osum (map (bond_term false w (1, 1, 1)%nat (ferro_config (fun _ => ez))) (bonds w)) = Some X /\
    osum (map (site_term false w (1, 1, 1)%nat (ferro_config (fun _ => ez))) (sites w)) = Some Y /\ energy w (1, 1, 1)%nat (ferro_config (fun _ => ez)) = Some e /\
    e <> (if dc then 1 else 2) * 1 * X + 1 * 1 / of_ * Y).
  { unfold w. clear -H. destruct H as [H|[H|H]]; injection H as -> -> -> ->; (eexists _, _, _; split; [rcbv; reflexivity|]; split; [rcbv; reflexivity|]; split; [rcbv; reflexivity|]; intros X; field_simplify in X; lra). }
  destruct V as (X & Y & e & HX & HY & He & N).
  destruct (ferro_value keep gR one3 1 w dc sn 1 of_ [atA; atB] (fun _ => ez) [ez; ez] X Y keep_perm W (w_r_notation _ _ _ _) Hz St (w_r_atoms _ _ _ _) ltac:(discriminate)
    (w_r_spins _ _ _ _) w_r_rows HX HY) as (w' & E & E1 & E2).
  exists w, w', keep, gR, one3, 1, [atA; atB], (fun _ => ez), [ez; ez], E, e, ((if dc then 1 else 2) * 1 * X + 1 * 1 / of_ * Y).
  split; [apply r_r|]. split; [apply keep_perm|]. split; [apply w_r_notation|]. split; [|splits; auto; [apply w_r_atoms|exact w_r_rows]].
  apply (carries_atoms w [atA; atB] (w_r_atoms _ _ _ _) (w_r_spins _ _ _ _)).
Qed.
Lemma ferro_case : let w := w_r true false 2 (-1) in
  (wf w /\ mirror_closed w) /\ notation_is w true false 1 (-1) /\ -1 <> 0 /\ 1 * 1 = -1 * -1 /\ magnetic_atoms keep w = (w, Ret [atA; atB]) /\
  Forall2 (fun (a : atom) v => direction v ez) [atA; atB] [ez; ez] /\ energy w (1, 1, 1)%nat (ferro_config (fun _ => ez)) = Some 4.
Proof.
  intros w. destruct (w_r_case true false 2 (-1)) as [W St]. split; [split; assumption|]. splits; try lra.
  - apply w_r_notation.
  - apply w_r_atoms.
  - exact w_r_rows.
  - unfold w. rcbv. f_equal. field.
Qed.

(** ** C25, C26 *)
Definition st_c : list (M3 R) := [one3; mkM 0 1 0 (-1) 0 0 0 0 2].
Definition E_c (H : option (V3 R)) : @energy_obj R :=
  mkEnergy 1 [2; 2] [1; 2] [(0%nat, 1%nat, mkV 1 0 0, 0%nat); (1%nat, 0%nat, mkV 0 0 0, 1%nat)] H.
Definition ex : V3 R := mkV 1 0 0.
Lemma dir_ex : direction ex ex.
Proof. split; [unfold ex; rlin; ring|]. exists 1. split; [lra|]. unfold ex. apply V3_ext; rlin; ring. Qed.
Lemma dir_2ex : direction (mkV 2 0 0) ex.
Proof. split; [unfold ex; rlin; ring|]. exists 2. split; [lra|]. unfold ex. apply V3_ext; rlin; ring. Qed.
Lemma cone_case C mu H q : exists e, cone_energy C mu st_c (E_c H) (SRows [mkV 2 0 0; ez]) (Some ez) (Some q) = Ret e.
Proof.
  apply (cone_total C mu st_c (E_c H) _ [ex; ez] ez ez q); try discriminate; try reflexivity.
  - apply Forall2_cons; [apply dir_2ex|apply Forall2_cons; [apply dir_ez|apply Forall2_nil]].
  - apply dir_ez.
  - intros i j d l [X|[X|[]]]; injection X as <- <- <- <-; cbn; lia.
Qed.
(** Two parallel spins across the axis, field along them: the average vanishes, the code's value does not. *)
Lemma zeeman_refuted : exists mu st E rows dirs n q H e e0 average,
  Forall2 direction rows dirs /\ direction n n /\
  e_spiral mu st (set_field E (Some H)) (SRows rows) (Some n) (Some q) = Ret e /\
  e_spiral mu st (set_field E None) (SRows rows) (Some n) (Some q) = Ret e0 /\
  is_RInt (phase_zeeman mu H (e_g E) dirs n) 0 (2 * PI) (2 * PI * average) /\ e - e0 <> average.
Proof.
  destruct (cone_case spiral_C 1 (Some ex) (mkV 0 0 0)) as [e He]. destruct (cone_case spiral_C 1 None (mkV 0 0 0)) as [e0 He0].
  exists 1, st_c, (E_c None), [mkV 2 0 0; ez], [ex; ez], ez, (mkV 0 0 0), ex, e, e0.
  assert (D : Forall2 direction [mkV 2 0 0; ez] [ex; ez]) by (apply Forall2_cons; [apply dir_2ex|apply Forall2_cons; [apply dir_ez|apply Forall2_nil]]).
  destruct (spiral_zeeman 1 st_c (E_c None) _ _ ez ez (mkV 0 0 0) ex e e0 D dir_ez He He0) as (av & Hav & X).
  exists av. splits; auto; [apply dir_ez|]. rewrite X. unfold plain_zeeman, E_c, ex, ez. cbn [e_g]. rlin. lra.
Qed.
Lemma zeeman_two_refuted : exists mu st E rows dirs n q H e e0,
  Forall2 direction rows dirs /\ direction n n /\
  e_antiferro mu st (set_field E (Some H)) (SRows rows) (Some n) (Some q) = Ret e /\
  e_antiferro mu st (set_field E None) (SRows rows) (Some n) (Some q) = Ret e0 /\
  e - e0 <> (phase_zeeman mu H (e_g E) dirs n 0 + phase_zeeman mu H (e_g E) dirs n PI) / 2.
Proof.
  destruct (cone_case antiferro_C 1 (Some ex) (mkV 0 0 0)) as [e He]. destruct (cone_case antiferro_C 1 None (mkV 0 0 0)) as [e0 He0].
  exists 1, st_c, (E_c None), [mkV 2 0 0; ez], [ex; ez], ez, (mkV 0 0 0), ex, e, e0.
  assert (D : Forall2 direction [mkV 2 0 0; ez] [ex; ez]) by (apply Forall2_cons; [apply dir_2ex|apply Forall2_cons; [apply dir_ez|apply Forall2_nil]]).
  assert (X := antiferro_zeeman 1 st_c (E_c None) _ _ ez ez (mkV 0 0 0) ex e e0 D dir_ez He He0).
  splits; auto; [apply dir_ez|]. rewrite X. unfold plain_zeeman, E_c, ex, ez. cbn [e_g]. rlin. lra.
Qed.

Lemma stretched_case : Forall2 stretched [mkV 1 0 0; mkV 0 3 4] [mkV 2 0 0; mkV 0 (3 * / 2) (4 * / 2)].
Proof.
  apply Forall2_cons; [exists 2|apply Forall2_cons; [exists (/ 2)|apply Forall2_nil]]; (split; [lra|]); apply V3_ext; rlin; lra.
Qed.
Lemma independent_case : let w := w_r true true 2 (-1) in (wf w /\ mirror_closed w) /\ notation_is w true true 1 (-1) /\ -1 <> 0 /\
  (forall a, carries w a -> spin_of w a <> None) /\ bonds w <> [] /\ sites w <> [].
Proof.
  intros w. destruct (w_r_case true true 2 (-1)) as [W St]. split; [split; assumption|]. splits; try lra; try discriminate.
  - apply w_r_notation.
  - apply (carries_atoms w [atA; atB] (w_r_atoms _ _ _ _) (w_r_spins _ _ _ _)).
Qed.
