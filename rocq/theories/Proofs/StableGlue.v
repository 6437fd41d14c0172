(** C79: energies of stable states; states in which every bond has its lowest energy are stable. *)
From Coq Require Import List Bool ZArith Reals Lra Lia Permutation Arith String.
From Coquelicot Require Import Coquelicot.
From Verif.Base Require Import Scalar ScalarR Linear3 PyDict PyString.
From Verif.Model Require Import MatrixParam Hamiltonian History EnergyInit Energy Dispersion Solver.
From Verif.Spec Require Import HamSpec NotationSpec HistorySpec EnergySpec DispersionSpec SpinWaveSpec RotationSpec OmegaSpec StableSpec.
From Verif.Proofs Require Import DictProofs HamBasics HamSetters HamDouble HamDcEnergy NotationProofs HistoryProofs CallProofs FilterProofs FrameProofs
  HamGlue HamWitness EnergyInitProofs EnergyProofs EnergyWitness OptimizerProofs OptimizerWitness DispersionMatrix DispersionInit DispersionAxes DispersionModes DispersionOmega DispersionFrame
  DispersionWitness DispersionGlue EnergyFunctional SpinWaveLocal SpinWaveProofs StableWave StableProofs OmegaSolver StableSolver.
From Coq Require Import List.
Import ListNotations.
Local Open Scope R_scope.

Lemma chop_positive (z : C) (rI : bool) : snd z = 0 -> 0 < fst z -> exists r, 0 <= r /\ (if rI then chop (Num z) else real_part (chop (Num z))) = Num (RtoC r).
Proof.
  intros Z P. destruct z as [a b]; cbn [fst snd] in *. subst b. unfold chop. destruct (Rle_dec _ _).
  - exists 0. split; [lra|]. destruct rI; reflexivity.
  - exists a. split; [lra|]. destruct rI; reflexivity.
Qed.
Lemma semidefinite_energies np N h z rI : numpy_works np -> hermitian (2 * N) h -> (forall x, 0 <= fst (quad (2 * N) h x)) ->
  exists l, fst (omega (colpa_solver np N) N h z false rI) = map (fun r => Num (RtoC r)) l /\ List.length l = N /\ forall r, In r l -> 0 <= r.
Proof.
  intros W He Hp. destruct (solver_ok N W) as (S1 & S2 & _).
  destruct (semidefinite_handled (colpa_solver np N) N h z rI S1 He Hp) as ([E G] & Hr & Eo). cbn [fst snd] in *.
  assert (P : Forall (fun z => snd z = 0 /\ 0 < fst z) E) by (destruct Hr as [Hr|Hr]; exact (solver_positive W Hr)).
  assert (Ln : List.length E = (2 * N)%nat) by (destruct Hr as [Hr|Hr]; exact (S2 _ _ _ Hr)).
  assert (X : exists l, map (fun z => if rI then chop (Num z) else real_part (chop (Num z))) E = map (fun r => Num (RtoC r)) l /\ List.length l = List.length E /\ forall r, In r l -> 0 <= r).
  { clear - P. induction P as [|z E [Z Pz] _ (l & E1 & E2 & E3)]; [exists []; splits; [reflexivity|reflexivity|intros ? []]|].
    destruct (chop_positive z rI Z Pz) as (r & Hr & Er). exists (r :: l). cbn [map List.length]. rewrite Er, E1, E2. splits; [reflexivity|reflexivity|]. intros x [<-|I]; auto. }
  destruct X as (l & E1 & E2 & E3).
  assert (F : fst (omega (colpa_solver np N) N h z false rI) = firstn N (fst (omega (colpa_solver np N) N h z true rI))).
  { unfold omega. destruct (attempts _ _ _ _) as [om G']. reflexivity. }
  rewrite F, Eo. cbn [fst]. rewrite E1, firstn_map. exists (firstn N l). splits; [reflexivity| |].
  - rewrite firstn_length, E2, Ln. lia.
  - intros r I. apply E3. rewrite <- (firstn_skipn N l). apply in_or_app. left. exact I.
Qed.

Lemma storage_reciprocal (w : world) dc : wf w -> reciprocal_storage w dc -> reciprocal w.
Proof.
  intros W (S1 & S2 & S3). destruct dc; [apply S3|]. intros b J J' E E'.
  assert (I : In b (bonds w)) by (apply (bond_value_stored w b W); eauto). assert (I' : In (mirror b) (bonds w)) by (apply (bond_value_stored w _ W); eauto).
  exfalso. exact (kept_mirror_absent w b S1 S2 I (proj2 (canonical_kept b) (S3 b I)) (proj2 (canonical_kept _) (S3 _ I'))).
Qed.
Lemma stable_energies np order cell pos sv (w w1 : world) D dc sn ef of_ Sl : numpy_works np ->
  wf w -> unshared w -> spins_defined w -> reciprocal_storage w dc -> symmetric_onsite w -> notation_is w dc sn ef of_ -> ef <> 0 -> of_ <> 0 ->
  (forall a, carries w a -> spin_of w a = Some (Sl a)) -> (forall a s, carries w a -> sv a = Some s -> norm s = Sl a /\ sharp s) ->
  mdet cell <> 0 -> dispersion_init order cell pos sv w = (w1, Ret D) -> classically_stable w (uniform (pointing sv)) ->
  forall k, (forall psi, 0 <= fst (quad (2 * d_N D) (d_h (w_store w1) D k) psi)) /\
  forall zeros_to_none return_imaginary, exists l,
    fst (omega (colpa_solver np (d_N D)) (d_N D) (d_h (w_store w1) D k) zeros_to_none false return_imaginary) = map (fun r => Num (RtoC r)) l /\
    List.length l = d_N D /\ forall r, In r l -> 0 <= r.
Proof.
  intros Np W U Sp St O No Ne Nf Hs Hv Hc H Stb k.
  assert (P : forall psi, 0 <= fst (quad (2 * d_N D) (d_h (w_store w1) D k) psi)).
  { intros psi. exact (stable_semidefinite order cell pos sv w w1 D dc sn ef of_ Sl W U Sp St O No Ne Nf Hs (fun a s I E => proj1 (Hv a s I E)) H (fun a s I E => proj2 (Hv a s I E)) Stb Hc k psi). }
  split; [exact P|]. intros z rI. apply semidefinite_energies; [exact Np| |exact P].
  exact (made_hermitian order cell pos sv w w1 D W U (storage_reciprocal w dc W St) O H k).
Qed.

(** ** Unfrustrated states *)
Lemma upto_le n (f g : Z -> R) : (forall z, f z <= g z) -> sum_upto n f <= sum_upto n g.
Proof. intros Hl. induction n as [|n IH]; cbn [sum_upto]; [apply Rle_refl|]. apply Rplus_le_compat; auto. Qed.
Lemma upto_scale c n (f : Z -> R) : c * sum_upto n f = sum_upto n (fun z => c * f z).
Proof. induction n as [|n IH]; cbn [sum_upto]; [cbn; ring|]. rewrite <- IH. cbn. ring. Qed.
Lemma box_le c L (f g : cell3 -> R) : (forall r, c * f r <= c * g r) -> c * sum_box L f <= c * sum_box L g.
Proof.
  intros Hl. destruct L as [[n1 n2] n3]. cbn [sum_box]. rewrite !upto_scale. apply upto_le. intros i. rewrite !upto_scale. apply upto_le. intros j. rewrite !upto_scale. apply upto_le. intros l. apply Hl.
Qed.
Lemma fsum_le {A} c (f g u : A -> R) l : (forall a, In a l -> 0 <= u a /\ c * f a <= c * g a) ->
  c * fsum (map (fun a => u a * f a) l) <= c * fsum (map (fun a => u a * g a) l).
Proof.
  induction l as [|a l IH]; intros Hl; [apply Rle_refl|]. cbn [map]. rewrite !fsum_cons, !Rmult_plus_distr_l. apply Rplus_le_compat; [|apply IH; intros; apply Hl; right; assumption].
  destruct (Hl a (or_introl eq_refl)) as [P Q]. replace (c * (u a * f a)) with (u a * (c * f a)) by ring. replace (c * (u a * g a)) with (u a * (c * g a)) by ring. apply Rmult_le_compat_l; assumption.
Qed.
Lemma unfrustrated_stable (w : world) dc sn ef of_ (d : atom -> V3 R) : wf w -> spins_defined w -> notation_is w dc sn ef of_ ->
  (forall a x, carries w a -> spin_of w a = Some x -> 0 < x) ->
  (forall b J u v, bond_value w b = Some J -> dot u u = 1 -> dot v v = 1 -> ef * dot (d (b_from b)) (mvec J (d (b_to b))) <= ef * dot u (mvec J v)) ->
  (forall a A u, onsite_value w a = Some A -> dot u u = 1 -> of_ * dot (d a) (mvec A (d a)) <= of_ * dot u (mvec A u)) ->
  classically_stable w (uniform d).
Proof.
  intros W Sp No Ps Hb Ho n1 n2 n3 _ _ _. exists 1. split; [lra|]. intros s e e0 _ Dir _ E E0. set (L := (n1, n2, n3)) in *.
  assert (Es : energy w L s = Some (total (pair_energy L s) (site_energy L s) w sn ef of_)) by exact (genergy_total _ _ w dc sn ef of_ W Sp No).
  assert (Eu : energy w L (uniform d) = Some (total (pair_energy L (uniform d)) (site_energy L (uniform d)) w sn ef of_)) by exact (genergy_total _ _ w dc sn ef of_ W Sp No).
  rewrite Es in E. rewrite Eu in E0. injection E as <-. injection E0 as <-.
  assert (Len : forall a, carries w a -> 0 <= sdef (slen sn (w_ham w) a)).
  { intros a I. unfold slen. destruct sn; [cbn; lra|]. change (dget (h_spins (w_ham w)) a) with (spin_of w a). destruct (spin_of w a) as [x|] eqn:Ex; cbn; [|lra].
    left. exact (Ps a x I Ex). }
  unfold total. apply Rplus_le_compat.
  - apply fsum_le. intros b I. assert (Cf : carries w (b_from b)) by (left; eauto). assert (Ct : carries w (b_to b)) by (left; eauto).
    split; [apply Rmult_le_pos; apply Len; assumption|]. assert (Ib := I). apply (bond_value_stored w b W) in I as [J EJ]. rewrite EJ. cbn [vdef]. unfold pair_energy, uniform.
    refine (box_le ef L (fun _ => dot (d (b_from b)) (mvec J (d (b_to b)))) (fun r => dot (s (b_from b) r) (mvec J (s (b_to b) (cadd r (b_cell b))))) _). intros r.
    apply (Hb b J _ _ EJ); apply Dir; assumption.
  - apply fsum_le. intros a I. assert (Ca : carries w a) by (right; exact I). split; [apply Rmult_le_pos; apply Len; assumption|].
    apply (onsite_value_stored w a W) in I as [A EA]. rewrite EA. cbn [vdef]. unfold site_energy, uniform.
    refine (box_le of_ L (fun _ => dot (d a) (mvec A (d a))) (fun r => dot (s a r) (mvec A (s a r))) _). intros r. apply (Ho a A _ EA), Dir, Ca.
Qed.

(** ** An antiferromagnetic chain *)
Definition w_neel : world :=
  run [OSetDC true; OSetSN true; OSetEF 1; OSetOF 1; OAddExchangeNew (AObj atA) (AObj atB) c0 (Some one3); OAddExchangeNew (AObj atB) (AObj atA) c1 (Some one3)] (fresh [] [atA; atB] [(atA, 1); (atB, 1)]).
Definition neel : atom -> option (V3 R) := fun a => if eq_dec a atA then Some (mkV 0 0 1) else Some (mkV 0 0 (-1)).
Lemma r_neel : reachable w_neel. Proof. do 4 eexists; reflexivity. Qed.
Lemma neel_wf : wf w_neel. Proof. exact (proj1 (reachable_Inv _ r_neel)). Qed.
Lemma neel_bonds : bonds w_neel = [mkB atA atB c0; mkB atB atA c0; mkB atB atA c1; mkB atA atB (cneg c1)]. Proof. reflexivity. Qed.
Lemma neel_sites : sites w_neel = []. Proof. reflexivity. Qed.
Lemma neel_values k J : bond_value w_neel k = Some J -> J = one3 /\ In k (bonds w_neel).
Proof.
  intros E. assert (I : In k (bonds w_neel)) by (apply (bond_value_stored w_neel k neel_wf); eauto). split; [|exact I].
  rewrite neel_bonds in I. destruct I as [<-|[<-|[<-|[<-|[]]]]]; apply vdef_Some in E; subst J; apply M3_ext; rcbv; ring.
Qed.
Lemma direction_unit v : dot v v = 1 -> direction_of v = v.
Proof. intros E. unfold direction_of. rewrite E, sqrt_1, Rinv_1. destruct v; apply V3_ext; rlin; ring. Qed.
Lemma lowest u v : dot u u = 1 -> dot v v = 1 -> -1 <= dot u v.
Proof.
  intros A B. assert (X : 0 <= dot (vadd u v) (vadd u v)).
  { generalize (vadd u v). intros [a b c]. assert (Qa := Rle_0_sqr a). assert (Qb := Rle_0_sqr b). assert (Qc := Rle_0_sqr c). unfold Rsqr in *. unfold dot; cbn. lra. }
  replace (dot (vadd u v) (vadd u v)) with (dot u u + dot v v + 2 * dot u v) in X by (destruct u, v; unfold dot, vadd, vmap2; cbn; ring). lra.
Qed.
Lemma neel_case :
  (wf w_neel /\ unshared w_neel /\ spins_defined w_neel /\ reciprocal_storage w_neel true /\ symmetric_onsite w_neel /\ notation_is w_neel true true 1 1) /\
  (forall a, carries w_neel a -> spin_of w_neel a = Some 1) /\ carries w_neel atA /\ carries w_neel atB /\
  (forall a s, carries w_neel a -> neel a = Some s -> norm s = 1 /\ sharp s) /\ mdet (one3 : M3 R) <> 0 /\
  (exists w1 D, dispersion_init keep one3 origin neel w_neel = (w1, Ret D)) /\ pointing neel atA = mkV 0 0 1 /\ pointing neel atB = mkV 0 0 (-1) /\
  (forall b J u v, bond_value w_neel b = Some J -> dot u u = 1 -> dot v v = 1 -> 1 * dot (pointing neel (b_from b)) (mvec J (pointing neel (b_to b))) <= 1 * dot u (mvec J v)) /\
  (forall a A, onsite_value w_neel a <> Some A).
Proof.
  assert (Un : forall z, z * z = 1 -> dot (mkV 0 0 z) (mkV 0 0 z) = 1) by (intros z E; rlin; lra).
  assert (No : forall z, z * z = 1 -> norm (mkV 0 0 z) = 1) by (intros z E; unfold norm; rewrite Un by exact E; apply sqrt_1).
  assert (Dr : forall z, z * z = 1 -> direction_of (mkV 0 0 z) = mkV 0 0 z) by (intros z E; apply direction_unit, Un, E).
  assert (Ca : forall a, carries w_neel a -> a = atA \/ a = atB).
  { intros a [(k & I & H)|I]; [|rewrite neel_sites in I; destruct I]. rewrite neel_bonds in I. destruct I as [<-|[<-|[<-|[<-|[]]]]]; destruct H as [<-|<-]; auto. }
  assert (PA : pointing neel atA = mkV 0 0 1) by (unfold pointing; cbn [neel]; change (neel atA) with (Some (mkV 0 0 1)); apply Dr; ring).
  assert (PB : pointing neel atB = mkV 0 0 (-1)) by (unfold pointing; change (neel atB) with (Some (mkV 0 0 (-1))); apply Dr; ring).
  splits.
  - exact neel_wf.
  - unfold unshared. cbv. repeat constructor; cbn; intuition discriminate.
  - split; [|intros a I; rewrite neel_sites in I; destruct I]. rewrite neel_bonds. intros k [<-|[<-|[<-|[<-|[]]]]]; split; exists 1; (split; [reflexivity|]); exact R1_neq_R0.
  - unfold reciprocal_storage. splits.
    + rewrite neel_bonds. intros k [<-|[<-|[<-|[<-|[]]]]]; discriminate.
    + unfold distinct_indices. rewrite neel_bonds. intros k [<-|[<-|[<-|[<-|[]]]]]; discriminate.
    + unfold mirror_closed. rewrite neel_bonds. intros k [<-|[<-|[<-|[<-|[]]]]]; cbn; auto.
    + intros k J J' E E'. apply neel_values in E as [-> _], E' as [-> _]. reflexivity.
  - intros a A E. assert (I : In a (sites w_neel)) by (apply (onsite_value_stored w_neel a neel_wf); eauto). rewrite neel_sites in I. destruct I.
  - repeat split.
  - intros a I. destruct (Ca a I) as [->| ->]; reflexivity.
  - left. exists (mkB atA atB c0). rewrite neel_bonds. cbn; auto.
  - left. exists (mkB atA atB c0). rewrite neel_bonds. cbn; auto.
  - intros a s I E. destruct (Ca a I) as [->| ->].
    + change (neel atA) with (Some (mkV 0 0 1)) in E. injection E as <-. split; [apply No; ring|]. right. left. apply Dr. ring.
    + change (neel atB) with (Some (mkV 0 0 (-1))) in E. injection E as <-. split; [apply No; ring|]. right. right. apply Dr. ring.
  - unfold mdet. rcbv. lra.
  - apply dispersion_total; [exact keep_perm|exact neel_wf| | |].
    + unfold unshared. cbv. repeat constructor; cbn; intuition discriminate.
    + split; [|intros a I; rewrite neel_sites in I; destruct I]. rewrite neel_bonds. intros k [<-|[<-|[<-|[<-|[]]]]]; split; exists 1; (split; [reflexivity|]); exact R1_neq_R0.
    + intros a _. unfold neel. destruct (eq_dec a atA); eexists; (split; [reflexivity|]); intros E; apply (f_equal vz) in E; cbn in E; change (@f0 R R_Scalar) with 0 in E; lra.
  - exact PA.
  - exact PB.
  - intros b J u v E Hu Hv. apply neel_values in E as [-> I]. assert (X := lowest u v Hu Hv).
    assert (Y : forall x, mvec one3 x = x) by (intros [x1 x2 x3]; apply V3_ext; rlin; rcbv; ring). rewrite !Y, !Rmult_1_l.
    assert (Z : dot (pointing neel (b_from b)) (pointing neel (b_to b)) = -1).
    { rewrite neel_bonds in I. destruct I as [<-|[<-|[<-|[<-|[]]]]]; cbn [b_from b_to]; rewrite PA, PB; rlin; ring. }
    lra.
  - intros a A E. assert (I : In a (sites w_neel)) by (apply (onsite_value_stored w_neel a neel_wf); eauto). rewrite neel_sites in I. destruct I.
Qed.
