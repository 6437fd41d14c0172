(** A file with atoms in absolute coordinates, spins by angles, a cone axis and a spiral vector in relative coordinates. *)
From Coq Require Import String Ascii List Bool ZArith Arith Lia QArith Qcanon Field.
From Verif.Base Require Import Scalar Linear3 QcLit PyDict PyString PyText.
From Verif.Spec Require Import HamSpec TxtSpec TxtFormat TxtDumpSpec AtomsSpec.
From Verif.Model Require Import MatrixParam Hamiltonian TxtVerify TxtRead.
From Verif.Proofs Require Import TextWitness TextCases TextCases2 TextSane DumpPrinter.
Import ListNotations.
Local Open Scope string_scope.

Section Inverse.
Context {F : Type} {SF : Scalar F}.
Add Field F_field : (@f_field F SF).
Definition cof (m : M3 F) : M3 F :=
  let r1 := mrow1 m in let r2 := mrow2 m in let r3 := mrow3 m in
  let a := cross r2 r3 in let b := cross r3 r1 in let c := cross r1 r2 in
  mkM (vx a) (vy a) (vz a) (vx b) (vy b) (vz b) (vx c) (vy c) (vz c).
Definition inverse (m : M3 F) : M3 F := mdivs (mtrans (cof m)) (mdet m).
Lemma inverse_relative c v : mdet c <> f0 -> vmat (vmat v (inverse c)) c = v.
Proof.
  intros N. destruct c as [a1 a2 a3 b1 b2 b3 c1 c2 c3], v as [x y z]. lazy beta iota zeta delta [inverse vmat mvec mmul mtrans mdivs mscale mmap cof cross mrow1 mrow2 mrow3 dot mdet vx vy vz mxx mxy mxz myx myy myz mzx mzy mzz] in *. f_equal; field; exact N.
Qed.
Lemma inverse_reciprocal c t : mdet c <> f0 -> mmul c (mtrans (mscale t (mtrans (inverse c)))) = mkM t f0 f0 f0 t f0 f0 f0 t.
Proof.
  intros N. destruct c as [a1 a2 a3 b1 b2 b3 c1 c2 c3]. lazy beta iota zeta delta [inverse vmat mvec mmul mtrans mdivs mscale mmap cof cross mrow1 mrow2 mrow3 dot mdet vx vy vz mxx mxy mxz myx myy myz mzx mzy mzz] in *. f_equal; field; exact N.
Qed.
End Inverse.
Lemma qinv_is c i : qinv c = Some i -> mdet c <> f0 /\ i = inverse c.
Proof. unfold qinv. destruct (feq_dec (mdet c) f0) as [|N]; [discriminate|]. intros H. split; [exact N|]. assert (E : Some (inverse c) = Some i) by exact H. congruence. Qed.
Lemma QX_relative c v p : qabs_to_rel c v = Some p -> vmat p c = v.
Proof.
  unfold qabs_to_rel. destruct (qinv c) as [i|] eqn:E; [|discriminate]. apply qinv_is in E. destruct E as [N ->]. cbn [option_map]. intros H.
  assert (p = vmat v (inverse c)) as -> by congruence. apply inverse_relative, N.
Qed.
Lemma QX_reciprocal c r : qreciprocal c = Some r -> mmul c (mtrans r) = mkM (qq 44 7) f0 f0 f0 (qq 44 7) f0 f0 f0 (qq 44 7).
Proof.
  unfold qreciprocal. destruct (qinv c) as [i|] eqn:E; [|discriminate]. apply qinv_is in E. destruct E as [N ->]. cbn [option_map]. intros H.
  assert (r = mscale (qq 44 7) (mtrans (inverse c))) as -> by congruence. apply inverse_reciprocal, N.
Qed.
Lemma QX_angles a b : qnorm (mkV (fmul (qsin a) (qcos b)) (fmul (qsin a) (qsin b)) (qcos a)) = f1.
Proof. unfold qsin, qcos. destruct (feq_dec a (q 90)), (feq_dec b (q 90)); apply Qc_is_canon; vm_compute; reflexivity. Qed.
Lemma QX_geometry : geometry QX (qq 44 7).
Proof. split; [exact QX_relative|exact unit_norm|exact QX_angles|exact QX_reciprocal]. Qed.

Definition a_cell : list string := ["Cell Bohr"; "2 3 0.5"; "2.0 0.0 0.0"; "0.0 3.0 0.0"; "0.0 0.0 5.0"].
Definition a_cols := "q Name z y x S Sp St g".
Definition a_lines := ["1 Fe 1 2 3 2 90 90 2.5"; "0 Co 0 0 0 1.5 0 0 2"].
Definition a_atoms : list string := "Atoms Bohr" :: a_cols :: a_lines.
Definition a_cone : list string := ["Cone-axis"; "0 0 2"].
Definition a_spiral : list string := ["Spiral-vector Relative"; "0 0.5 0"].
Definition a_sections := [a_atoms; a_cone; a_cell; a_spiral].
Definition a_file := join a_sections.
Lemma a_case : is_file a_sections a_file /\ load_txt QX a_file = Ret (result a_file)
  /\ has_section a_sections "cell" ("Cell Bohr" :: ["2 3 0.5"] ++ ["2.0 0.0 0.0"; "0.0 3.0 0.0"; "0.0 0.0 5.0"])%list
  /\ length_unit QX "Cell Bohr" (c_bohr_radius QX) /\ scale_text QX ["2 3 0.5"] (mkV (q 2) (q 3) (qq 1 2))
  /\ has_section a_sections "atoms" ("Atoms Bohr" :: a_cols :: a_lines) /\ length_unit QX "Atoms Bohr" (c_bohr_radius QX)
  /\ has_column a_cols "sp" /\ ~ has_column a_cols "r1".
Proof.
  split; [apply is_file_by; reflexivity|]. split; [apply result_loads; vm_compute; reflexivity|]. split; [split; [simpl; tauto|reflexivity]|].
  split; [eapply lu_bohr; [reflexivity|eexists; reflexivity]|]. split.
  { apply st_three. unfold numbers. constructor; [reflexivity|]. constructor; [reflexivity|]. constructor; [|constructor]. cbn. unfold decimal. f_equal. apply Qc_is_canon. reflexivity. }
  split; [split; [simpl; tauto|reflexivity]|]. split; [eapply lu_bohr; [reflexivity|eexists; reflexivity]|].
  split; [exists "Sp"; split; [vm_compute; tauto|reflexivity]|].
  intros (h & I & E). vm_compute in I. repeat (destruct I as [<-|I]; [discriminate|]). destruct I.
Qed.
Lemma a_read : map (@ad_name Qc) (ld_atoms (result a_file)) = ["Fe"; "Co"] /\ map (@ad_spin Qc) (ld_atoms (result a_file)) = [mkV (q 0) (q 2) (q 0); mkV (q 0) (q 0) (qq 3 2)]
  /\ map (@ad_charge Qc) (ld_atoms (result a_file)) = [q 1; q 0] /\ map (@ad_g Qc) (ld_atoms (result a_file)) = [qq 5 2; q 2]
  /\ map (@ad_position Qc) (ld_atoms (result a_file)) = [mkV (qq 3 2) (qq 2 3) (qq 1 5); mkV (q 0) (q 0) (q 0)].
Proof.
  split; [vm_compute; reflexivity|].
  assert (G : forall (l l' : list (V3 Qc)), map (fun v => (Qred (this (vx v)), Qred (this (vy v)), Qred (this (vz v)))) l = map (fun v => (Qred (this (vx v)), Qred (this (vy v)), Qred (this (vz v)))) l' -> l = l').
  { assert (C : forall a b : Qc, Qred (this a) = Qred (this b) -> a = b) by (intros a b H; apply Qc_is_canon; rewrite <- (Qred_correct (this a)), H; apply Qred_correct).
    induction l as [|[x y z] l IH]; intros [|[x' y' z'] l'] H; try discriminate; [reflexivity|]. cbn [map vx vy vz] in H.
    injection H as H1 H2 H3 H. rewrite (C x x'), (C y y'), (C z z'), (IH l') by assumption. reflexivity. }
  assert (G1 : forall (l l' : list Qc), map (fun v => Qred (this v)) l = map (fun v => Qred (this v)) l' -> l = l').
  { assert (C : forall a b : Qc, Qred (this a) = Qred (this b) -> a = b) by (intros a b H; apply Qc_is_canon; rewrite <- (Qred_correct (this a)), H; apply Qred_correct).
    induction l as [|x l IH]; intros [|x' l'] H; try discriminate; [reflexivity|]. cbn [map] in H. injection H as H1 H. rewrite (C x x'), (IH l') by assumption. reflexivity. }
  split; [apply G; vm_compute; reflexivity|]. split; [apply G1; vm_compute; reflexivity|]. split; [apply G1; vm_compute; reflexivity|]. apply G. vm_compute. reflexivity.
Qed.
Lemma a_directions : has_section a_sections "cone-axis" ["Cone-axis"; "0 0 2"] /\ numbers QX (py_split "0 0 2") [q 0; q 0; q 2] /\ says_relative "Cone-axis"
  /\ has_section a_sections "spiral-vector" ["Spiral-vector Relative"; "0 0.5 0"] /\ numbers QX (py_split "0 0.5 0") [q 0; qq 1 2; q 0] /\ says_relative "Spiral-vector Relative".
Proof.
  assert (N : forall w x, option_map (fun y : Qc => Qred (this y)) (decimal w) = Some (Qred (this x)) -> decimal w = Some x).
  { intros w x H. destruct (decimal w) as [y|]; [|discriminate]. cbn in H. f_equal. apply Qc_is_canon. rewrite <- (Qred_correct (this y)), <- (Qred_correct (this x)). injection H as ->. reflexivity. }
  split; [split; [simpl; tauto|reflexivity]|]. split; [repeat (constructor; [apply N; vm_compute; reflexivity|]); constructor|]. split; [left; eexists; reflexivity|].
  split; [split; [simpl; tauto|reflexivity]|]. split; [repeat (constructor; [apply N; vm_compute; reflexivity|]); constructor|].
  right. exists "Spiral-vector", "Relative", []. split; [reflexivity|]. eexists; reflexivity.
Qed.
(** The same with angles. *)
Definition b_sections := [a_atoms; ["Cone-axis a"; "90 90"]; a_cell].
Lemma b_case : is_file b_sections (join b_sections) /\ load_txt QX (join b_sections) = Ret (result (join b_sections))
  /\ has_section b_sections "cone-axis" ["Cone-axis a"; "90 90"] /\ numbers QX (py_split "90 90") [q 90; q 90]
  /\ (forall s, ~ has_section b_sections "spiral-vector" s).
Proof.
  split; [apply is_file_by; reflexivity|]. split; [apply result_loads; vm_compute; reflexivity|]. split; [split; [simpl; tauto|reflexivity]|].
  split; [repeat constructor|]. intros s [I E]. cbn in I. repeat (destruct I as [<-|I]; [discriminate|]). destruct I.
Qed.
