(** Values loaded in a declared unit. *)
From Coq Require Import QArith Qcanon Qabs ZArith Reals Qreals Lra Ascii String List Bool Psatz.
From Verif.Base Require Import Scalar ScalarR Linear3 PyDict PyString.
From Verif.Model Require Import Hamiltonian TxtRead Constants EnergyInit Hdf5.
From Verif.Spec Require Import HamSpec TxtSpec TxtFormat Hdf5Spec AtomsSpec Hdf5Units PhysicsSpec.
From Verif.Proofs Require Import TextMore Hdf5Group.
Import ListNotations.
Open Scope string_scope.

Lemma near_scaled (e u : Qc) (v : Q) : e <> 0%Qc -> near (u / e)%Qc (Q2Qc v) ->
  forall x y, (e * x = u * y)%Qc -> near x (Q2Qc v * y)%Qc.
Proof.
  intros Ne N x y E. assert (Ex : x = (u / e * y)%Qc) by (replace (u / e * y)%Qc with (u * y / e)%Qc by (field; exact Ne); rewrite <- E; field; exact Ne).
  rewrite Ex. unfold near in *.
  assert (A : (this (u / e * y)%Qc == this (u / e)%Qc * this y)%Q) by apply Qred_correct.
  assert (B : (this (Q2Qc v * y)%Qc == this (Q2Qc v) * this y)%Q) by apply Qred_correct.
  rewrite A, B.
  setoid_replace (this (u / e)%Qc * this y - this (Q2Qc v) * this y)%Q with ((this (u / e)%Qc - this (Q2Qc v)) * this y)%Q by ring.
  rewrite !Qabs_Qmult, Qmult_assoc. apply Qmult_le_compat_r; [exact N|apply Qabs_nonneg].
Qed.

Lemma reads_scaled (e u : Qc) v m A : e <> 0%Qc -> near (u / e)%Qc (Q2Qc v) -> mscale e m = mscale u A -> reads_as m v A.
Proof.
  intros Ne N E. unfold reads_as, entries.
  assert (C : forall p : M3 Qc -> Qc, (forall k t, p (mscale k t) = (k * p t)%Qc) -> near (p m) (Q2Qc v * p A)%Qc).
  { intros p P. apply (near_scaled e u v Ne N). rewrite <- !P. f_equal. exact E. }
  repeat apply Forall2_cons; try apply Forall2_nil; apply C; intros k t; (reflexivity || apply Qcmult_comm).
Qed.

Section Rows.
Context {F : Type} {SF : Scalar F}.
Add Field F_field : (@f_field F SF).
Lemma one_row (k u : F) M a b c : vscale k M = scaled_row u (mkV f1 f1 f1) a b c ->
  fmul (vx M) k = fmul a u /\ fmul (vy M) k = fmul b u /\ fmul (vz M) k = fmul c u.
Proof.
  destruct M as [p q r]. unfold scaled_row, vscale, vmap. cbn [vx vy vz]. intros H. injection H as E1 E2 E3.
  split; [|split]; [transitivity (fmul k p)|transitivity (fmul k q)|transitivity (fmul k r)]; try ring; [rewrite E1|rewrite E2|rewrite E3]; ring.
Qed.
Lemma rows_scaled (k u : F) (M : M3 F) a b c d e g h i j :
  vscale k (mrow1 M) = scaled_row u (mkV f1 f1 f1) a b c -> vscale k (mrow2 M) = scaled_row u (mkV f1 f1 f1) d e g ->
  vscale k (mrow3 M) = scaled_row u (mkV f1 f1 f1) h i j -> mscale k M = mscale u (mkM a b c d e g h i j).
Proof.
  intros H1 H2 H3. apply one_row in H1, H2, H3. unfold mscale, mmap, mrow1, mrow2, mrow3 in *. cbn [vx vy vz] in H1, H2, H3.
  destruct H1 as (? & ? & ?), H2 as (? & ? & ?), H3 as (? & ? & ?). f_equal; assumption.
Qed.
End Rows.

Section Imports.
Variable X : externals Qc.
Hypothesis I : imports X.
Definition eV3 : Qc := fmul (c_milli X) (c_electron_volt X).

Lemma eV3_is : eV3 = Q2Qc INSIDE_ENERGY.
Proof. unfold eV3. rewrite (imp_milli X I), (imp_electron_volt X I). apply Qc_is_canon. vm_compute. reflexivity. Qed.
Lemma eV3_nz : eV3 <> 0%Qc.
Proof. rewrite eV3_is. intro E. apply (f_equal (fun x : Qc => Qnum x)) in E. vm_compute in E. discriminate E. Qed.
Lemma length_nz : c_angstrom X <> 0%Qc.
Proof. rewrite (imp_angstrom X I). intro E. apply (f_equal (fun x : Qc => Qnum x)) in E. vm_compute in E. discriminate E. Qed.

Ltac number := unfold near; vm_compute; discriminate.
Lemma energy_sizes name v : In (name, v) in_millielectronvolts -> exists u, near (u / eV3)%Qc (Q2Qc v)
  /\ In (name, u) [("rydberg", c_rydberg_energy X); ("joule", f1); ("kelvin", c_k_boltzmann X); ("electron-volt", c_electron_volt X);
     ("milli-electron-volt", fmul (c_milli X) (c_electron_volt X))].
Proof.
  rewrite eV3_is. intros [E|[E|[E|[E|[E|[]]]]]]; injection E as <- <-.
  - exists (fmul (c_milli X) (c_electron_volt X)). split; [|cbn; tauto]. fold eV3. rewrite eV3_is. number.
  - exists (c_electron_volt X). split; [|cbn; tauto]. rewrite (imp_electron_volt X I). number.
  - exists f1. split; [|cbn; tauto]. number.
  - exists (c_k_boltzmann X). split; [|cbn; tauto]. rewrite (imp_k_boltzmann X I). number.
  - exists (c_rydberg_energy X). split; [|cbn; tauto]. rewrite (imp_rydberg X I). number.
Qed.

Lemma length_sizes name v : In (name, v) in_angstroms -> exists u, near (u / c_angstrom X)%Qc (Q2Qc v)
  /\ In (name, u) [("angstrom", c_angstrom X); ("bohr", c_bohr_radius X)].
Proof.
  intros [E|[E|[]]]; injection E as <- <-.
  - exists (c_angstrom X). split; [|cbn; tauto]. rewrite (imp_angstrom X I). number.
  - exists (c_bohr_radius X). split; [|cbn; tauto]. rewrite (imp_angstrom X I), (imp_bohr_radius X I). number.
Qed.

Lemma text_energy hdr name v : text_unit hdr name "milli-electron-volt" -> In (name, v) in_millielectronvolts ->
  exists u, near (u / eV3)%Qc (Q2Qc v) /\ energy_unit X hdr u.
Proof.
  intros T Iv. destruct (energy_sizes _ _ Iv) as (u & N & Iu). exists u. split; [exact N|].
  destruct T as [(k & S1 & ->)|(k & w & c & t & S2 & -> & Ic)].
  - destruct Iu as [E|[E|[E|[E|[E|[]]]]]]; try discriminate E. injection E as <-. exact (eu_default X hdr k S1).
  - destruct Iu as [E|[E|[E|[E|[E|[]]]]]]; injection E as <- _ <-;
      [exact (eu_rydberg X hdr k w S2 Ic)|exact (eu_joule X hdr k w S2 Ic)|exact (eu_kelvin X hdr k w S2 Ic)
      |exact (eu_electron_volt X hdr k w S2 Ic)|exact (eu_milli X hdr k w S2 Ic)].
Qed.
Lemma text_length hdr name v : text_unit hdr name "angstrom" -> In (name, v) in_angstroms ->
  exists u, near (u / c_angstrom X)%Qc (Q2Qc v) /\ length_unit X hdr u.
Proof.
  intros T Iv. destruct (length_sizes _ _ Iv) as (u & N & Iu). exists u. split; [exact N|].
  destruct T as [(k & S1 & ->)|(k & w & c & t & S2 & -> & Ic)].
  - destruct Iu as [E|[E|[]]]; try discriminate E. injection E as <-. exact (lu_default X hdr k S1).
  - destruct Iu as [E|[E|[]]]; injection E as <- _ <-; [exact (lu_angstrom X hdr k w S2 Ic)|exact (lu_bohr X hdr k w S2 Ic)].
Qed.

Theorem text_on_site : sane X -> forall secs f L s es a name v,
  is_file secs f -> load_txt X f = Ret L -> has_section secs "on-site" s -> on_site_text X (tl s) es ->
  text_unit (hd "" s) name "milli-electron-volt" -> In (name, v) in_millielectronvolts -> In a (h_atoms (w_ham (ld_ham L))) ->
  forall A, last_entry (a_name a) es = Some A -> exists m, onsite_value (ld_ham L) a = Some m /\ reads_as m v A.
Proof.
  intros Sn secs f L s es a name v Fi Lo Se Te Un Iv Ia A La. destruct (text_energy _ _ _ Un Iv) as (u & N & Eu).
  pose proof (on_site_converted_file X Sn secs f L s es u a Fi Lo eV3_nz Se Te Eu Ia) as H. rewrite La in H.
  destruct H as (m & Om & Sm). exists m. split; [exact Om|]. exact (reads_scaled _ _ _ _ _ eV3_nz N Sm).
Qed.

Theorem text_cell : sane X -> forall secs f L hdr r1 r2 r3 a b c d e g h i j name v, is_file secs f -> load_txt X f = Ret L ->
  has_section secs "cell" [hdr; r1; r2; r3] -> text_unit hdr name "angstrom" -> In (name, v) in_angstroms ->
  numbers X (PyText.py_split r1) [a; b; c] -> numbers X (PyText.py_split r2) [d; e; g] -> numbers X (PyText.py_split r3) [h; i; j] ->
  reads_as (ld_cell L) v (mkM a b c d e g h i j).
Proof.
  intros Sn secs f L hdr r1 r2 r3 a b c d e g h i j name v Fi Lo Se Un Iv N1 N2 N3. destruct (text_length _ _ _ Un Iv) as (u & N & Lu).
  pose proof (cell_scaled_file X Sn secs f L hdr [] r1 r2 r3 u _ a b c d e g h i j Fi Lo Se Lu (st_none X) N1 N2 N3) as H.
  apply (reads_scaled _ _ _ _ _ length_nz N). destruct H as (H1 & H2 & H3). exact (rows_scaled _ _ _ _ _ _ _ _ _ _ _ _ H1 H2 H3).
Qed.
End Imports.

Section Hdf5.
Variable X : externals Qc.
Hypothesis I : imports X.

Lemma defined_units : units_defined X.
Proof.
  unfold units_defined. split; [exact (length_nz X I)|exact (eV3_nz X I)].
Qed.
Lemma same_energy name v u : In (str_lower name, v) in_millielectronvolts -> energy_named X name u -> near (u / eV3 X)%Qc (Q2Qc v).
Proof.
  intros Iv Nu. destruct (energy_sizes X I _ _ Iv) as (u' & N & Iu). unfold energy_named in Nu.
  replace u with u'; [exact N|]. clear N.
  destruct Iu as [E|[E|[E|[E|[E|[]]]]]]; injection E as En Eu; rewrite <- En in Nu;
    destruct Nu as [K|[K|[K|[K|[K|[]]]]]]; try discriminate K; injection K as K; congruence.
Qed.
Lemma same_length name t v u : str_lower name = t -> In (t, v) in_angstroms -> length_named X name u ->
  near (u / c_angstrom X)%Qc (Q2Qc v).
Proof.
  intros Et Iv Nu. destruct (length_sizes X I _ _ Iv) as (u' & N & Iu). replace u with u'; [exact N|]. clear N Iv.
  destruct Iu as [E|[E|[]]]; injection E as <- <-; destruct Nu as [[[w B] ->]|[[w B] ->]]; rewrite Et in B; try discriminate B; reflexivity.
Qed.

Theorem hdf5_energies : (forall cell v q, x_abs_to_rel X cell v = Some q -> vmat q cell = v) ->
  forall (file root : @node Qc) p c s, NoDup (map ai_name (co_atoms c)) -> lookup file p = Some root -> describes root c ->
  load X (Some p) file = Ret s ->
  (forall name l v, co_exchange c = Some (name, l) -> In (str_lower name, v) in_millielectronvolts ->
     forall k A, In (b_from k) (atoms_of s) -> In (b_to k) (atoms_of s) -> written_bond (co_dc c) l k = Some A ->
     exists m, bond_value (sh_ham s) k = Some m /\ reads_as m v A)
  /\ (forall name l v, co_on_site c = Some (name, l) -> In (str_lower name, v) in_millielectronvolts ->
     forall a A, In a (atoms_of s) -> last_entry (a_name a) l = Some A -> exists m, onsite_value (sh_ham s) a = Some m /\ reads_as m v A)
  /\ (forall v, In (str_lower (co_length c), v) in_angstroms -> reads_as (sh_cell s) v (co_rows c)).
Proof.
  intros Rel file root p c s Nd Lk De Lo. destruct (file_means X file root p c s defined_units Rel Nd Lk De Lo)
    as (Cl & _ & _ & _ & Ex & On & _). split; [|split].
  - intros name l v Ec Iv k A I1 I2 W. unfold exchange_means in Ex. rewrite Ec in Ex. destruct Ex as (u & Nu & H).
    specialize (H k I1 I2). unfold in_meV in H. rewrite W in H. destruct (bond_value (sh_ham s) k) as [m|]; [|discriminate H].
    exists m. split; [reflexivity|]. apply (reads_scaled _ _ _ _ _ (eV3_nz X I) (same_energy _ _ _ Iv Nu)).
    assert (G := f_equal (fun o => match o with Some x => x | None => mscale (eV3 X) m end) H). exact G.
  - intros name l v Ec Iv a A Ia W. unfold on_site_means in On. rewrite Ec in On. destruct On as (u & Nu & H).
    specialize (H a Ia). unfold in_meV in H. rewrite W in H. destruct (onsite_value (sh_ham s) a) as [m|]; [|discriminate H].
    exists m. split; [reflexivity|]. apply (reads_scaled _ _ _ _ _ (eV3_nz X I) (same_energy _ _ _ Iv Nu)).
    assert (G := f_equal (fun o => match o with Some x => x | None => mscale (eV3 X) m end) H). exact G.
  - intros v Iv. destruct Cl as (u & Nu & H). apply (reads_scaled _ _ _ _ _ (length_nz X I)) with (2 := H).
    refine (same_length _ _ _ _ _ Iv Nu). reflexivity.
Qed.
End Hdf5.

(** ** The energy of a magnetic moment in a field *)
Theorem field_size (E : @energy_obj R) H so : e_field E = Some H ->
  (Rabs (zeeman mu_inside E so - meV_per_tesla * zeeman_sum H (e_g E) so)
   <= / 1000000000 * Rabs (meV_per_tesla * zeeman_sum H (e_g E) so))%R.
Proof.
  intros Ef. unfold zeeman. rewrite Ef. set (z := zeeman_sum H (e_g E) so). cbn [fmul R_Scalar].
  replace (mu_inside * z - meV_per_tesla * z)%R with ((mu_inside - meV_per_tesla) * z)%R by ring. rewrite !Rabs_mult.
  assert (B : (Rabs (mu_inside - meV_per_tesla) <= / 1000000000 * Rabs meV_per_tesla)%R).
  { assert (M : (Q2R (5788381805 # 100000000000) <= mu_inside <= Q2R (57883818065 # 1000000000000))%R).
    { unfold mu_inside. split; apply Qle_Rle; vm_compute; discriminate. }
    unfold Q2R in M. cbn [Qnum Qden] in M. unfold meV_per_tesla. rewrite (Rabs_right (5788381806 / 100000000000)) by lra.
    apply Rabs_le. lra. }
  pose proof (Rabs_pos z) as Pz. rewrite <- Rmult_assoc. apply Rmult_le_compat_r; assumption.
Qed.

(** ** The witness of the other properties has these constants *)
From Verif.Base Require Import QcLit.
From Verif.Proofs Require Import TextWitness TextSane.
Lemma QX_imports : imports QX.
Proof. split; apply Qc_is_canon; vm_compute; reflexivity. Qed.
Lemma text_units_case : text_unit "On-site Kelvin" "kelvin" "milli-electron-volt" /\ text_unit "On-site" "milli-electron-volt" "milli-electron-volt"
  /\ text_unit "Cell BOHR" "bohr" "angstrom".
Proof.
  split; [|split].
  - right. exists "On-site", "Kelvin", "k"%char, "elvin". repeat split. exists "elvin". reflexivity.
  - left. exists "On-site". split; reflexivity.
  - right. exists "Cell", "BOHR", "b"%char, "ohr". repeat split. exists "ohr". reflexivity.
Qed.
(** A value which is off by a factor of a millionth is not near. *)
Lemma near_case : near (qq 8617333262 100000000) (Q2Qc (8617333262 # 100000000000) * q 1000)%Qc
  /\ ~ near (qq 86173420 1000000) (Q2Qc (8617333262 # 100000000000) * q 1000)%Qc.
Proof. split; [vm_compute; discriminate|]. intro K. vm_compute in K. apply K. reflexivity. Qed.
