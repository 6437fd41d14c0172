(** A file in Bohr, Rydberg and Kelvin, with an absolute spiral vector and a relative cone axis. *)
From Coq Require Import String List Bool ZArith QArith Qcanon.
From Verif.Base Require Import Scalar QcLit Linear3 PyDict PyString.
From Verif.Model Require Import Hamiltonian TxtRead Hdf5.
From Verif.Spec Require Import HamSpec TxtFormat Hdf5Spec AtomsSpec Hdf5Units.
From Verif.Proofs Require Import HamWitness TextWitness TextSane AtomsCases Hdf5Witness Hdf5UnitsProofs Hdf5Group.
Import ListNotations.
Local Open Scope string_scope.

Definition ds (d : @data Qc) : @node Qc := Dset d [].
Definition v3 (a b c : Qc) : @data Qc := DVec [a; b; c].
Definition u_cell (units : string) : @node Qc :=
  Grp [("units", units)] [("a1", ds (v3 (q 2) f0 f0)); ("a2", ds (v3 f0 (q 3) f0)); ("a3", ds (v3 f0 f0 (q 4)))].
Definition u_atom (name : string) (charge : option Qc) : @node Qc :=
  Grp [] (("name", ds (DStr name)) :: ("position", ds (v3 f0 f0 (qq 1 2))) :: ("spin", ds (v3 f0 f0 (q 1))) :: ("g-factor", ds (DNum (q 2)))
    :: match charge with Some x => [("charge", ds (DNum x))] | None => [] end).
Definition u_bond (a b : string) (i : Z) (m : M3 Qc) : @node Qc :=
  Grp [] [("atom-1", ds (DStr a)); ("atom-2", ds (DStr b)); ("ijk", ds (DInts [i; 0; 0]%Z)); ("matrix", ds (DMat m))].
Definition u_site (a : string) (m : M3 Qc) : @node Qc := Grp [] [("atom", ds (DStr a)); ("matrix", ds (DMat m))].
Definition mA : M3 Qc := qm 1 2 3 4 5 6 7 8 9.
Definition mB : M3 Qc := qm 2 0 1 0 3 0 1 0 4.
Definition u_root (cell exch ons : string) : @node Qc := Grp [("type", "SpinHamiltonian")]
  [("atoms", Grp [] [("1", u_atom "Fe" None); ("2", u_atom "Cr" (Some (q 3)))]);
   ("cell", u_cell cell);
   ("cone-axis", Dset (v3 f0 f0 (qq 1 2)) [("units", "RELATIVE")]);
   ("exchange", Grp [("units", exch)] [("1", u_bond "Fe" "Cr" 1 mA); ("2", u_bond "Fe" "Fe" 2 mB)]);
   ("notation", Grp [] [("double-counting", ds (DInt 1)); ("exchange-factor", ds (DNum (qq 1 2))); ("on-site-factor", ds (DNum (q 1))); ("spin-normalized", ds (DInt 0))]);
   ("on-site", Grp [("units", ons)] [("1", u_site "Cr" mB)]);
   ("spiral-vector", Dset (v3 (q 1) f0 f0) [("units", "Absolute")])].
Definition u_contents (cell exch ons : string) : @contents Qc :=
  mkContents cell (qm 2 0 0 0 3 0 0 0 4) [mkAI "Fe" (mkV f0 f0 (qq 1 2)) (mkV f0 f0 (q 1)) (q 2) None; mkAI "Cr" (mkV f0 f0 (qq 1 2)) (mkV f0 f0 (q 1)) (q 2) (Some (q 3))]
    (Some false) (Some true) (Some (qq 1 2)) (Some (q 1))
    (Some (exch, [mkBI "Fe" "Cr" (1, 0, 0)%Z mA; mkBI "Fe" "Fe" (2, 0, 0)%Z mB])) (Some (ons, [("Cr", mB)])) (Some ("Absolute", mkV (q 1) f0 f0)) (Some ("RELATIVE", mkV f0 f0 (qq 1 2))).
Definition u_file (cell exch ons : string) : @node Qc := Grp [] [("model", u_root cell exch ons)].

Ltac mem := eexists; eexists; split; reflexivity.
Ltac wm := eexists; split; [mem|].
Ltac leaf := eexists; reflexivity.
Lemma u_atom_is name o : is_atom (u_atom name o) (mkAI name (mkV f0 f0 (qq 1 2)) (mkV f0 f0 (q 1)) (q 2) o).
Proof.
  split; [wm; leaf|]. split; [wm; leaf|]. split; [wm; leaf|]. split; [wm; leaf|]. cbn. destruct o; cbn; [wm; leaf|mem].
Qed.
Lemma u_bond_is a b i m : is_bond (u_bond a b i m) (mkBI a b (i, 0, 0)%Z m).
Proof. split; [wm; leaf|]. split; [wm; leaf|]. split; wm; leaf. Qed.
Lemma u_site_is a m : is_site (u_site a m) (a, m).
Proof. split; wm; leaf. Qed.
Lemma u_describes cell exch ons : describes (u_root cell exch ons) (u_contents cell exch ons).
Proof.
  split; [wm; split; [reflexivity|]; split; [wm; leaf|]; split; wm; leaf|].
  split; [wm; eexists; eexists; split; [reflexivity|]; constructor; [exact (u_atom_is "Fe" None)|constructor; [exact (u_atom_is "Cr" (Some (q 3)))|constructor]]|].
  split; [wm; split; [reflexivity|]; eexists; eexists; split; [reflexivity|]; constructor; [apply u_bond_is|constructor; [apply u_bond_is|constructor]]|].
  split; [wm; split; [reflexivity|]; eexists; eexists; split; [reflexivity|]; constructor; [apply u_site_is|constructor]|].
  split; [wm; split; [reflexivity|leaf]|]. split; [wm; split; [reflexivity|leaf]|].
  eexists. split; [mem|]. split; [eexists; split; [reflexivity|wm; eexists; eexists; split; [reflexivity|split; congruence]]|].
  split; [split|]; (eexists; split; [reflexivity|wm]); [eexists; eexists; split; [reflexivity|split; [discriminate|reflexivity]]|leaf|leaf].
Qed.
Lemma u_names : names_told_apart (u_contents "Bohr" "Rydberg" "KELVIN").
Proof. split; [distinct|]. repeat constructor; discriminate. Qed.
Lemma u_loads : exists s, load QX (Some ["model"]) (u_file "Bohr" "Rydberg" "KELVIN") = Ret s /\ bond_value (sh_ham s) (mkB (mkAtom "Cr" 2) (mkAtom "Fe" 1) (-1, 0, 0)%Z) <> None.
Proof.
  pose (o := load QX (Some ["model"]) (u_file "Bohr" "Rydberg" "KELVIN")).
  exists (match o with Ret s => s | _ => s_rich end). split; [vm_compute; reflexivity|vm_compute; discriminate].
Qed.
Lemma cell_fixed (c k : Qc) (m r : M3 Qc) : c <> f0 -> mscale c m = mscale k r -> m = mscale (fdiv k c) r.
Proof.
  intros N E. transitivity (mscale (fdiv f1 c) (mscale c m)).
  - rewrite scale_scale. replace (fmul (fdiv f1 c) c) with (@f1 Qc _).
    + destruct m as [a b d e g h i j l]. lin3. f_equal; symmetry; apply Qcmult_1_r.
    + cbn. unfold Qcdiv. rewrite Qcmult_1_l. symmetry. apply Qcmult_inv_l, N.
  - rewrite E, scale_scale. f_equal. cbn. unfold Qcdiv. rewrite Qcmult_1_l. apply Qcmult_comm.
Qed.
Lemma bohr_named u v : str_lower u = "bohr" -> length_named QX u v -> v = c_bohr_radius QX.
Proof. intros E [[_ K]|[(t & K) _]]; [exact K|]. rewrite E in K. discriminate K. Qed.
Lemma u_accepted : let c := u_contents "Bohr" "Rydberg" "KELVIN" in
  names_told_apart c /\ names_known c /\ units_known QX c /\ proper_axis QX c /\ proper_spiral QX c.
Proof.
  cbn zeta. split; [exact u_names|]. split.
  { split; intros u l E; injection E as <- <-; repeat apply Forall_cons; try apply Forall_nil; cbn; auto. }
  split.
  { split; [exists (c_bohr_radius QX); left; split; [exists ""; reflexivity|reflexivity]|].
    split; [intros u l E; injection E as <- <-; exists (c_rydberg_energy QX); left; reflexivity|].
    split; [intros u l E; injection E as <- <-; exists (c_k_boltzmann QX); right; right; left; reflexivity|].
    split; intros u l E; injection E as <- <-; [right|left]; reflexivity. }
  assert (N : c_angstrom QX <> f0) by qne.
  split.
  - intros u v E. injection E as <- <-. split; [intros E; discriminate E|]. intros _ cell k K Ec. apply cell_fixed in Ec; [|exact N].
    cbn [co_length co_rows u_contents] in *. apply bohr_named in K; [|reflexivity]. subst k cell. vm_compute. reflexivity.
  - intros u v E. injection E as <- <-. intros _ cell k K Ec. apply cell_fixed in Ec; [|exact N].
    cbn [co_length co_rows u_contents] in *. apply bohr_named in K; [|reflexivity]. subst k cell.
    set (r := x_reciprocal QX _). assert (Er : exists x, r = Some x) by (unfold r; vm_compute; eauto). destruct Er as [x Er]. exists x.
    assert (Eq : x_abs_to_rel QX x (mkV (q 1) f0 f0) <> None).
    { unfold r in Er. vm_compute in Er. injection Er as <-. vm_compute. discriminate. }
    destruct (x_abs_to_rel QX x (mkV (q 1) f0 f0)) as [y|] eqn:Ey; [|congruence]. exists y. split; [exact Er|exact Ey].
Qed.
Lemma u_unknown : ~ known_length QX "nm" /\ ~ known_energy QX "Hartree".
Proof.
  split.
  - intros (v & [[(t & E) _]|[(t & E) _]]); discriminate E.
  - intros (v & E). cbn in E. intuition discriminate.
Qed.
