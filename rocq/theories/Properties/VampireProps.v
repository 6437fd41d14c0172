(** Theorems for C49 and C61: the export to Vampire. *)
From Coq Require Import List Bool ZArith QArith Qcanon String Permutation.
From Verif.Base Require Import Scalar QcLit Linear3 PyDict.
From Verif.Model Require Import MatrixParam Hamiltonian History Vampire.
From Verif.Spec Require Import ParameterSpec HamSpec HistorySpec NotationSpec VampireSpec.
From Verif.Proofs Require Import HamWitness VampireProofs VampireWitness.
Import ListNotations.
Local Open Scope fld_scope.

(** ** C49. Full claim: [dump_ucf ... w = (w', o) -> restored w w' dc sn ef of_] for every outcome [o], every mask. *)
Theorem C49_ucf_partial : forall (F : Type) (SF : Scalar F) e order, (forall l, Permutation (order l) l) -> forall can_write
  (w w' : @world F) dc sn ef of_ filename anisotropic dmi custom materials u,
  convertible w dc sn ef of_ -> harmless custom ->
  dump_ucf e order can_write filename anisotropic dmi custom materials w = (w', Ret u) -> restored w w' dc sn ef of_.
Proof. exact @ucf_kept. Qed.
Print Assumptions C49_ucf_partial.

Theorem C49_vampire_partial : forall (F : Type) (SF : Scalar F) e order, (forall l, Permutation (order l) l) -> forall can_write
  (w w' : @world F) dc sn ef of_ seedname anisotropic dmi custom materials,
  convertible w dc sn ef of_ -> harmless custom ->
  dump_vampire e order can_write seedname anisotropic dmi custom materials w = (w', Ret tt) -> restored w w' dc sn ef of_.
Proof. exact @vampire_kept. Qed.
Print Assumptions C49_vampire_partial.

(** The call succeeds when there are enough materials, the mask does not raise and the file can be opened. *)
Theorem C49_succeeds : forall (F : Type) (SF : Scalar F) e order, (forall l, Permutation (order l) l) -> forall can_write
  (w : @world F) dc sn ef of_ filename anisotropic dmi custom materials atoms,
  convertible w dc sn ef of_ -> harmless custom ->
  magnetic_atoms order w = (w, Ret atoms) -> enough materials (List.length atoms) ->
  (forall f, custom = Some f -> forall m, exists x, snd (f m) = Ret x) -> (forall n, filename = Some n -> can_write n = true) ->
  exists w' u, dump_ucf e order can_write filename anisotropic dmi custom materials w = (w', Ret u).
Proof. exact @ucf_succeeds. Qed.
Print Assumptions C49_succeeds.

(** What a failing call leaves behind: everything restored when only the file could not be opened, otherwise the
    Hamiltonian converted to the notation of Vampire. *)
Theorem C49_failure : forall (F : Type) (SF : Scalar F) e order, (forall l, Permutation (order l) l) -> forall can_write
  (w w' : @world F) dc sn ef of_ filename anisotropic dmi custom materials x,
  convertible w dc sn ef of_ -> harmless custom ->
  dump_ucf e order can_write filename anisotropic dmi custom materials w = (w', Raise x) ->
  (x = OSError /\ restored w w' dc sn ef of_) \/
  (in_vampire_notation w' /\ exists w1, set_notation (NStr "vampire") w = (w1, Ret tt) /\ same_parameters w1 w' /\
     ((x = IndexError /\ exists atoms, magnetic_atoms order w = (w, Ret atoms) /\ ~ enough materials (List.length atoms)) \/
      (exists f m, custom = Some f /\ snd (f m) = Raise x))).
Proof. exact @ucf_failed. Qed.
Print Assumptions C49_failure.

Theorem C49_vampire_failure : forall (F : Type) (SF : Scalar F) e order, (forall l, Permutation (order l) l) -> forall can_write
  (w w' : @world F) dc sn ef of_ seedname anisotropic dmi custom materials x,
  convertible w dc sn ef of_ -> harmless custom ->
  dump_vampire e order can_write seedname anisotropic dmi custom materials w = (w', Raise x) ->
  restored w w' dc sn ef of_ \/ in_vampire_notation w'.
Proof. exact @vampire_failed. Qed.
Print Assumptions C49_vampire_failure.

Theorem C49_unset_notation : forall (F : Type) (SF : Scalar F) e order can_write (w : @world F) filename anisotropic dmi custom materials,
  h_dc (w_ham w) = None \/ h_sn (w_ham w) = None \/ h_ef (w_ham w) = None \/ h_of (w_ham w) = None ->
  dump_ucf e order can_write filename anisotropic dmi custom materials w = (w, Raise NotationError).
Proof. exact @ucf_unset. Qed.
Print Assumptions C49_unset_notation.

Theorem C49_mat : forall (F : Type) (order : list atom -> list atom) can_write filename materials (w : @world F),
  fst (dump_mat order can_write filename materials w) = w.
Proof. exact @mat_still. Qed.
Print Assumptions C49_mat.

Theorem C49_short_materials_refuted : exists (w w' : @world Qc) dc sn ef of_ k,
  reachable w /\ convertible w dc sn ef of_ /\
  dump_ucf milli (fun l => l) always None true true None (Some [0%Z]) w = (w', Raise IndexError) /\
  ~ notation_is w' dc sn ef of_ /\ bond_value w' k <> bond_value w k.
Proof. exact short_refuted. Qed.
Print Assumptions C49_short_materials_refuted.

Theorem C49_writing_mask_refuted : exists (w w' : @world Qc) dc sn ef of_ u k,
  reachable w /\ convertible w dc sn ef of_ /\
  dump_ucf milli (fun l => l) always None true true (Some zeroing) None w = (w', Ret u) /\ bond_value w' k <> bond_value w k.
Proof. exact mask_refuted. Qed.
Print Assumptions C49_writing_mask_refuted.

Example C49_case : convertible w_rich true false (qq 1 2) (q 1) /\ bonds w_rich <> [] /\ sites w_rich <> [] /\
  harmless (Some (fun m : M3 Qc => (m, Ret (mscale (q 2) m)))).
Proof. split; [exact rich_convertible|]. repeat split; discriminate. Qed.

(** ** C61 *)
(** Every atom, every on-site term and every bond of the Hamiltonian in the notation of Vampire has its line. *)
Theorem C61_lines : forall (F : Type) (SF : Scalar F) e order, (forall l, Permutation (order l) l) -> forall can_write
  (w w' : @world F) dc sn ef of_ filename anisotropic dmi custom materials u,
  convertible w dc sn ef of_ -> harmless custom ->
  dump_ucf e order can_write filename anisotropic dmi custom materials w = (w', Ret u) ->
  exists w1 atoms, set_notation (NStr "vampire") w = (w1, Ret tt) /\ magnetic_atoms order w1 = (w1, Ret atoms) /\
    states e anisotropic dmi custom w1 (mats_of materials (List.length atoms)) atoms u.
Proof. exact @ucf_content. Qed.
Print Assumptions C61_lines.

(** Full claim: [vampire_energy u L s = Some (e * (X + Y))]. The on-site energy reaches the file with the factor 1/4. *)
Theorem C61_energy_partial : forall (F : Type) (SF : Scalar F) e order, (forall l, Permutation (order l) l) -> forall can_write
  (w w' : @world F) dc sn ef of_ filename materials u L s X Y,
  convertible w dc sn ef of_ -> periodic L s ->
  dump_ucf e order can_write filename true true None materials w = (w', Ret u) ->
  exchange_energy w L s = Some X -> onsite_energy w L s = Some Y ->
  vampire_energy u L s = Some (e * (X + Y / ((1 + 1) * (1 + 1)))).
Proof. exact @ucf_energy. Qed.
Print Assumptions C61_energy_partial.

Theorem C61_onsite_refuted : exists (w w' : @world Qc) dc sn ef of_ u L s E E',
  reachable w /\ convertible w dc sn ef of_ /\ periodic L s /\
  dump_ucf (q 1) (fun l => l) always None true true None None w = (w', Ret u) /\
  energy w L s = Some E /\ vampire_energy u L s = Some E' /\ E' <> E.
Proof. exact onsite_refuted. Qed.
Print Assumptions C61_onsite_refuted.

Example C61_case : convertible w_rich true false (qq 1 2) (q 1) /\ periodic cell1 up /\
  (exists w' u, dump_ucf milli (fun l => l) always None true true None None w_rich = (w', Ret u) /\ List.length (u_rows u) = 5%nat) /\
  (exists X, exchange_energy w_rich cell1 up = Some X) /\ (exists Y, onsite_energy w_rich cell1 up = Some Y).
Proof.
  split; [exact rich_convertible|]. split; [exact (up_periodic cell1)|]. repeat split; try (eexists; vm_compute; reflexivity).
  eexists _, _. split; [apply outcome_pair; vm_compute; reflexivity|]. reflexivity.
Qed.
