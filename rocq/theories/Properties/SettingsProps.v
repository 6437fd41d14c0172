(** C62: settings of Energy. *)
From Coq Require Import List ZArith QArith Qcanon.
From Verif.Base Require Import Scalar Linear3.
From Verif.Model Require Import Hamiltonian Settings.
From Verif.Spec Require Import SettingsSpec.
From Verif.Proofs Require Import SettingsProofs.
Import ListNotations.

(** Whatever is assigned in whatever order: memory size, first Wolfe constant and field read back as the last value
    they accepted, and the line search uses the last accepted constants. *)
Theorem C62_read_partial {F : Type} {SF : Scalar F} (l : list (setting_call F)) (s : settings F) :
  get_m (settings_after s l) = last_given as_m (get_m s) l /\
  get_c1 (settings_after s l) = last_given as_c1 (get_c1 s) l /\
  get_field (settings_after s l) = last_given as_field (get_field s) l /\
  used_c1 (settings_after s l) = last_given as_c1 (used_c1 s) l /\
  used_c2 (settings_after s l) = last_given as_c2 (used_c2 s) l.
Proof. exact (settings_read l s). Qed.
Print Assumptions C62_read_partial.

(** A call is accepted or leaves everything as it was. *)
Theorem C62_all_or_nothing {F : Type} {SF : Scalar F} (s : settings F) (c : setting_call F) :
  (acceptable c -> snd (set_setting s c) = Ret tt) /\
  (~ acceptable c -> fst (set_setting s c) = s /\
     snd (set_setting s c) = match c with SetG _ | SetSpins _ => Raise TypeError | _ => Raise ValueError end).
Proof. exact (settings_outcome s c). Qed.
Print Assumptions C62_all_or_nothing.

(** g factors and spins cannot be assigned at all; the second constant reads as the first. *)
Theorem C62_frozen {F : Type} {SF : Scalar F} (l : list (setting_call F)) (s : settings F) :
  get_g (settings_after s l) = get_g s /\ get_spins (settings_after s l) = get_spins s /\
  get_c2 (settings_after s l) = get_c1 (settings_after s l).
Proof. exact (settings_frozen l s). Qed.
Print Assumptions C62_frozen.

Theorem C62_c2_refuted : exists (c : setting_call Qc) (x : Qc) (s : settings Qc),
  c = SetC2 (Some x) /\ snd (set_setting s c) = Ret tt /\ get_c2 (fst (set_setting s c)) <> x.
Proof. exact c2_set_refuted. Qed.
Print Assumptions C62_c2_refuted.

(** Not even the default reads back. *)
Theorem C62_c2_default_refuted : exists (l : list (setting_call Qc)),
  get_c2 (settings_after (initial (Q2Qc (1 # 10000)) (Q2Qc (9 # 10)) [] []) l) <> last_given as_c2 (Q2Qc (9 # 10)) l.
Proof. exact c2_refuted. Qed.
Print Assumptions C62_c2_default_refuted.

Theorem C62_spins_refuted : exists (c : setting_call Qc) (x : list Qc) (s : settings Qc),
  c = SetSpins x /\ List.length x = List.length (get_spins s) /\ get_spins (fst (set_setting s c)) <> x /\
  snd (set_setting s c) = Raise TypeError.
Proof. exact spins_set_refuted. Qed.
Print Assumptions C62_spins_refuted.

Theorem C62_g_refuted : exists (c : setting_call Qc) (x : list Qc) (s : settings Qc),
  c = SetG x /\ List.length x = List.length (get_spins s) /\ get_g (fst (set_setting s c)) <> x /\
  snd (set_setting s c) = Raise TypeError.
Proof. exact g_set_refuted. Qed.
Print Assumptions C62_g_refuted.

Example C62_example : let l := [SetM (Some 20%Z); SetField (FArray [Q2Qc 1; Q2Qc 2; Q2Qc 3]); SetM None;
    SetField (FArray [Q2Qc 1]); SetC1 (Some (Q2Qc (1 # 3)))] in
  let s := settings_after (initial (Q2Qc (1 # 10000)) (Q2Qc (9 # 10)) [Q2Qc 2] [Q2Qc 1]) l in
  get_m s = 20%Z /\ get_field s = Some (mkV (Q2Qc 1) (Q2Qc 2) (Q2Qc 3)) /\ get_c1 s = Q2Qc (1 # 3).
Proof. exact settings_example. Qed.
