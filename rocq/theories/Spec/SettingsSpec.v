(** What reading a setting should give: the last value assigned to it that it can hold, or what it was before. *)
From Coq Require Import List ZArith.
From Verif.Base Require Import Linear3.
From Verif.Model Require Import Settings.
Import ListNotations.

(** The last element of [l] for which [f] gives a value, else [d]. *)
Fixpoint last_given {A B} (f : A -> option B) (d : B) (l : list A) : B :=
  match l with
  | [] => d
  | a :: t => last_given f (match f a with Some b => b | None => d end) t
  end.

Section Spec.
Context {F : Type}.
Definition as_m (c : setting_call F) : option Z := match c with SetM x => x | _ => None end.
Definition as_c1 (c : setting_call F) : option F := match c with SetC1 x => x | _ => None end.
Definition as_c2 (c : setting_call F) : option F := match c with SetC2 x => x | _ => None end.
(** A field of three numbers, or no field. *)
Definition as_field (c : setting_call F) : option (option (V3 F)) :=
  match c with
  | SetField FNone => Some None
  | SetField (FArray [a; b; c]) => Some (Some (mkV a b c))
  | _ => None
  end.
Definition as_g (c : setting_call F) : option (list F) := match c with SetG l => Some l | _ => None end.
Definition as_spins (c : setting_call F) : option (list F) := match c with SetSpins l => Some l | _ => None end.
(** The calls whose argument the setting can hold. *)
Definition acceptable (c : setting_call F) : Prop :=
  as_m c <> None \/ as_c1 c <> None \/ as_c2 c <> None \/ as_field c <> None.
End Spec.
