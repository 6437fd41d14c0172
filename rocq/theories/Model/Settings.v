(** Model of the settings of [Energy] (src/magnopy/spinham/energy.py:575-595, 601-795).

    An argument is what the conversion the setter applies makes of it: [int], [float] or [np.array]; [None] and
    [FNotArray] stand for a conversion that raises. Simplification: numbers are field elements. *)
From Coq Require Import List ZArith.
From Verif.Base Require Import Scalar Linear3.
From Verif.Model Require Import MatrixParam Hamiltonian.
Import ListNotations.

Section Settings.
Context {F : Type} {SF : Scalar F}.

Record settings := mkSet {
  z_m : Z; z_c1 : F; z_c2 : F; z_field : option (V3 F); z_g : list F; z_spins : list F }.

(** energy.py:556-557, 576-592: what the constructor leaves; [c1], [c2] are the numbers 1e-4 and 0.9. *)
Definition initial (c1 c2 : F) (g spins : list F) : settings := mkSet 10 c1 c2 None g spins.

(** The argument of the field setter: [None], not array-like, an array of one dimension, of another one. *)
Inductive field_arg := FNone | FNotArray | FArray (l : list F) | FOther.

Inductive setting_call :=
| SetM (x : option Z) | SetC1 (x : option F) | SetC2 (x : option F) | SetField (a : field_arg)
| SetG (l : list F) | SetSpins (l : list F).

(** 614-623, 646-655, 678-687, 705-722; 739-757 and 771-790 begin with [isinstance(Iterable)], which lacks its second
    argument: TypeError. *)
Definition set_setting (s : settings) (c : setting_call) : settings * out unit :=
  match c with
  | SetM (Some x) => (mkSet x (z_c1 s) (z_c2 s) (z_field s) (z_g s) (z_spins s), Ret tt)
  | SetC1 (Some x) => (mkSet (z_m s) x (z_c2 s) (z_field s) (z_g s) (z_spins s), Ret tt)
  | SetC2 (Some x) => (mkSet (z_m s) (z_c1 s) x (z_field s) (z_g s) (z_spins s), Ret tt)
  | SetM None | SetC1 None | SetC2 None => (s, Raise ValueError)
  | SetField FNone => (mkSet (z_m s) (z_c1 s) (z_c2 s) None (z_g s) (z_spins s), Ret tt)
  | SetField (FArray l) =>
      match array3 l with
      | Some v => (mkSet (z_m s) (z_c1 s) (z_c2 s) (Some v) (z_g s) (z_spins s), Ret tt)
      | None => (s, Raise ValueError)
      end
  | SetField _ => (s, Raise ValueError)
  | SetG _ | SetSpins _ => (s, Raise TypeError)
  end.

(** The getters, 602-612, 626-644, 658-676 (which returns [_wolfe_c1]), 694-703, 728-737, 760-769. *)
Definition get_m (s : settings) : Z := z_m s.
Definition get_c1 (s : settings) : F := z_c1 s.
Definition get_c2 (s : settings) : F := z_c1 s.
Definition get_field (s : settings) : option (V3 F) := z_field s.
Definition get_g (s : settings) : list F := z_g s.
Definition get_spins (s : settings) : list F := z_spins s.
(** What the line search uses, energy.py:1740, 1742. *)
Definition used_c1 (s : settings) : F := z_c1 s.
Definition used_c2 (s : settings) : F := z_c2 s.

(** Assignments one after the other; exceptions are caught by the caller. *)
Definition settings_after (s : settings) (l : list setting_call) : settings := fold_left (fun s c => fst (set_setting s c)) l s.

End Settings.
Arguments settings F : clear implicits.
Arguments setting_call F : clear implicits.
Arguments field_arg F : clear implicits.
