(** Vocabulary for the .mat file of the export to Vampire (C86). *)
From Coq Require Import List ZArith Sorted.
From Verif.Model Require Import Hamiltonian Vampire.
From Verif.Spec Require Import HamSpec.
Import ListNotations.

Section Spec.
Context {F : Type}.

(** [idx] lists, in order, the atoms that are the first of their material among [n] atoms. *)
Definition first_atoms (mats : list Z) (n : nat) (idx : list nat) : Prop :=
  StronglySorted lt idx /\
  forall i, In i idx <-> (i < n)%nat /\ forall j, (j < i)%nat -> nth_error mats j <> nth_error mats i.
(** The description of the material of atom [i]: its number counted from one, the name and the spin of the atom. *)
Definition describes (w : @world F) (mats : list Z) (atoms : list atom) (i : nat) (r : @mat_row F) : Prop :=
  exists a m s, nth_error atoms i = Some a /\ nth_error mats i = Some m /\ spin_of w a = Some s /\
    t_number r = (m + 1)%Z /\ t_name r = a_name a /\ t_spin r = s.
(** The number in the line [material:num-materials]. *)
Definition declared (materials : option (list Z)) (n : nat) (N : Z) : Prop :=
  match materials with
  | None => N = Z.of_nat n
  | Some l => exists m, In m l /\ (forall x, In x l -> (x <= m)%Z) /\ N = (m + 1)%Z
  end.
(** Materials numbered without gaps from zero. *)
Definition gapless (l : list Z) : Prop :=
  (forall x, In x l -> (0 <= x)%Z) /\ forall x y, In y l -> (0 <= x <= y)%Z -> In x l.
End Spec.
