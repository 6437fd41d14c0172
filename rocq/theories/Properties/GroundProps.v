(** C52: the cone axis. Vocabulary: Spec/GroundSpec.v; code: Model/GroundState.v. *)
From Coq Require Import List Reals.
From Verif.Base Require Import Linear3.
From Verif.Model Require Import Hamiltonian GroundState.
From Verif.Spec Require Import GroundSpec.
From Verif.Proofs Require Import GroundProofs.
Import ListNotations.
Local Open Scope R_scope.

(** An assignment succeeds exactly for three numbers of which one is larger than 1e-8 in size. *)
Theorem C52_accepts : forall g x,
  (exists a b c, x = Array1 [a; b; c] /\ sizable (mkV a b c)) <-> snd (set_cone_axis g x) = Ret tt.
Proof. exact cone_total. Qed.
Print Assumptions C52_accepts.

Theorem C52_unit : forall g x g', set_cone_axis g x = (g', Ret tt) ->
  exists a b c n, x = Array1 [a; b; c] /\ sizable (mkV a b c)
    /\ g' = mkG (g_spiral g) (Some n) /\ unit_vector n /\ same_direction (mkV a b c) n.
Proof. exact cone_success. Qed.
Print Assumptions C52_unit.

Example C52_unit_case : sizable (mkV 3 0 4)
  /\ set_cone_axis new_ground (Array1 [3; 0; 4]) = (mkG None (Some (mkV (3/5) 0 (4/5))), Ret tt).
Proof. exact cone_case. Qed.

Theorem C52_rejected : forall g x g' e, set_cone_axis g x = (g', Raise e) ->
  g' = g /\ e = ValueError /\ ~ exists a b c, x = Array1 [a; b; c] /\ sizable (mkV a b c).
Proof. exact cone_rejected. Qed.
Print Assumptions C52_rejected.

Example C52_rejected_case :
  set_cone_axis (mkG None (Some (mkV 0 0 1))) (Array1 [0; 0; 0]) = (mkG None (Some (mkV 0 0 1)), Raise ValueError)
  /\ set_cone_axis (mkG None (Some (mkV 0 0 1))) (Array1 [1; 2]) = (mkG None (Some (mkV 0 0 1)), Raise ValueError).
Proof. exact cone_rejected_case. Qed.

(** The spiral vector is stored as given, or nothing changes. *)
Theorem C52_spiral : forall g x, match x with
  | Array1 [a; b; c] => set_spiral_vector g x = (mkG (Some (mkV a b c)) (g_cone g), Ret tt)
  | _ => set_spiral_vector g x = (g, Raise ValueError) end.
Proof. exact spiral_spec. Qed.
Print Assumptions C52_spiral.

(** After any assignments, failed or not, the cone axis is missing or a unit vector. *)
Theorem C52_always : forall l n, g_cone (assigns l) = Some n -> unit_vector n.
Proof. exact cone_always. Qed.
Print Assumptions C52_always.
