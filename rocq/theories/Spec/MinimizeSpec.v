(** What the results of a minimization should be. *)
From Coq Require Import List ZArith.
From Verif.Model Require Import Hamiltonian Minimize.
Import ListNotations.

Section Spec.
Context {F : Type}.
Variables ferro spiral : nat -> out F.
Variable antiferro : nat -> Z * Z * Z -> out F.

(** The runs for the types of the selection, in order, with their energies. *)
Inductive ran : nat -> list gs -> list (gs * list F) -> Prop :=
| Ran_nil pos : ran pos [] []
| Ran_ferro pos t e r : ferro pos = Ret e -> ran (S pos) t r -> ran pos (Ferro :: t) ((Ferro, [e]) :: r)
| Ran_spiral pos t e r : spiral pos = Ret e -> ran (S pos) t r -> ran pos (Spiral :: t) ((Spiral, [e]) :: r)
| Ran_antiferro pos t es r : Forall2 (fun q e => antiferro pos q = Ret e) (filter (fun q => negb (is_gamma q)) q_points) es ->
    ran (S pos) t r -> ran pos (Antiferro :: t) ((Antiferro, es) :: r).

(** The summary of such runs. *)
Fixpoint numbered (k : nat) (es : list F) : list line :=
  match es with [] => [] | e :: t => LAnti k e :: numbered (S k) t end.
Definition lines_for (r : gs * list F) : list line :=
  match r with
  | (Ferro, es) => map LFerro es
  | (Spiral, es) => map LSpiral es
  | (Antiferro, es) => LAntiHead :: numbered 1 es
  end.
Definition summary (rs : list (gs * list F)) : list line := flat_map lines_for rs.
End Spec.
