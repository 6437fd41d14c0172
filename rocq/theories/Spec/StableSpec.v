(** Vocabulary for C79: classical stability of a magnetic state. *)
From Coq Require Import List Bool ZArith Reals.
From Verif.Base Require Import Scalar ScalarR Linear3 PyDict.
From Verif.Model Require Import MatrixParam Hamiltonian EnergyInit Energy.
From Verif.Spec Require Import HamSpec EnergySpec DispersionSpec.
Local Open Scope R_scope.

(** Every cell in the same state. *)
Definition uniform (d : atom -> V3 R) : @config R := fun a _ => d a.
Definition directions (w : @world R) (s : @config R) : Prop := forall a r, carries w a -> dot (s a r) (s a r) = 1.
Definition within (w : @world R) (eps : R) (s s0 : @config R) : Prop :=
  forall a r, carries w a -> dot (vsub (s a r) (s0 a r)) (vsub (s a r) (s0 a r)) <= eps * eps.

(** In every supercell no periodic arrangement of directions near [s0] has a lower energy. *)
Definition classically_stable (w : @world R) (s0 : @config R) : Prop :=
  forall n1 n2 n3, (0 < n1)%nat -> (0 < n2)%nat -> (0 < n3)%nat -> exists eps, 0 < eps /\
    forall s e e0, periodic (n1, n2, n3) s -> directions w s -> within w eps s s0 ->
      energy w (n1, n2, n3) s = Some e -> energy w (n1, n2, n3) s0 = Some e0 -> e0 <= e.

(** The direction of a spin vector, when there is one. *)
Definition pointing (sv : atom -> option (V3 R)) (a : atom) : V3 R := match sv a with Some s => direction_of s | None => vzero end.
