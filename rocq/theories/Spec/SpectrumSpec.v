(** Vocabulary for C75: the spectrum of a boson Hamiltonian. *)
From mathcomp Require Import all_ssreflect all_fingroup all_algebra.
Set Implicit Arguments.
Unset Strict Implicit.
Unset Printing Implicit Defensive.
Import GRing.Theory Num.Theory.
Local Open Scope ring_scope.

Section Spec.
Variable C : numClosedFieldType.
(** Entry [i] of the energies with the sign of its operator: + for the first N, - for the rest. *)
Definition signed N (E : 'rV[C]_(N + N)) (i : 'I_(N + N)) : C := if (i < N)%N then E 0 i else - E 0 i.
(** The operators a_i and a_i^dagger exchanged. *)
Definition exchanged N (i : 'I_(N + N)) : 'I_(N + N) := match split i with inl a => rshift N a | inr b => lshift N b end.
(** The matrix of the same bilinear form with a and a^dagger exchanged: what h(-k) is to h(k). *)
Definition particle_hole N (D : 'M[C]_(N + N)) : 'M[C]_(N + N) := \matrix_(i, j) (D (exchanged i) (exchanged j))^*.
End Spec.
