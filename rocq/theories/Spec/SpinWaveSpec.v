(** Vocabulary for the magnon matrix as the second-order term of the classical energy (C68). *)
From Coq Require Import List Bool ZArith Reals.
From Coquelicot Require Import Complex.
From Verif.Base Require Import Scalar ScalarR Linear3 PyDict.
From Verif.Model Require Import MatrixParam Hamiltonian EnergyInit Energy.
From Verif.Spec Require Import HamSpec DispersionSpec.
Local Open Scope R_scope.

(** Deviation of a spin in a wave of amplitudes [x] and [y] at the phase [phi]: x e^(i phi) + conj (y e^(i phi)). *)
Definition deviation (x y : C) (phi : R) : C := Cplus (Cmult x (phase phi)) (Cconj (Cmult y (phase phi))).

(** The unit vector [e3] of a spin of length [S] tilted by the deviation [t z]: its components along [e1] and [e2] are the
    real and imaginary part of [t z sqrt (2/S)], the component along [e3] makes up for the length. *)
Definition tilted (S : R) (e1 e2 e3 : V3 R) (z : C) (t : R) : V3 R :=
  vadd (vscale (sqrt (1 - 2 * (fst z * fst z + snd z * snd z) / S * (t * t))) e3)
       (vscale (t * sqrt (2 / S)) (vadd (vscale (fst z) e1) (vscale (snd z) e2))).

(** Where the atom [a] of the cell [r] is. *)
Definition place (cell : M3 R) (pos : atom -> V3 R) (a : atom) (r : cell3) : V3 R :=
  let '(i, j, n) := r in vadd (vmat (mkV (IZR i) (IZR j) (IZR n)) cell) (pos a).

(** A wave of wave vector [k], strength [t] and phase [phi] over the state in which every spin points along its [e3]. *)
Definition spin_wave cell pos (k : V3 R) (S : atom -> R) (e1 e2 e3 : atom -> V3 R) (x y : atom -> C) (t phi : R) : @config R :=
  fun a r => tilted (S a) (e1 a) (e2 a) (e3 a) (deviation (x a) (y a) (phi + dot k (place cell pos a r))) t.

(** [f t = a0 + a1 t + a2 t^2 + o(t^2)] at 0. *)
Definition expands (f : R -> R) (a0 a1 a2 : R) : Prop :=
  forall eps, 0 < eps -> exists delta, 0 < delta /\
    forall t, Rabs t < delta -> Rabs (f t - (a0 + a1 * t + a2 * (t * t))) <= eps * (t * t).
