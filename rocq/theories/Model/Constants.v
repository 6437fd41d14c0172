(** Constants of units/si.py and units/inside.py. A literal of the source is the decimal fraction it is written as; its
    rounding to a double is outside the model. *)
From Coq Require Import QArith Qcanon ZArith Reals Qreals.
From Verif.Base Require Import Scalar.
From Verif.Model Require Import TxtRead.

(** [m * 10 ^ e] for a literal written with mantissa [m] (its digits without the point) and exponent [e] *)
Definition literal (m e : Z) : Q := (inject_Z m * Qpower 10 e)%Q.

(** units/si.py:27-47 *)
Definition ANGSTROM : Q := literal 1 (-10).                        (* 1e-10 *)
Definition ELECTRON_VOLT : Q := literal 1602176634 (-28).          (* 1.602176634e-19 *)
Definition K_BOLTZMANN : Q := literal 1380649 (-29).               (* 1.380649e-23 *)
Definition BOHR_RADIUS : Q := literal 529177210903 (-22).          (* 5.29177210903e-11 *)
Definition BOHR_MAGNETON : Q := literal 92740100783 (-34).         (* 9.2740100783e-24 *)
Definition PLANK_CONSTANT : Q := literal 662607015 (-42).          (* 6.62607015e-34 *)
Definition SPEED_OF_LIGHT : Q := literal 299792458 0.
Definition RYDBERG_CONSTANT : Q := literal 10973731568160 (-6).    (* 10973731.568160 *)
Definition RYDBERG_ENERGY : Q := (PLANK_CONSTANT * SPEED_OF_LIGHT * RYDBERG_CONSTANT)%Q.

(** units/inside.py:49-50: [LENGTH = si.ANGSTROM], [ENERGY = 1e-3 * si.ELECTRON_VOLT] *)
Definition INSIDE_LENGTH : Q := ANGSTROM.
Definition INSIDE_ENERGY : Q := (literal 1 (-3) * ELECTRON_VOLT)%Q.

(** [from magnopy.units.si import ...], io/txt/internal.py:31-37 and io/hdf5/internal.py:27-33: the loaders use these. *)
Record imports (X : externals Qc) : Prop := {
  imp_electron_volt : c_electron_volt X = Q2Qc ELECTRON_VOLT;
  imp_angstrom : c_angstrom X = Q2Qc ANGSTROM;
  imp_k_boltzmann : c_k_boltzmann X = Q2Qc K_BOLTZMANN;
  imp_bohr_radius : c_bohr_radius X = Q2Qc BOHR_RADIUS;
  imp_rydberg : c_rydberg_energy X = Q2Qc RYDBERG_ENERGY;
  imp_milli : c_milli X = Q2Qc (literal 1 (-3)) }.

(** [BOHR_MAGNETON /= ENERGY], spinham/energy.py:34 *)
Definition mu_inside : R := Q2R (BOHR_MAGNETON / INSIDE_ENERGY).
