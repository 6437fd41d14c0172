(** Colpa's routine returns positive numbers. *)
From Coq Require Import Reals Lra Lia.
From mathcomp Require Import all_ssreflect all_fingroup all_algebra complex.
From Coquelicot Require Import Complex.
From Verif.Base Require Import RealField.
From Verif.Model Require Import Colpa Solver Dispersion.
From Verif.Spec Require Import DispersionSpec ColpaSpec OmegaSpec.
From Verif.Proofs Require Import ColpaProofs SpectrumProofs OmegaProofs OmegaSolver.
Set Implicit Arguments.
Unset Strict Implicit.
Unset Printing Implicit Defensive.
Import GRing.Theory Num.Theory Order.TTheory.
Local Open Scope ring_scope.

Lemma solver_positive np N m E G : numpy_works np -> colpa_solver np N m = Some (E, G) -> List.Forall (fun z => snd z = R0 /\ Rlt R0 (fst z)) E.
Proof.
  move=> W. case: (outcome_cases N m W) => [[_ [E' [G' [Hs ->]]]]|[_ ->]] // [<- _].
  have [h1 [h2 [h3 _]]] := W N. have [P _] := colpa_energies h1 h2 h3 Hs. apply/List.Forall_forall => z. rewrite /as_list => /List.in_map_iff [i [<- _]].
  have := P i. rewrite -[E' 0 i]to_of => /mc_pos [-> ?]. by [].
Qed.
