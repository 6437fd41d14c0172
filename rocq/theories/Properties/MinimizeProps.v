(** Property theorems C64: the summary of the minimization script. *)
From Coq Require Import List ZArith.
From Verif.Model Require Import Hamiltonian Minimize.
From Verif.Spec Require Import MinimizeSpec.
From Verif.Proofs Require Import MinimizeProofs.
Import ListNotations.

(** Without the antiferromagnetic type the summary gives every energy, in the order of the selection. *)
Theorem C64_summary_partial : forall F (ferro spiral : nat -> out F) antiferro n sel rs, ~ In Antiferro sel ->
  ran ferro spiral antiferro 0 sel rs -> manager ferro spiral antiferro n sel = (summary rs, None).
Proof. exact @summary_no_antiferro. Qed.
Print Assumptions C64_summary_partial.
Example C64_example : exists (ferro spiral : nat -> out nat) antiferro rs, ~ In Antiferro [Spiral; Ferro; Spiral] /\
  ran ferro spiral antiferro 0 [Spiral; Ferro; Spiral] rs /\ summary rs = [LSpiral 0%nat; LFerro 11%nat; LSpiral 2%nat].
Proof. exact singles_case. Qed.

(** With it (among the first 26) the script always ends with TypeError; the energies of the types before it are printed as
    antiferromagnetic ones, and those of the types after it not at all. *)
Theorem C64_antiferro : forall F (ferro spiral : nat -> out F) antiferro n sel rs pre es post,
  ran ferro spiral antiferro 0 sel rs -> rs = pre ++ (Antiferro, es) :: post ->
  (forall r, In r pre -> fst r <> Antiferro) -> length pre < 26 ->
  manager ferro spiral antiferro n sel = (summary pre ++ LAntiHead :: numbered 1 (flat_map snd pre), Some TypeError).
Proof. exact @antiferro_fails. Qed.
Print Assumptions C64_antiferro.
(** The default selection. *)
Theorem C64_default_refuted : exists (ferro spiral : nat -> out nat) antiferro n rs, ran ferro spiral antiferro 0 [Ferro; Antiferro; Spiral] rs /\
  manager ferro spiral antiferro n [Ferro; Antiferro; Spiral] <> (summary rs, None).
Proof. exact default_refuted. Qed.
Print Assumptions C64_default_refuted.

(** The numbers of the 26 history files, of which only three are different. *)
Theorem C64_files : forall F (antiferro : nat -> Z * Z * Z -> out F) pos m files es, minimize_antiferro antiferro (S m) pos = Ret (files, es) ->
  map fst files = [1] ++ repeat (S m) 12 ++ [S (S m)] ++ repeat (S m) 12 /\ map snd files = filter (fun q => negb (is_gamma q)) q_points.
Proof. exact @files_of. Qed.
Print Assumptions C64_files.
Theorem C64_files_refuted : exists (antiferro : nat -> Z * Z * Z -> out nat) n pos files es,
  minimize_antiferro antiferro n pos = Ret (files, es) /\ ~ NoDup (map fst files).
Proof. exact files_refuted. Qed.
Print Assumptions C64_files_refuted.
