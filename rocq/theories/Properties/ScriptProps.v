(** Property theorems C69: the spectra over a path and the files of the dispersion script.

    The digits of "%.8f" and "%.8e" are assumed to be one word each; the solver returns 2N energies (the contract of C38);
    the path has as many coordinates as points. *)
From Coq Require Import String List Reals ZArith.
From Coquelicot Require Import Complex.
From Coq Require Import List.
From Verif.Base Require Import Scalar ScalarR Linear3.
From Verif.Model Require Import Hamiltonian Dispersion DispersionScript.
From Verif.Spec Require Import TxtDumpSpec HistoryTextSpec DispersionSpec ScriptSpec.
From Verif.Proofs Require Import DispersionGlue ScriptPaths ScriptProofs.
Import ListNotations.
Local Open Scope string_scope.

(** An N x M array whose column m is omega of the m-th point. *)
Theorem C69_omegas : forall solve st D, one_energy_per_row (2 * d_N D) solve -> forall zeros_to_none points, points <> [] ->
  let a := omegas solve st D zeros_to_none points in
  List.length a = d_N D /\ Forall (fun r => List.length r = List.length points) a /\
  forall m, (m < List.length points)%nat ->
    map (fun r => nth m r NaN) a = fst (omega solve (d_N D) (d_h st D (nth m points vzero)) zeros_to_none false false).
Proof. exact omegas_ok. Qed.
Print Assumptions C69_omegas.

(** Every line of the data holds the coordinate, the N energies at the point, and the point twice. *)
Theorem C69_files : forall fixed sci solve st D abspath spinham seedname info kp,
  (forall x, one_word (fixed x)) -> (forall x, one_word (sci x)) -> one_energy_per_row (2 * d_N D) solve ->
  kp_flat kp <> [] -> List.length (kp_rel kp) = List.length (kp_flat kp) -> List.length (kp_abs kp) = List.length (kp_flat kp) ->
  let name := output_name spinham seedname in
  let wanted := all_cells fixed sci (fun k => fst (omega solve (d_N D) (d_h st D k) false false false)) (kp_flat kp) (kp_rel kp) (kp_abs kp) in
  Forall (fun l => List.length l = (d_N D + 7)%nat) wanted /\ List.length wanted = List.length (kp_flat kp) /\
  (exists i d, manager_files fixed sci solve st D abspath spinham seedname info false kp = Ret [(name ++ "_info.txt", i); (name ++ "_data.txt", d)] /\ table d = wanted) /\
  (exists d, manager_files fixed sci solve st D abspath spinham seedname info true kp = Ret [(name ++ ".txt", info ++ d)] /\
     table d = (["dispersion"] :: column_names (d_N D) :: wanted)%list).
Proof. exact files_ok. Qed.
Print Assumptions C69_files.

(** The files are where the seedname says; without a directory they are next to the input, without a name it is
    "dispersion". That directory is the one that is created. *)
Theorem C69_names : forall spinham seedname h t0 h' t', path_parts spinham h t0 -> path_parts seedname h' t' ->
  path_parts (output_name spinham seedname) (if string_dec h' "" then h else h') (if string_dec t' "" then "dispersion" else t').
Proof. exact output_parts. Qed.
Print Assumptions C69_names.
Theorem C69_directory : forall spinham seedname h t0 h' t', path_parts spinham h t0 -> path_parts seedname h' t' ->
  made_directory spinham seedname = (if string_dec (if string_dec h' "" then h else h') "" then None else Some (if string_dec h' "" then h else h')).
Proof. exact directory_parts. Qed.
Print Assumptions C69_directory.
(** Every path has exactly one directory and one name. *)
Theorem C69_parts : forall p, exists h t, path_parts p h t /\ forall h' t', path_parts p h' t' -> h' = h /\ t' = t.
Proof. exact parts_exact. Qed.
Print Assumptions C69_parts.

(** Five arguments per additional point; what is left at the end is ignored. *)
Theorem C69_points_partial : forall F (to_float : string -> option F) gs rest, (List.length rest < 5)%nat ->
  extra_points to_float (flat_map group gs ++ rest) = match all_points to_float gs with Some ps => Ret ps | None => Raise ValueError end.
Proof. exact @extra_points_ok. Qed.
Print Assumptions C69_points_partial.
Theorem C69_points_refuted : exists args, args <> [] /\ forall F (to_float : string -> option F), extra_points to_float args = Ret [].
Proof. exact points_lost. Qed.
Print Assumptions C69_points_refuted.

Example C69_files_case : exists (fixed sci : num -> string) (solve : mat -> option (list C * mat)) D kp, (forall x, one_word (fixed x)) /\ (forall x, one_word (sci x)) /\ one_energy_per_row (2 * d_N D) solve /\
  kp_flat kp <> [] /\ List.length (kp_rel kp) = List.length (kp_flat kp) /\ List.length (kp_abs kp) = List.length (kp_flat kp) /\ List.length (kp_flat kp) = 2%nat /\ d_N D = 1%nat.
Proof. exact files_case. Qed.
Example C69_names_case : path_parts "models/NiO.txt" "models" "NiO.txt" /\ path_parts "out" "" "out" /\ output_name "models/NiO.txt" "out" = "models/out".
Proof. exact names_case. Qed.
Example C69_points_case : extra_points (fun w => if string_dec w "1/2" then None else Some w) (["G"; "Gamma"; "0"; "0"; "0"] ++ ["X"; "X"; "1"; "0"; "0"])
  = Ret [("G", "Gamma", ["0"; "0"; "0"]); ("X", "X", ["1"; "0"; "0"])].
Proof. exact points_case. Qed.
