(** Property theorems C63: the text of the optimization history.

    The digits of "%.8e" and "%.8f" are assumed to be one word each; the pieces are what the successive calls of the
    processor received (only the last one can be empty), together the history of C34. *)
From Coq Require Import String List Reals ZArith.
From Verif.Base Require Import Scalar ScalarR Linear3.
From Verif.Model Require Import Hamiltonian EnergyInit Energy Optimizer HistoryText.
From Verif.Spec Require Import TxtDumpSpec HistoryTextSpec.
From Verif.Proofs Require Import HistoryTextProofs HistoryTextCases.
Import ListNotations.
Local Open Scope string_scope.

(** A new file is a table: the names of the columns, then the words of every entry of the history in order; every line has
    as many words as there are names. *)
Theorem C63_ferro_partial : forall sci fixed : R -> string, (forall x, one_word (sci x)) -> (forall x, one_word (fixed x)) ->
  forall mu st E a rnd g fuel x h pieces, a_save a = true -> List.length rnd = List.length (e_spins E) ->
  optimize_ferro mu st E a rnd g fuel = Some (Ret (x, h)) -> pieces_of pieces -> concat pieces = h ->
  let t := table (write_history (header_ferro (List.length (e_spins E))) (row_ferro sci fixed) "" pieces) in
  t = (names_ferro (List.length (e_spins E)) :: map (cells_ferro sci fixed) h)%list /\
  Forall (fun l => List.length l = List.length (names_ferro (List.length (e_spins E)))) t.
Proof. exact ferro_file. Qed.
Print Assumptions C63_ferro_partial.
Theorem C63_antiferro_partial : forall sci fixed : R -> string, (forall x, one_word (sci x)) -> (forall x, one_word (fixed x)) ->
  forall mu st E a rnd ra q g ga fuel x h pieces, a_save a = true -> List.length rnd = List.length (e_spins E) ->
  optimize_antiferro mu st E a rnd ra q g ga fuel = Some (Ret (x, h)) -> pieces_of pieces -> concat pieces = h ->
  let t := table (write_history (header_cone (List.length (e_spins E))) (row_cone sci fixed) "" pieces) in
  t = (names_cone (List.length (e_spins E)) :: map (cells_cone sci fixed) h)%list /\
  Forall (fun l => List.length l = List.length (names_cone (List.length (e_spins E)))) t.
Proof. exact antiferro_file. Qed.
Print Assumptions C63_antiferro_partial.
Theorem C63_spiral_partial : forall sci fixed : R -> string, (forall x, one_word (sci x)) -> (forall x, one_word (fixed x)) ->
  forall mu st E a rnd ra rq g ga gq fuel x h pieces, a_save a = true -> List.length rnd = List.length (e_spins E) ->
  optimize_spiral mu st E a rnd ra rq g ga gq fuel = Some (Ret (x, h)) -> pieces_of pieces -> concat pieces = h ->
  let t := table (write_history (header_cone (List.length (e_spins E))) (row_cone sci fixed) "" pieces) in
  t = (names_cone (List.length (e_spins E)) :: map (cells_cone sci fixed) h)%list /\
  Forall (fun l => List.length l = List.length (names_cone (List.length (e_spins E)))) t.
Proof. exact spiral_file. Qed.
Print Assumptions C63_spiral_partial.

(** A second run with the same file name loses one line: its header continues the last line of the first run. *)
Theorem C63_appended : forall sci fixed : R -> string, (forall x, one_word (sci x)) -> (forall x, one_word (fixed x)) ->
  forall n n' pieces pieces', pieces_of pieces -> pieces <> [] -> last pieces [] <> [] ->
  let old := write_history (header_ferro n) (row_ferro sci fixed) "" pieces in
  (List.length (lines_of (write_history (header_ferro n') (row_ferro sci fixed) old pieces')) + 1
    = List.length (lines_of old) + List.length (lines_of (write_history (header_ferro n') (row_ferro sci fixed) "" pieces')))%nat.
Proof. exact ferro_glued. Qed.
Print Assumptions C63_appended.
Theorem C63_append_refuted : exists (sci fixed : R -> string) n pieces pieces', (forall x, one_word (sci x)) /\ (forall x, one_word (fixed x)) /\
  pieces_of pieces /\ pieces_of pieces' /\ Forall (shape_ferro n) (concat pieces) /\ Forall (shape_ferro n) (concat pieces') /\
  let old := write_history (header_ferro n) (row_ferro sci fixed) "" pieces in
  let t := table (write_history (header_ferro n) (row_ferro sci fixed) old pieces') in
  ~ In (names_ferro n) (tl t) /\ exists l, In l t /\ List.length l = (2 * List.length (names_ferro n))%nat.
Proof. exact append_refuted. Qed.
Print Assumptions C63_append_refuted.

(** A run of one step: two entries, written in one piece, then an empty last one. *)
Example C63_example : exists mu st E a rnd g fuel x h, a_save a = true /\ List.length rnd = List.length (e_spins E) /\
  optimize_ferro mu st E a rnd g fuel = Some (Ret (x, h)) /\ List.length h = 2%nat /\ pieces_of [h; []] /\ List.concat [h; []] = h.
Proof. exact saved_case. Qed.
