(** Property C80: command lines of the scripts. *)
From Coq Require Import String Ascii List Bool.
From Verif.Base Require Import PyText2.
From Verif.Model Require Import Hamiltonian CommandLine.
From Verif.Spec Require Import CommandLineSpec.
From Verif.Proofs Require Import CommandLineCases CallErrors.
Import ListNotations.
Local Open Scope string_scope.

(** The script runs [manager] on the values that the command line asks for, and refuses every other command line before
    anything is done. [run] is the body of [manager]. *)
Theorem C80_convert : forall F A to_float (run : list (@value F) -> A) failed cl,
  (correct to_float convert_offers cl -> exists l, Forall2 (fun o v => asked to_float o cl v) convert_offers l /\ script to_float convert_options convert_signature run failed cl = Some (run l)) /\
  (~ correct to_float convert_offers cl -> script to_float convert_options convert_signature run failed cl = None).
Proof. exact @convert_spec. Qed.
Print Assumptions C80_convert.
Theorem C80_dispersion : forall F A to_float (run : list (@value F) -> A) failed cl,
  (correct to_float dispersion_offers cl -> exists l, Forall2 (fun o v => asked to_float o cl v) dispersion_offers l /\ script to_float dispersion_options dispersion_signature run failed cl = Some (run l)) /\
  (~ correct to_float dispersion_offers cl -> script to_float dispersion_options dispersion_signature run failed cl = None).
Proof. exact @dispersion_spec. Qed.
Print Assumptions C80_dispersion.
Theorem C80_minimize : forall F A to_float (run : list (@value F) -> A) failed cl,
  (correct to_float minimize_offers cl -> exists l, Forall2 (fun o v => asked to_float o cl v) minimize_offers l /\ script to_float minimize_options minimize_signature run failed cl = Some (run l)) /\
  (~ correct to_float minimize_offers cl -> script to_float minimize_options minimize_signature run failed cl = None).
Proof. exact @minimize_spec. Qed.
Print Assumptions C80_minimize.
Example C80_line : correct ex_float minimize_offers ex_line /\
  keywords ex_float minimize_offers ex_line [("spinham", VStr "a.txt"); ("ground_state_type", VList ["spiral"; "ferro"]); ("magnetic_field", VFloats [0; 0; 5]); ("output_seedname", VStr "two")] /\
  script ex_float minimize_options minimize_signature (fun l => Ret l) (fun e => Raise e) ex_line =
    Some (Ret [VStr "a.txt"; VNone; VList ["spiral"; "ferro"]; VFloats [0; 0; 5]; VStr "two"]).
Proof. exact line_case. Qed.

(** A call from Python: every parameter gets the value of its keyword or its default; a parameter without either, and a
    keyword without a parameter, are refused. *)
Theorem C80_call_values : forall F (sig : @signature F) kw l, call sig kw = Ret l ->
  Forall2 (fun p v => match find (fun x => String.eqb (fst x) (fst p)) kw with Some x => v = snd x | None => snd p = Some v end) sig l.
Proof. exact @call_values. Qed.
Print Assumptions C80_call_values.
Theorem C80_call_missing : forall F (sig : @signature F) kw p, In (p, None) sig -> ~ In p (map fst kw) -> call sig kw = Raise TypeError.
Proof. exact @call_missing. Qed.
Print Assumptions C80_call_missing.
Theorem C80_call_unknown : forall F (sig : @signature F) kw k v, In (k, v) kw -> ~ In k (map fst sig) -> call sig kw = Raise TypeError.
Proof. exact @call_unknown. Qed.
Print Assumptions C80_call_unknown.
Example C80_calls : @call nat convert_signature [] = Raise TypeError /\
  @call nat convert_signature [("input_filename", VStr "a"); ("decimals", VNone)] = Raise TypeError /\
  @call nat convert_signature [("verbose", VBool true); ("input_filename", VStr "a")] =
    Ret [VStr "a"; VStr "spinham.txt"; VNone; VBool true].
Proof. repeat split; reflexivity. Qed.

(** A script does what a call from Python with the same parameters does ... *)
Theorem C80_convert_call : forall F A to_float (run : list (@value F) -> A) failed cl kw, correct to_float convert_offers cl -> keywords to_float convert_offers cl kw ->
  script to_float convert_options convert_signature run failed cl = Some (match call convert_signature kw with Ret l => run l | Raise e => failed e end).
Proof. exact @convert_call. Qed.
Print Assumptions C80_convert_call.
Theorem C80_dispersion_call : forall F A to_float (run : list (@value F) -> A) failed cl kw, correct to_float dispersion_offers cl -> keywords to_float dispersion_offers cl kw ->
  script to_float dispersion_options dispersion_signature run failed cl = Some (match call dispersion_signature kw with Ret l => run l | Raise e => failed e end).
Proof. exact @dispersion_call. Qed.
Print Assumptions C80_dispersion_call.
(** ... for the minimization only when the type of the ground state is given. *)
Theorem C80_minimize_call_partial : forall F A to_float (run : list (@value F) -> A) failed cl kw n args, In (n, args) cl -> n = "-gst" \/ n = "--ground-state-type" ->
  correct to_float minimize_offers cl -> keywords to_float minimize_offers cl kw ->
  script to_float minimize_options minimize_signature run failed cl = Some (match call minimize_signature kw with Ret l => run l | Raise e => failed e end).
Proof. exact @minimize_call. Qed.
Print Assumptions C80_minimize_call_partial.
Theorem C80_minimize_call_refuted : exists (to_float : string -> option nat) cl kw, correct to_float minimize_offers cl /\ keywords to_float minimize_offers cl kw /\
  script to_float minimize_options minimize_signature selection_of (fun e => Raise e) cl = Some (Ret ["ferro"; "antiferro"; "spiral"]) /\
  (match call minimize_signature kw with Ret l => selection_of l | Raise e => Raise e end) = Raise TypeError.
Proof. exact minimize_call_refuted. Qed.
Print Assumptions C80_minimize_call_refuted.

(** The types that are minimized: "all" stands for the three; a word instead of a list selects nothing. *)
Theorem C80_selection : forall F l, (In "all" l -> selection (@VList F l) = Ret ["ferro"; "antiferro"; "spiral"]) /\ (~ In "all" l -> selection (@VList F l) = Ret l).
Proof. exact @selection_list. Qed.
Print Assumptions C80_selection.
Theorem C80_word : forall F s sel, has_sub "all" s = false -> selection (@VStr F s) = Ret sel -> ~ In "ferro" sel /\ ~ In "antiferro" sel /\ ~ In "spiral" sel.
Proof. exact @selection_word. Qed.
Print Assumptions C80_word.

(** The results file: complete when everything before the minimization succeeds, other files are not touched. *)
Theorem C80_results : forall F H E logo load make_energy set_field minimize fs spinham fmt gst (field : @value F) seedname (h : H) (en en' : E) sel,
  load spinham fmt (put fs (seedname ++ "-results") (logo ++ String "010" EmptyString)) = Ret h -> make_energy h = Ret en ->
  (field = VNone /\ en' = en \/ field <> VNone /\ set_field en field = Ret en') -> selection gst = Ret sel ->
  let after := minimize_manager logo load make_energy set_field minimize fs [VStr spinham; fmt; gst; field; VStr seedname] in
  fst after (seedname ++ "-results") = Some (logo ++ String "010" EmptyString ++ fst (minimize h en' seedname sel)) /\ snd after = snd (minimize h en' seedname sel).
Proof. exact @runs. Qed.
Print Assumptions C80_results.
Theorem C80_elsewhere : forall F H E logo load make_energy set_field (minimize : H -> E -> string -> list string -> string * option exn) fs (args : list (@value F)) n,
  (forall spinham fmt gst field seedname, args = [VStr spinham; fmt; gst; field; VStr seedname] -> n <> seedname ++ "-results") ->
  fst (minimize_manager logo load make_energy set_field minimize fs args) n = fs n.
Proof. exact @elsewhere. Qed.
Print Assumptions C80_elsewhere.
(** Called from Python without a type, [manager] always raises, and the results of an earlier run are gone. *)
Theorem C80_no_type : forall F H E logo load make_energy set_field (minimize : H -> E -> string -> list string -> string * option exn) fs spinham fmt (field : @value F) seedname, exists e,
  minimize_manager logo load make_energy set_field minimize fs [VStr spinham; fmt; VNone; field; VStr seedname] = (put fs (seedname ++ "-results") (logo ++ String "010" EmptyString), Some e).
Proof. exact @no_type. Qed.
Print Assumptions C80_no_type.
(** So they are when the Hamiltonian cannot be loaded. *)
Theorem C80_load_fails : forall F H E logo load make_energy set_field (minimize : H -> E -> string -> list string -> string * option exn) fs spinham fmt gst (field : @value F) seedname e,
  load spinham fmt (put fs (seedname ++ "-results") (logo ++ String "010" EmptyString)) = Raise e ->
  minimize_manager logo load make_energy set_field minimize fs [VStr spinham; fmt; gst; field; VStr seedname] = (put fs (seedname ++ "-results") (logo ++ String "010" EmptyString), Some e).
Proof. exact @load_fails. Qed.
Print Assumptions C80_load_fails.
Theorem C80_results_refuted : exists (load : string -> @value nat -> files -> out nat) fs, let run := minimize_manager "logo" load (fun h => Ret h) (fun e _ => Ret e) (fun _ _ _ _ => ("", None)) fs
    [VStr "a.txt"; VNone; VStr "all"; VNone; VStr "minim"] in
  snd run = Some ValueError /\ fs "minim-results" = Some "results of the last run" /\ fst run "minim-results" <> fs "minim-results".
Proof. exact results_refuted. Qed.
Print Assumptions C80_results_refuted.

(** The command magnopy answers every command, whatever options stand next to it, and never raises. *)
Theorem C80_main : forall command version git_commit,
  (forall c, command = Some c -> ~ In c ["logo"; "warranty"; "conditions"; "version"] -> main_prints command version git_commit = None) /\
  main_prints (Some "logo") version git_commit = Some PLogo /\ main_prints (Some "warranty") version git_commit = Some PWarranty /\
  main_prints (Some "conditions") version git_commit = Some PConditions /\ main_prints (Some "version") version git_commit = Some PVersion /\
  main_prints None true git_commit = Some PVersion /\ main_prints None false true = Some PCommit /\ main_prints None false false = Some PHelp.
Proof. exact main_spec. Qed.
Print Assumptions C80_main.
