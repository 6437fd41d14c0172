(** Model of the command-line scripts: the parsers and the calls [manager( **vars(args))] of
    src/magnopy/score/convert_tb2j.py:27, 50-89, src/magnopy/score/magnon_dispersion.py:35-45, 211-289,
    src/magnopy/score/minimize_energy.py:148-269, and src/magnopy/__main__.py:25-63.

    argparse belongs to the standard library. Modelled of it: options with the arguments that follow them, names, choices,
    conversion to float, number of arguments, defaults, required options. Not modelled: abbreviated names, [--name=value],
    how a list of words is cut into options and arguments, help texts. [None] is SystemExit (usage error). *)
From Coq Require Import String Ascii List Bool.
From Verif.Base Require Import PyString PyText PyText2 PyDict.
From Verif.Model Require Import Hamiltonian TxtVerify.
Import ListNotations.
Local Open Scope string_scope.

Section CommandLine.
Context {F : Type}.
(** [float(word)]; [None]: ValueError. *)
Variable to_float : string -> option F.

Inductive value := VNone | VBool (b : bool) | VStr (s : string) | VList (l : list string) | VFloats (l : list F).
(** store_true; one string; nargs="*"; type=float with nargs=n *)
Inductive takes := Flag | One (choices : option (list string)) | Any (choices : option (list string)) | Floats (n : nat).
Record opt := mkOpt { o_short : string; o_long : string; o_takes : takes; o_required : bool; o_default : value }.

(** The name of the attribute: the long name without "--" and with "_" for "-". *)
Fixpoint undash (s : string) : string :=
  match s with EmptyString => EmptyString | String c t => String (if ascii_dec c "-" then "_"%char else c) (undash t) end.
Definition dest (o : opt) : string := undash (substring 2 (String.length (o_long o) - 2) (o_long o)).

Definition chosen (choices : option (list string)) (s : string) : bool :=
  match choices with None => true | Some l => mem_str s l end.
Fixpoint floats (l : list string) : option (list F) :=
  match l with
  | [] => Some []
  | s :: t => match to_float s, floats t with Some x, Some r => Some (x :: r) | _, _ => None end
  end.
Definition value_of (o : opt) (args : list string) : option value :=
  match o_takes o with
  | Flag => match args with [] => Some (VBool true) | _ => None end
  | One c => match args with [s] => if chosen c s then Some (VStr s) else None | _ => None end
  | Any c => if forallb (chosen c) args then Some (VList args) else None
  | Floats n => if Nat.eqb (List.length args) n then match floats args with Some l => Some (VFloats l) | None => None end else None
  end.

Definition namespace := list (string * value).
Definition called (o : opt) (name : string) : bool := if string_dec name (o_short o) then true else if string_dec name (o_long o) then true else false.
Fixpoint given (opts : list opt) (cl : list (string * list string)) (ns : namespace) : option namespace :=
  match cl with
  | [] => Some ns
  | (name, args) :: t =>
      match find (fun o => called o name) opts with
      | None => None
      | Some o => match value_of o args with Some v => given opts t (dset ns (dest o) v) | None => None end
      end
  end.
Definition defaults (opts : list opt) : namespace := map (fun o => (dest o, o_default o)) opts.
(** parser.parse_args() *)
Definition parse_args (opts : list opt) (cl : list (string * list string)) : option namespace :=
  if forallb (fun o => if o_required o then existsb (fun x => called o (fst x)) cl else true) opts
  then given opts cl (defaults opts) else None.

(** A call with keywords: every keyword must be a parameter, every parameter without a default must be given. *)
Definition signature := list (string * option value).
Definition call (sig : signature) (kw : namespace) : out (list value) :=
  if forallb (fun x => dmem sig (fst x)) kw
  then fold_right (fun p acc => match acc with
                                | Raise e => Raise e
                                | Ret l => match dget kw (fst p), snd p with
                                           | Some v, _ | None, Some v => Ret (v :: l)
                                           | None, None => Raise TypeError
                                           end
                                end) (Ret []) sig
  else Raise TypeError.

(** convert_tb2j.py:50-82 and 27 *)
Definition convert_options : list opt :=
  [ mkOpt "-if" "--input-filename" (One None) true VNone;
    mkOpt "-of" "--output-filename" (One None) false (VStr "spinham.txt");
    mkOpt "-f" "--format" (One (Some ["txt"; "hdf5"])) false VNone;
    mkOpt "-v" "--verbose" Flag false (VBool false) ].
Definition convert_signature : signature :=
  [ ("input_filename", None); ("output_filename", Some (VStr "spinham.txt")); ("format", Some VNone); ("verbose", Some (VBool false)) ].

(** magnon_dispersion.py:211-282 and 35-45 *)
Definition dispersion_options : list opt :=
  [ mkOpt "-sh" "--spinham" (One None) true VNone;
    mkOpt "-shf" "--spinham-format" (One (Some ["txt"; "hdf5"; "tb2j"])) false VNone;
    mkOpt "-os" "--output-seedname" (One None) false (VStr "dispersion");
    mkOpt "-kps" "--k-points" (Any None) false VNone;
    mkOpt "-kp" "--k-path" (One None) false VNone;
    mkOpt "-st" "--save-txt" Flag false (VBool false);
    mkOpt "-i" "--interactive" Flag false (VBool false);
    mkOpt "-v" "--verbose" Flag false (VBool false);
    mkOpt "-jo" "--join-output" Flag false (VBool false) ].
Definition dispersion_signature : signature :=
  [ ("spinham", None); ("spinham_format", Some VNone); ("output_seedname", Some (VStr "dispersion")); ("k_points", Some VNone); ("k_path", Some VNone);
    ("save_txt", Some (VBool false)); ("interactive", Some (VBool false)); ("verbose", Some (VBool false)); ("join_output", Some (VBool false)) ].

(** minimize_energy.py:218-262 and 148-154 *)
Definition minimize_options : list opt :=
  [ mkOpt "-sh" "--spinham" (One None) true VNone;
    mkOpt "-shf" "--spinham-format" (One (Some ["txt"; "hdf5"; "tb2j"])) false VNone;
    mkOpt "-gst" "--ground-state-type" (Any (Some ["all"; "ferro"; "antiferro"; "spiral"])) false (VStr "all");
    mkOpt "-mf" "--magnetic_field" (Floats 3) false VNone;
    mkOpt "-os" "--output-seedname" (One None) false (VStr "minim") ].
Definition minimize_signature : signature :=
  [ ("spinham", None); ("spinham_format", Some VNone); ("ground_state_type", Some VNone); ("magnetic_field", Some VNone); ("output_seedname", Some (VStr "minim")) ].

(** main(): None is SystemExit, [run] is the body of manager on its parameters. *)
Definition script {A} (opts : list opt) (sig : signature) (run : list value -> A) (failed : exn -> A) (cl : list (string * list string)) : option A :=
  match parse_args opts cl with
  | None => None
  | Some ns => Some (match call sig ns with Ret l => run l | Raise e => failed e end)
  end.

(** ** The body of the minimization *)
(** The characters of a string, over which a loop runs. *)
Fixpoint letters (s : string) : list string := match s with EmptyString => [] | String c t => String c EmptyString :: letters t end.
(** minimize_energy.py:170-174: [gs_to_minimize] *)
Definition selection (ground_state_type : value) : out (list string) :=
  match ground_state_type with
  | VStr s => if has_sub "all" s then Ret ["ferro"; "antiferro"; "spiral"] else Ret (letters s)
  | VList l => if mem_str "all" l then Ret ["ferro"; "antiferro"; "spiral"] else Ret l
  | VFloats _ => Raise TypeError
  | VNone | VBool _ => Raise TypeError
  end.

(** The same on the five parameters of [manager]. *)
Definition selection_of (args : list value) : out (list string) :=
  match args with [_; _; gst; _; _] => selection gst | _ => Raise TypeError end.

(** Contents of files by name. *)
Definition files := string -> option string.
Definition put (f : files) (name content : string) : files := fun n => if string_dec n name then Some content else f n.

Section Manager.
Context {H E : Type}.
(** The logo, [load_spinham], [Energy], assignment to [magnetic_field]; [minimize]: 176-215, what is written to the results file. *)
Variable logo : string.
Variable load : string -> value -> files -> out H.
Variable make_energy : H -> out E.
Variable set_field : E -> value -> out E.
Variable minimize : H -> E -> string -> list string -> string * option exn.

(** minimize_energy.py:155-215. The results file is never closed; here what was written to it is in it. *)
Definition minimize_manager (fs : files) (args : list value) : files * option exn :=
  match args with
  | [VStr spinham; fmt; gst; field; VStr seedname] =>
      let name := seedname ++ "-results" in
      let first := logo ++ String "010" EmptyString in
      let fs := put fs name first in
      match load spinham fmt fs with
      | Raise e => (fs, Some e)
      | Ret h =>
          match make_energy h with
          | Raise e => (fs, Some e)
          | Ret en =>
              match (match field with VNone => Ret en | v => set_field en v end) with
              | Raise e => (fs, Some e)
              | Ret en =>
                  match selection gst with
                  | Raise e => (fs, Some e)
                  | Ret sel => let '(text, x) := minimize h en seedname sel in (put fs name (first ++ text), x)
                  end
              end
          end
      end
  | _ => (fs, Some TypeError)
  end.
End Manager.

(** ** The command magnopy, src/magnopy/__main__.py:25-63 *)
Inductive printed := PLogo | PWarranty | PConditions | PVersion | PCommit | PHelp | PError.
(** [command]: the positional argument, restricted to the choices by the parser. *)
Definition main_choices : list string := ["logo"; "warranty"; "conditions"; "version"].
Definition main_prints (command : option string) (version git_commit : bool) : option printed :=
  if (match command with None => true | Some c => mem_str c main_choices end) then
    let is c := match command with Some d => if string_dec c d then true else false | None => false end in
    Some (if is "logo" then PLogo
          else if is "warranty" then PWarranty
          else if is "conditions" then PConditions
          else if is "version" || version then PVersion
          else if git_commit then PCommit
          else match command with None => PHelp | Some _ => PError end)
  else None.
End CommandLine.
