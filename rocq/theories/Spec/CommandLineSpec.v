(** Vocabulary for C80: what a command line asks for. *)
From Coq Require Import String List Bool.
From Verif.Model Require Import Hamiltonian CommandLine.
Import ListNotations.
Local Open Scope string_scope.

Section Spec.
Context {F : Type}.
Variable to_float : string -> option F.

(** What a script offers: two names of the option, the parameter it sets, what follows it, and the value without it. *)
Inductive expects := Nothing | Word | WordOf (l : list string) | Words | WordsOf (l : list string) | Numbers (n : nat).
Record offer := mkOffer { short : string; long : string; parameter : string; kind : expects; otherwise : option (@value F) }.

Inductive means : expects -> list string -> @value F -> Prop :=
| m_nothing : means Nothing [] (VBool true)
| m_word s : means Word [s] (VStr s)
| m_word_of l s : In s l -> means (WordOf l) [s] (VStr s)
| m_words ws : means Words ws (VList ws)
| m_words_of l ws : (forall s, In s ws -> In s l) -> means (WordsOf l) ws (VList ws)
| m_numbers ws xs : Forall2 (fun s x => to_float s = Some x) ws xs -> means (Numbers (List.length ws)) ws (VFloats xs).

Definition names (o : offer) (n : string) : Prop := n = short o \/ n = long o.
Definition mentioned (o : offer) (cl : list (string * list string)) : Prop := exists n args, In (n, args) cl /\ names o n.
(** The words after the last mention of the option. *)
Definition last_mention (o : offer) (cl : list (string * list string)) (args : list string) : Prop :=
  exists pre n post, cl = (pre ++ (n, args) :: post)%list /\ names o n /\ forall n' args', In (n', args') post -> ~ names o n'.
(** The value that the command line asks for. *)
Definition asked (o : offer) (cl : list (string * list string)) (v : @value F) : Prop :=
  (exists args, last_mention o cl args /\ means (kind o) args v) \/ (~ mentioned o cl /\ otherwise o = Some v).
(** A command line without mistakes. *)
Definition correct (offers : list offer) (cl : list (string * list string)) : Prop :=
  (forall n args, In (n, args) cl -> exists o v, In o offers /\ names o n /\ means (kind o) args v) /\
  (forall o, In o offers -> otherwise o = None -> mentioned o cl).

(** The same call from Python: only the parameters that are mentioned are given. *)
Definition keywords (offers : list offer) (cl : list (string * list string)) (kw : list (string * @value F)) : Prop :=
  NoDup (map fst kw) /\ forall p v, In (p, v) kw <-> exists o args, In o offers /\ parameter o = p /\ last_mention o cl args /\ means (kind o) args v.

Definition convert_offers : list offer :=
  [ mkOffer "-if" "--input-filename" "input_filename" Word None;
    mkOffer "-of" "--output-filename" "output_filename" Word (Some (VStr "spinham.txt"));
    mkOffer "-f" "--format" "format" (WordOf ["txt"; "hdf5"]) (Some VNone);
    mkOffer "-v" "--verbose" "verbose" Nothing (Some (VBool false)) ].
Definition dispersion_offers : list offer :=
  [ mkOffer "-sh" "--spinham" "spinham" Word None;
    mkOffer "-shf" "--spinham-format" "spinham_format" (WordOf ["txt"; "hdf5"; "tb2j"]) (Some VNone);
    mkOffer "-os" "--output-seedname" "output_seedname" Word (Some (VStr "dispersion"));
    mkOffer "-kps" "--k-points" "k_points" Words (Some VNone);
    mkOffer "-kp" "--k-path" "k_path" Word (Some VNone);
    mkOffer "-st" "--save-txt" "save_txt" Nothing (Some (VBool false));
    mkOffer "-i" "--interactive" "interactive" Nothing (Some (VBool false));
    mkOffer "-v" "--verbose" "verbose" Nothing (Some (VBool false));
    mkOffer "-jo" "--join-output" "join_output" Nothing (Some (VBool false)) ].
Definition minimize_offers : list offer :=
  [ mkOffer "-sh" "--spinham" "spinham" Word None;
    mkOffer "-shf" "--spinham-format" "spinham_format" (WordOf ["txt"; "hdf5"; "tb2j"]) (Some VNone);
    mkOffer "-gst" "--ground-state-type" "ground_state_type" (WordsOf ["all"; "ferro"; "antiferro"; "spiral"]) (Some (VStr "all"));
    mkOffer "-mf" "--magnetic_field" "magnetic_field" (Numbers 3) (Some VNone);
    mkOffer "-os" "--output-seedname" "output_seedname" Word (Some (VStr "minim")) ].
End Spec.
