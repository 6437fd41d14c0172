(** The filtered copy of a text file: the texts shown, one per line. *)
From Coq Require Import String Ascii List.
From Verif.Base Require Import PyText.
From Verif.Spec Require Import TxtSpec.
Import ListNotations.
Local Open Scope string_scope.

(** [s] is [ts] with a line break between any two. *)
Inductive one_per_line (break : string) : list string -> string -> Prop :=
| opl_none : one_per_line break [] ""
| opl_one t : one_per_line break [t] t
| opl_more t u ts s : one_per_line break (u :: ts) s -> one_per_line break (t :: u :: ts) (t ++ break ++ s).
Definition line_break (b : string) : Prop := b = String "010" "" \/ b = String "013" (String "010" "").

(** The lines of a text: line breaks are LF, CR LF, and CR where no LF follows; each is read as LF, the last line may lack one. *)
Definition unbroken (s : string) : Prop := all_chars (fun c => c <> "010"%char /\ c <> "013"%char) s.
Inductive text_lines : string -> list string -> Prop :=
| tl_end : text_lines "" []
| tl_last l : l <> "" -> unbroken l -> text_lines l [l]
| tl_lf l rest ls : unbroken l -> text_lines rest ls -> text_lines (l ++ String "010" rest) ((l ++ String "010" "") :: ls)
| tl_crlf l rest ls : unbroken l -> text_lines rest ls -> text_lines (l ++ String "013" (String "010" rest)) ((l ++ String "010" "") :: ls)
| tl_cr l rest ls : unbroken l -> (forall t, rest <> String "010" t) -> text_lines rest ls -> text_lines (l ++ String "013" rest) ((l ++ String "010" "") :: ls).

(** The directory of a path: everything before its last slash. *)
Definition directory (p d : string) : Prop := exists name, p = d ++ String "/" name /\ all_chars (fun c => c <> "/"%char) name.
