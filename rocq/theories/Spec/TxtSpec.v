(** What the text format promises, stated without the reader's helpers.

    Spec vocabulary only: white space and case of single characters (Base/PyText, Base/PyString) and the words
    of a line ([py_split]). *)
From Coq Require Import String Ascii List Bool ZArith Permutation Sorted.
From Verif.Base Require Import PyString PyText.
Import ListNotations.
Local Open Scope string_scope.

Fixpoint all_chars (p : ascii -> Prop) (s : string) : Prop :=
  match s with EmptyString => True | String c s' => p c /\ all_chars p s' end.
Definition blank (s : string) : Prop := all_chars (fun c => is_space c = true) s.
Definition no_hash (s : string) : Prop := all_chars (fun c => c <> "#"%char) s.

(** A comment is nothing, or starts with "#". *)
Definition comment (s : string) : Prop := s = "" \/ exists s', s = String "#" s'.

(** Neither the first nor the last character is white space. *)
Definition tight (s : string) : Prop :=
  (forall c s', s = String c s' -> is_space c = false)
  /\ (forall c s', s = s' ++ String c "" -> is_space c = false).

(** A line shows the text [t]: white space, the text, white space, a comment. *)
Definition shows (line t : string) : Prop :=
  exists lead trail com,
    line = lead ++ t ++ trail ++ com /\ blank lead /\ blank trail /\ comment com /\ no_hash t /\ tight t.

(** A file shows the non-empty texts of its lines, in order. *)
Inductive file_shows : list string -> list string -> Prop :=
| fs_nil : file_shows [] []
| fs_silent l ls ts : shows l "" -> file_shows ls ts -> file_shows (l :: ls) ts
| fs_line l t ls ts : shows l t -> t <> "" -> file_shows ls ts -> file_shows (l :: ls) (t :: ts).

(** Edits that do not touch the text: a line that shows nothing comes or goes, white space around the text and
    the comment behind it change. *)
Inductive cosmetic : list string -> list string -> Prop :=
| cos_refl f : cosmetic f f
| cos_sym f g : cosmetic f g -> cosmetic g f
| cos_trans f g h : cosmetic f g -> cosmetic g h -> cosmetic f h
| cos_insert p l s : shows l "" -> cosmetic (p ++ s) (p ++ l :: s)
| cos_change p l l' t s : shows l t -> shows l' t -> cosmetic (p ++ l :: s) (p ++ l' :: s).

(** ** Sections *)
(** A separator is a line that starts with ten or more "=". *)
Definition separator (l : string) : Prop := exists n s, (10 <= n)%nat /\ l = repeat_char "=" n ++ s.

(** The texts [ts] are the sections [secs] with separators between (and maybe before and after) them. *)
Inductive laid_out : list (list string) -> list string -> Prop :=
| lo_nil : laid_out [] []
| lo_sep l secs ts : separator l -> laid_out secs ts -> laid_out secs (l :: ts)
| lo_last s : s <> [] -> Forall (fun l => ~ separator l) s -> laid_out [s] s
| lo_cons s l secs ts : s <> [] -> Forall (fun l => ~ separator l) s -> separator l -> laid_out secs ts ->
    laid_out (s :: secs) (s ++ l :: ts).

(** The first word of the first line, ignoring case, names the section. *)
Definition section_name (s : list string) : string :=
  str_lower (hd "" (py_split (hd "" s))).

(** [s] is the section named [n]. *)
Definition has_section (secs : list (list string)) (n : string) (s : list string) : Prop := In s secs /\ section_name s = n.

(** ** Boolean keywords *)
Definition says_true (w : string) : Prop := In (str_lower w) ["true"; "t"; "yes"; "y"; "1"].
Definition says_false (w : string) : Prop := In (str_lower w) ["false"; "f"; "no"; "n"; "0"].

(** A line of less than ten "=" only: meant as a separator, too short. *)
Definition short_separator (l : string) : Prop := exists n, (n < 10)%nat /\ l = repeat_char "=" n.
