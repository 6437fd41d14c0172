(** Python string methods used by the text reader, on ASCII text (Coq [string]).

    Simplification: characters are the 256 values of [ascii] with Python's behaviour of the ASCII range; for
    code points above 127 (other alphabets, non-breaking spaces) the model has no white space, no letters and
    no case. *)
From Coq Require Import String Ascii List Bool NArith Arith.
From Verif.Base Require Import PyString.
Import ListNotations.
Local Open Scope string_scope.

(** White space of [str.split()] and [str.strip()]: \t \n \v \f \r, \x1c-\x1f and the space. *)
Definition is_space (c : ascii) : bool :=
  let n := N_of_ascii c in
  ((N.leb 9 n && N.leb n 13) || (N.leb 28 n && N.leb n 32))%bool.

(** [str.isalnum] of one character. *)
Definition is_alnum (c : ascii) : bool :=
  let n := N_of_ascii c in
  ((N.leb 48 n && N.leb n 57) || (N.leb 65 n && N.leb n 90) || (N.leb 97 n && N.leb n 122))%bool.

Definition emptyb (s : string) : bool := match s with EmptyString => true | _ => false end.

(** [s.split()]: [toks s] is the word running at the beginning of [s] (maybe empty) and the words after it. *)
Fixpoint toks (s : string) : string * list string :=
  match s with
  | EmptyString => ("", [])
  | String c s' =>
      let '(w, ws) := toks s' in
      if is_space c then ("", if emptyb w then ws else w :: ws) else (String c w, ws)
  end.
Definition py_split (s : string) : list string :=
  let '(w, ws) := toks s in if emptyb w then ws else w :: ws.

(** [s.lstrip()], [s.rstrip()], [s.strip()] *)
Fixpoint py_lstrip (s : string) : string :=
  match s with
  | EmptyString => ""
  | String c s' => if is_space c then py_lstrip s' else s
  end.
Fixpoint py_rstrip (s : string) : string :=
  match s with
  | EmptyString => ""
  | String c s' => let r := py_rstrip s' in if (emptyb r && is_space c)%bool then "" else String c r
  end.
Definition py_strip (s : string) : string := py_rstrip (py_lstrip s).

(** [s.split(c)[0]]: everything before the first [c]. *)
Fixpoint before (c : ascii) (s : string) : string :=
  match s with
  | EmptyString => ""
  | String a s' => if Ascii.eqb a c then "" else String a (before c s')
  end.

(** [s.count(c)] *)
Fixpoint py_count (c : ascii) (s : string) : nat :=
  match s with
  | EmptyString => 0
  | String a s' => (if Ascii.eqb a c then 1 else 0) + py_count c s'
  end.

(** [s.startswith(p)], [s.endswith(p)] *)
Definition starts_with (p s : string) : bool := String.prefix p s.
Fixpoint ends_with (p s : string) : bool :=
  if string_dec p s then true else match s with EmptyString => false | String _ s' => ends_with p s' end.

(** [c * n] *)
Fixpoint repeat_char (c : ascii) (n : nat) : string :=
  match n with O => "" | S n' => String c (repeat_char c n') end.

(** [p in s] for strings *)
Definition is_substring (p s : string) : bool :=
  match String.index 0 p s with Some _ => true | None => false end.

(** [w in l] for lists of strings *)
Definition mem_str (w : string) (l : list string) : bool := if in_dec string_dec w l then true else false.

(** [l.index(w)], ValueError when absent: [None] *)
Fixpoint index_of (w : string) (l : list string) : option nat :=
  match l with
  | [] => None
  | x :: t => if string_dec x w then Some 0 else option_map S (index_of w t)
  end.

(** [l.remove(w)] for [w] in [l]: the first occurrence goes. *)
Fixpoint remove_str (w : string) (l : list string) : list string :=
  match l with [] => [] | x :: t => if string_dec x w then t else x :: remove_str w t end.

(** [l.sort()] for strings: by code points. *)
Fixpoint insert_str (w : string) (l : list string) : list string :=
  match l with [] => [w] | x :: t => if String.leb w x then w :: l else x :: insert_str w t end.
Fixpoint sort_str (l : list string) : list string :=
  match l with [] => [] | w :: t => insert_str w (sort_str t) end.

(** Maximal runs of lines that are not separators. *)
Fixpoint runs (sep : string -> bool) (ls : list string) : list string * list (list string) :=
  match ls with
  | [] => ([], [])
  | l :: t =>
      let '(cur, rest) := runs sep t in
      if sep l then ([], match cur with [] => rest | _ => cur :: rest end) else (l :: cur, rest)
  end.
Definition split_runs (sep : string -> bool) (ls : list string) : list (list string) :=
  let '(cur, rest) := runs sep ls in match cur with [] => rest | _ => cur :: rest end.

Fixpoint drop_while {A} (p : A -> bool) (l : list A) : list A :=
  match l with [] => [] | x :: t => if p x then drop_while p t else l end.
