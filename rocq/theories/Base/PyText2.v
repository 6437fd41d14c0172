(** More string methods (TB2J reader), on ASCII text like PyText.v. *)
From Coq Require Import String Ascii List Bool.
Import ListNotations.
Local Open Scope string_scope.

(** [p in s] *)
Fixpoint has_sub (p s : string) : bool :=
  (String.prefix p s || match s with EmptyString => false | String _ s' => has_sub p s' end)%bool.

(** [s.translate(table)] for a table that deletes the characters [cs] *)
Fixpoint delete_chars (cs : list ascii) (s : string) : string :=
  match s with
  | EmptyString => ""
  | String c s' => if existsb (Ascii.eqb c) cs then delete_chars cs s' else String c (delete_chars cs s')
  end.
