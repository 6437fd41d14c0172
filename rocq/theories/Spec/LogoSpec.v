(** What a logo should be. *)
From Coq Require Import List NArith String Ascii.
Import ListNotations.
Local Open Scope N_scope.

(** [text.split("\n")] *)
Fixpoint lines (s : list N) : list (list N) :=
  match s with
  | [] => [[]]
  | c :: t => if N.eqb c 10 then [] :: lines t
              else match lines t with l :: r => (c :: l) :: r | [] => [[c]] end
  end.
Definition one_line (s : list N) : Prop := ~ In 10 s.
Definition starts (p s : list N) : Prop := exists t, s = (p ++ t)%list.
Definition contains (s p : list N) : Prop := exists a b, s = (a ++ p ++ b)%list.
(** The information stands on consecutive lines, in order. *)
Definition shown_in_order (info ls : list (list N)) : Prop :=
  exists start, forall i, (i < List.length info)%nat -> exists l, nth_error ls (start + i) = Some l /\ contains l (nth i info []).

(** A line as the ASCII strings of the text format: what is outside becomes "?". *)
Definition to_ascii (c : N) : ascii := if N.ltb c 128 then ascii_of_N c else "?"%char.
Fixpoint to_string (s : list N) : string := match s with [] => EmptyString | c :: t => String (to_ascii c) (to_string t) end.
