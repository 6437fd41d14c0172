(** Python string helpers on ASCII strings (Coq [string]). *)
From Coq Require Import String Ascii List Bool NArith.
Import ListNotations.

(** [str.lower()] for ASCII characters (other code points are outside the model). *)
Definition ascii_lower (c : ascii) : ascii :=
  let n := N_of_ascii c in
  if (N.leb 65 n && N.leb n 90)%bool then ascii_of_N (n + 32) else c.

Fixpoint str_lower (s : string) : string :=
  match s with
  | EmptyString => EmptyString
  | String c s' => String (ascii_lower c) (str_lower s')
  end.
