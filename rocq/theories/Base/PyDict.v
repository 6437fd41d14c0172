(** Python dictionaries: insertion ordered association lists; assigning an
    existing key keeps its position, deleting a missing key fails. *)
From Coq Require Import List Bool.
Import ListNotations.

Class EqDec (K : Type) := eq_dec : forall x y : K, {x = y} + {x <> y}.

Section Dict.
Context {K V : Type} `{EqDec K}.

Definition dict := list (K * V).

Fixpoint dget (d : dict) (k : K) : option V :=
  match d with
  | [] => None
  | (k', v) :: d' => if eq_dec k k' then Some v else dget d' k
  end.

Definition dmem (d : dict) (k : K) : bool := match dget d k with Some _ => true | None => false end.

Fixpoint dset (d : dict) (k : K) (v : V) : dict :=
  match d with
  | [] => [(k, v)]
  | (k', v') :: d' => if eq_dec k k' then (k', v) :: d' else (k', v') :: dset d' k v
  end.

(** [del d[k]]; the caller checks membership first (KeyError). *)
Fixpoint ddel (d : dict) (k : K) : dict :=
  match d with
  | [] => []
  | (k', v') :: d' => if eq_dec k k' then d' else (k', v') :: ddel d' k
  end.

Definition dkeys (d : dict) : list K := map fst d.

End Dict.
Arguments dict : clear implicits.
