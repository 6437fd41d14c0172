(** Model of the logo (src/magnopy/_pinfo.py:27-132), on texts as lists of code points.

    The default information (56-72) depends on the version and the clock; here [info] is always given. *)
From Coq Require Import List Bool NArith Arith.
Import ListNotations.
Local Open Scope N_scope.

Definition text := list N.
Definition newline : N := 10.
Definition space : N := 32.
(** _pinfo.py:74-99 *)
Definition art : list text :=
  [[9608; 9608; 9608; 9559; 32; 32; 32; 9608; 9608; 9608; 9559; 32; 32; 9608; 9608; 9608; 9608; 9608; 9559; 32; 32; 32; 9608; 9608; 9608; 9608; 9608; 9608; 9559; 32; 32; 9608; 9608; 9608; 9559; 32; 32; 32; 9608; 9608; 9559; 32; 32; 9608; 9608; 9608; 9608; 9608; 9608; 9559; 32; 32; 9608; 9608; 9608; 9608; 9608; 9608; 9559; 32; 32; 9608; 9608; 9559; 32; 32; 32; 9608; 9608; 9559];
   [9608; 9608; 9608; 9608; 9559; 32; 9608; 9608; 9608; 9608; 9553; 32; 9608; 9608; 9556; 9552; 9552; 9608; 9608; 9559; 32; 9608; 9608; 9556; 9552; 9552; 9552; 9552; 9565; 32; 32; 9608; 9608; 9608; 9608; 9559; 32; 32; 9608; 9608; 9553; 32; 9608; 9608; 9556; 9552; 9552; 9552; 9608; 9608; 9559; 32; 9608; 9608; 9556; 9552; 9552; 9608; 9608; 9559; 32; 9562; 9608; 9608; 9559; 32; 9608; 9608; 9556; 9565];
   [9608; 9608; 9556; 9608; 9608; 9608; 9608; 9556; 9608; 9608; 9553; 32; 9608; 9608; 9608; 9608; 9608; 9608; 9608; 9553; 32; 9608; 9608; 9553; 32; 32; 9608; 9608; 9608; 9559; 32; 9608; 9608; 9556; 9608; 9608; 9559; 32; 9608; 9608; 9553; 32; 9608; 9608; 9553; 32; 32; 32; 9608; 9608; 9553; 32; 9608; 9608; 9608; 9608; 9608; 9608; 9556; 9565; 32; 32; 9562; 9608; 9608; 9608; 9608; 9556; 9565; 32];
   [9608; 9608; 9553; 9562; 9608; 9608; 9556; 9565; 9608; 9608; 9553; 32; 9608; 9608; 9556; 9552; 9552; 9608; 9608; 9553; 32; 9608; 9608; 9553; 32; 32; 9562; 9608; 9608; 9553; 32; 9608; 9608; 9553; 9562; 9608; 9608; 9559; 9608; 9608; 9553; 32; 9608; 9608; 9553; 32; 32; 32; 9608; 9608; 9553; 32; 9608; 9608; 9556; 9552; 9552; 9552; 9565; 32; 32; 32; 32; 9562; 9608; 9608; 9556; 9565; 32; 32];
   [9608; 9608; 9553; 32; 9562; 9552; 9565; 32; 9608; 9608; 9553; 32; 9608; 9608; 9553; 32; 32; 9608; 9608; 9553; 32; 9562; 9608; 9608; 9608; 9608; 9608; 9608; 9556; 9565; 32; 9608; 9608; 9553; 32; 9562; 9608; 9608; 9608; 9608; 9553; 32; 9562; 9608; 9608; 9608; 9608; 9608; 9608; 9556; 9565; 32; 9608; 9608; 9553; 32; 32; 32; 32; 32; 32; 32; 32; 32; 9608; 9608; 9553; 32; 32; 32];
   [9562; 9552; 9565; 32; 32; 32; 32; 32; 9562; 9552; 9565; 32; 9562; 9552; 9565; 32; 32; 9562; 9552; 9565; 32; 32; 9562; 9552; 9552; 9552; 9552; 9552; 9565; 32; 32; 9562; 9552; 9565; 32; 32; 9562; 9552; 9552; 9552; 9565; 32; 32; 9562; 9552; 9552; 9552; 9552; 9552; 9565; 32; 32; 9562; 9552; 9565; 32; 32; 32; 32; 32; 32; 32; 32; 32; 9562; 9552; 9565; 32; 32; 32]].
Definition flat_art : list text :=
  [[9608; 9608; 9608; 32; 32; 32; 32; 9608; 9608; 9608; 32; 32; 32; 9608; 9608; 9608; 9608; 9608; 32; 32; 32; 32; 9608; 9608; 9608; 9608; 9608; 9608; 32; 32; 32; 9608; 9608; 9608; 32; 32; 32; 32; 9608; 9608; 32; 32; 32; 9608; 9608; 9608; 9608; 9608; 9608; 32; 32; 32; 9608; 9608; 9608; 9608; 9608; 9608; 32; 32; 32; 9608; 9608; 32; 32; 32; 32; 9608; 9608];
   [9608; 9608; 9608; 9608; 32; 32; 9608; 9608; 9608; 9608; 32; 32; 9608; 9608; 32; 32; 32; 9608; 9608; 32; 32; 9608; 9608; 32; 32; 32; 32; 32; 32; 32; 32; 9608; 9608; 9608; 9608; 32; 32; 32; 9608; 9608; 32; 32; 9608; 9608; 32; 32; 32; 32; 9608; 9608; 32; 32; 9608; 9608; 32; 32; 32; 9608; 9608; 32; 32; 32; 9608; 9608; 32; 32; 9608; 9608; 32];
   [9608; 9608; 32; 9608; 9608; 9608; 9608; 32; 9608; 9608; 32; 32; 9608; 9608; 9608; 9608; 9608; 9608; 9608; 32; 32; 9608; 9608; 32; 32; 32; 9608; 9608; 9608; 32; 32; 9608; 9608; 32; 9608; 9608; 32; 32; 9608; 9608; 32; 32; 9608; 9608; 32; 32; 32; 32; 9608; 9608; 32; 32; 9608; 9608; 9608; 9608; 9608; 9608; 32; 32; 32; 32; 32; 9608; 9608; 9608; 9608; 32; 32];
   [9608; 9608; 32; 32; 9608; 9608; 32; 32; 9608; 9608; 32; 32; 9608; 9608; 32; 32; 32; 9608; 9608; 32; 32; 9608; 9608; 32; 32; 32; 32; 9608; 9608; 32; 32; 9608; 9608; 32; 32; 9608; 9608; 32; 9608; 9608; 32; 32; 9608; 9608; 32; 32; 32; 32; 9608; 9608; 32; 32; 9608; 9608; 32; 32; 32; 32; 32; 32; 32; 32; 32; 32; 9608; 9608; 32; 32; 32];
   [9608; 9608; 32; 32; 32; 32; 32; 32; 9608; 9608; 32; 32; 9608; 9608; 32; 32; 32; 9608; 9608; 32; 32; 32; 9608; 9608; 9608; 9608; 9608; 9608; 32; 32; 32; 9608; 9608; 32; 32; 32; 9608; 9608; 9608; 9608; 32; 32; 32; 9608; 9608; 9608; 9608; 9608; 9608; 32; 32; 32; 9608; 9608; 32; 32; 32; 32; 32; 32; 32; 32; 32; 32; 9608; 9608; 32; 32; 32]].
Definition cat : list text :=
  [[9604; 32; 32; 32; 9604; 32; 32; 32; 32; 32];
   [9608; 9600; 9608; 9600; 9608; 32; 32; 32; 32; 32];
   [9608; 9604; 9608; 9604; 9608; 32; 32; 32; 32; 32];
   [32; 9608; 9608; 9608; 32; 32; 32; 9604; 9604; 32];
   [32; 9608; 9608; 9608; 9608; 32; 9608; 32; 32; 9608];
   [32; 9608; 9608; 9608; 9608; 32; 32; 32; 32; 9608];
   [32; 9600; 9600; 9600; 9600; 9600; 9600; 9600; 9600; 32]].

(** [f"{x:^{w}}"], [f"{x:{w}}"] *)
Definition centred (w : nat) (x : text) : text :=
  let total := (w - length x)%nat in (repeat space (total / 2) ++ x ++ repeat space (total - total / 2))%list.
Definition left_in (w : nat) (x : text) : text := (x ++ repeat space (w - length x))%list.

(** The argument [comment] and the string made of it, 101-110. *)
Inductive comment_arg := CNone | CBool (b : bool) | CStr (s : text).
Definition comment_of (c : comment_arg) : text :=
  match c with
  | CBool true => [35; 32]                        (* "# " *)
  | CBool false => [70; 97; 108; 115; 101]        (* str(False) *)
  | CStr s => s
  | CNone => []
  end.

(** [info[i - before]]: a negative index counts from the end. *)
Definition from_end (info : list text) (i before : nat) : text :=
  if Nat.ltb i before then nth (length info + i - before) info [] else nth (i - before) info [].

(** 112-129: the lines below the picture. *)
Definition info_lines (wide n : nat) (info : list text) : list text :=
  let c := length cat in
  match info with
  | [] => []
  | _ =>
      if Nat.leb (length info) c then
        let before := ((c - length info) / 2 + (c - length info) mod 2)%nat in
        let after := (c - length info - before)%nat in
        map (fun i => if (Nat.ltb i before || Nat.leb (c - after) i)%bool
                      then (left_in (wide - n) [space] ++ centred n (nth i cat []))%list
                      else (centred (wide - n) (nth (i - before) info []) ++ centred n (nth i cat []))%list) (seq 0 c)
      else
        let before := ((length info - c) / 2)%nat in
        let after := (length info - c - before)%nat in
        map (fun i => if (Nat.ltb i before || Nat.leb (length info - after) i)%bool
                      then centred (wide - n) (from_end info i before)
                      else (centred (wide - n) (from_end info i before) ++ centred n (nth (i - before) cat []))%list) (seq 0 (length info))
  end.

(** All lines before the comment and the centring, 95-129. *)
Definition picture (flat : bool) : list text := if flat then flat_art else art.
Definition width (flat : bool) : nat := length (nth 0 (picture flat) []).
Definition plain_lines (info : list text) (flat : bool) : list text :=
  (map (centred (width flat)) (picture flat) ++ info_lines (width flat) (length (nth 0 cat []) + 2) info)%list.
(** 97-100 *)
Definition total_length (line_length : option nat) (flat : bool) : nat :=
  match line_length with None => width flat | Some l => if Nat.ltb l (width flat) then width flat else l end.
(** 131-132: [removelast] is [[:-1]]. *)
Definition logo (info : list text) (line_length : option nat) (flat : bool) (comment : comment_arg) : text :=
  removelast (concat (map (fun x => (comment_of comment ++ centred (total_length line_length flat) x ++ [newline])%list) (plain_lines info flat))).
