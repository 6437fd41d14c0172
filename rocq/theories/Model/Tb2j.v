(** Model of [load_tb2j] (src/magnopy/io/txt/tb2j.py:27-199).

    The file is the list of its lines (each is non-empty in Python: it ends with a newline; the end of the file
    reads as the empty string, [None] here). Word to number conversion is that of [externals].

    Not modelled: [eps_rel] and [bravais_type] (they concern wulfric's lattice type only), the printed warnings
    about distances. wulfric (trusted): the cell must be three rows of three numbers, positions three numbers;
    [add_atom] refuses an atom (name and index) that is already there; spins stay undefined ([magmom] is another
    attribute). [ijk] with less than three numbers cannot be unpacked by [add_exchange]. *)
From Coq Require Import String Ascii List Bool ZArith Arith.
From Verif.Base Require Import Scalar Linear3 PyDict PyString PyText PyText2.
From Verif.Model Require Import MatrixParam Hamiltonian TxtVerify TxtRead.
Import ListNotations.
Local Open Scope string_scope.

(** 74-87 *)
Definition minor_sep : string := repeat_char "-" 88.
Definition garbage : list ascii := ["("; ")"; "["; "]"; ","; "'"]%char.
Definition ungarbage (s : string) : string := delete_chars garbage s.       (* str.translate(garbage) *)
Definition cell_flag := "Cell (Angstrom):".
Definition atoms_flag := "Atoms:".
Definition atom_end_flag := "Total".
Definition exchange_flag := "Exchange:".
Definition iso_flag := "J_iso:".
Definition aniso_flag := "J_ani:".
Definition dmi_flag := "DMI:".

(** The variable [line]: a line, the words of one, or the end of the file. *)
Inductive pyline := LStr (s : string) | LWords (ws : list string) | LEnd.
Definition truthy (l : pyline) : bool := match l with LStr _ => true | LWords [] => false | LWords _ => true | LEnd => false end.
(** [flag in line] *)
Definition is_in (flag : string) (l : pyline) : bool :=
  match l with LStr s => has_sub flag s | LWords ws => mem_str flag ws | LEnd => false end.
Definition readline (file : list string) : pyline * list string :=
  match file with [] => (LEnd, []) | l :: t => (LStr l, t) end.
(** [file.readline()] as text *)
Definition text_of (l : pyline) : string := match l with LStr s => s | _ => "" end.

Section Tb2j.
Context {F : Type} {SF : Scalar F}.
Variable X : externals F.
Notation M := (@M F).
Notation world := (@world F).

Definition three_floats (ws : list string) : out (V3 F) :=
  obind (py_floats X ws) (fun r => match r with [a; b; c] => Ret (mkV a b c) | _ => Raise ValueError end).

(** 118-139: an atom of the table. *)
Record tb_atom := mkTA { ta_name : string; ta_index : Z; ta_position : V3 F; ta_charge : option F; ta_magmom : option (V3 F) }.
Definition read_tb_atom (i : Z) (ws : list string) : out tb_atom :=
  obind (match nth_error ws 7 with
         | Some _ => obind (three_floats (firstn 3 (skipn 5 ws))) (fun v => Ret (Some v))
         | None => Ret None
         end) (fun magmom =>
  obind (match nth_error ws 4 with Some w => obind (py_float X w) (fun q => Ret (Some q)) | None => Ret None end) (fun charge =>
  obind (three_floats (firstn 3 (skipn 1 ws))) (fun pos => Ret (mkTA (hd "" ws) i pos charge magmom)))).
(** 113-139; [ws] is the current line. *)
Fixpoint read_tb_atoms (i : Z) (ws : list string) (file : list string) (acc : list tb_atom) : out (pyline * list string * list tb_atom) :=
  if (negb (nonempty ws) || mem_str atom_end_flag ws)%bool then Ret (LWords ws, file, acc)
  else obind (read_tb_atom i ws) (fun a =>
    match file with
    | [] => Ret (LWords [], [], (acc ++ [a])%list)
    | l :: t => read_tb_atoms (i + 1)%Z (py_split l) t (acc ++ [a])
    end).

(** Everything before exchange, 94-144: line, rest of the file, cell and atoms. *)
Definition words_at (file : list string) (n : nat) : list string := py_split (nth n file "").
Fixpoint read_head (fuel : nat) (file : list string) (cell : option (M3 F)) (atoms : list tb_atom)
  : out (pyline * list string * option (M3 F) * list tb_atom) :=
  match fuel with
  | O => Ret (LEnd, file, cell, atoms)
  | S fuel' =>
      let '(line, file) := readline file in
      obind (if is_in cell_flag line then
               obind (three_floats (words_at file 0)) (fun a => obind (three_floats (words_at file 1)) (fun b =>
               obind (three_floats (words_at file 2)) (fun c => Ret (Some (rows a b c), skipn 3 file))))
             else Ret (cell, file)) (fun '(cell, file) =>
      obind (if is_in atoms_flag line then
               read_tb_atoms 1 (words_at file 2) (skipn 3 file) atoms
             else Ret (line, file, atoms)) (fun '(line, file, atoms) =>
      if (truthy line && is_in exchange_flag line)%bool then Ret (line, file, cell, atoms)
      else if truthy line then read_head fuel' file cell atoms
      else Ret (line, file, cell, atoms)))
  end.

(** One block, 163-189: what was read so far. *)
Record block := mkBl { bl_iso : option F; bl_aniso : option (list (list F)); bl_dmi : option (list F) }.
Definition last_word (ws : list string) : string := last ws "".
Definition last_three (ws : list string) : list string := skipn (List.length ws - 3) ws.
Definition read_block_line (l : string) (file : list string) (b : block) : out (list string * block) :=
  obind (if has_sub iso_flag l then obind (py_float X (last_word (py_split l))) (fun x => Ret (Some x)) else Ret (bl_iso b)) (fun iso =>
  obind (if has_sub aniso_flag l then
           let row n := py_floats X (py_split (ungarbage (nth n file ""))) in
           obind (row 0) (fun r1 => obind (row 1) (fun r2 => obind (row 2) (fun r3 => Ret (Some [r1; r2; r3], skipn 3 file))))
         else Ret (bl_aniso b, file)) (fun '(aniso, file) =>
  obind (if has_sub dmi_flag l then obind (py_floats X (last_three (py_split (ungarbage l)))) (fun d => Ret (Some d)) else Ret (bl_dmi b)) (fun dmi =>
  Ret (file, mkBl iso aniso dmi)))).
Fixpoint read_block (fuel : nat) (line : pyline) (file : list string) (b : block) : out (pyline * list string * block) :=
  match fuel with
  | O => Ret (line, file, b)
  | S fuel' =>
      if (negb (truthy line) || is_in minor_sep line)%bool then Ret (line, file, b)
      else match file with
           | [] => Ret (LEnd, [], b)
           | l :: t => obind (read_block_line l t b) (fun '(t', b') => read_block fuel' (LStr l) t' b')
           end
  end.
(** The keyword arguments of [add_exchange]; ValueError for arrays of another shape. *)
Definition block_matrix (b : block) : option (M3 F) :=
  match match bl_aniso b with Some a => option_map Some (array33 a) | None => Some None end,
        match bl_dmi b with Some d => option_map Some (array3 d) | None => Some None end with
  | Some a, Some d => Some (p_init None (bl_iso b) a d)
  | _, _ => None
  end.

(** 155-156 *)
Fixpoint skip_to_sep (line : pyline) (file : list string) : pyline * list string :=
  if (negb (truthy line) || is_in minor_sep line)%bool then (line, file)
  else match file with [] => (LEnd, []) | l :: t => skip_to_sep (LStr l) t end.
Definition int3 (ws : list string) : out (option cell3) :=
  match ws with
  | [i; j; k] => obind (py_int X i) (fun i' => obind (py_int X j) (fun j' => obind (py_int X k) (fun k' => Ret (Some (i', j', k')))))
  | [i; j] => obind (py_int X i) (fun _ => obind (py_int X j) (fun _ => Ret None))
  | [i] => obind (py_int X i) (fun _ => Ret None)
  | _ => Ret None
  end.
Local Open Scope py_scope.
(** The exchange loop, 154-197. *)
Fixpoint read_exchanges (fuel : nat) (line : pyline) (file : list string) : M unit :=
  match fuel with
  | O => ret tt
  | S fuel' =>
      if negb (truthy line) then ret tt else
      let '(_, file) := skip_to_sep line file in
      let '(line, file) := readline file in
      let ws := py_split (ungarbage (text_of line)) in
      n1 <- lift (item ws 0) ;; n2 <- lift (item ws 1) ;;
      R <- lift (int3 (firstn 3 (skipn 2 ws))) ;;
      _ <- lift (py_float X (last_word ws)) ;;
      p <- lift (read_block (S (List.length file)) (LWords ws) file (mkBl None None None)) ;;
      let '(line, file, b) := p in
      match R with
      | Some R => add_exchange_new (AName n1) (AName n2) R (block_matrix b)
      | None => raise ValueError
      end ;;;
      read_exchanges fuel' line file
  end.

(** wulfric's [add_atom], 132-139. *)
Definition add_tb_atoms (l : list tb_atom) : M unit :=
  for_each l (fun a => at_ <- gets (@h_atoms F) ;;
    if mem_atom (mkAtom (ta_name a) (ta_index a)) at_ then raise ValueError else add_atom (mkAtom (ta_name a) (ta_index a))).

Record tb_loaded := mkTL { tl_cell : option (M3 F); tl_atoms : list tb_atom; tl_ham : world }.
(** [load_tb2j]; the atoms enter the Hamiltonian while the head is read, no later step of the head looks at them. *)
Definition load_tb2j (file : list string) : out tb_loaded :=
  let w0 : world := mkW [] (new_ham [] []) in
  obind (run_out (set_notation (NStr "TB2J")) w0) (fun w1 =>
  obind (read_head (S (List.length file)) file None []) (fun '(line, rest, cell, atoms) =>
  obind (run_out (add_tb_atoms atoms) w1) (fun w2 =>
  obind (run_out (read_exchanges (S (List.length rest)) line rest) w2) (fun w3 =>
  Ret (mkTL cell atoms w3))))).
End Tb2j.
