(** Model of the text file filter (src/magnopy/io/txt/internal.py:1027-1097) and of the verifier
    (src/magnopy/io/txt/verify.py).

    Every check returns [true] when errors were found, as in the code. Messages and the line numbers
    handed to the checks (they only occur in messages) are in [VerifyLog.v]; the filter's line numbers are here.
    [errors = errors or check(...)] is written as a disjunction: the checks are pure and, but for
    [_verify_atoms], cannot raise on filtered lines (each has at least one word, so [line[0]] exists; the
    model's [word0] gives the empty word otherwise). *)
From Coq Require Import String Ascii List Bool ZArith Arith.
From Verif.Base Require Import Scalar Linear3 PyDict PyString PyText.
From Verif.Model Require Import Hamiltonian.
Import ListNotations.
Local Open Scope string_scope.

#[global] Instance string_eq_dec : EqDec string := string_dec.
#[global] Instance ascii_eq_dec : EqDec ascii := ascii_dec.

(** ** Filter, internal.py:1027-1097 *)

(** internal.py:1074-1084: one pass with the line numbers starting at [n]. *)
Fixpoint filter_lines (n : nat) (ls : list string) : list string * list nat :=
  match ls with
  | [] => ([], [])
  | l :: t =>
      let '(fs, is) := filter_lines (S n) t in
      if starts_with "#" l then (fs, is) else
      let l' := py_strip (before "#"%char l) in
      if emptyb l' then (fs, is) else (l' :: fs, (n + 1)%nat :: is)
  end.
(** [_filter_txt_file] given the lines of the file or the [lines] argument; [ValueError] unless exactly one
    of [filename] and [lines] is given (1057-1062). [content] is what [f.readlines()] returns. *)
Definition filter_txt_file (content : option (list string)) (lines : option (list string)) : out (list string * list nat) :=
  match content, lines with
  | None, None => Raise ValueError
  | Some _, Some _ => Raise ValueError
  | Some c, None => Ret (filter_lines 0 c)
  | None, Some l => Ret (filter_lines 0 l)
  end.

(** ** Checks *)
Definition true_keywords := ["true"; "t"; "yes"; "y"; "1"].    (* units/inside.py *)
Definition false_keywords := ["false"; "f"; "no"; "n"; "0"].

Definition word0 (ws : list string) : string := hd "" ws.
(** First character of a word; [None] for the empty word. *)
Definition char0 (w : string) : option ascii := match w with EmptyString => None | String c _ => Some c end.
Definition dashes := repeat_char "-" 10.
Definition equals := repeat_char "=" 10.

(** verify.py:65-76 *)
Definition is_bool (w : string) : bool := mem_str (str_lower w) (true_keywords ++ false_keywords).

(** verify.py:80-114 *)
Definition verify_atom_name (w : string) : bool :=
  negb (match char0 w with Some c => is_alnum c | None => false end && Nat.eqb (py_count "#" w) 0)
  || starts_with "__" w || ends_with "__" w.

(** verify.py:117-207 *)
Definition verify_section_header (line : string) (units : list string) : bool :=
  let ws := py_split (str_lower line) in
  match ws with
  | [_; u] => negb (existsb (fun e => starts_with e (str_lower u)) units)   (* no units expected: always an error *)
  | [_] => false
  | _ => true
  end.

(** verify.py:320-396; [exact] amounts, or at least one amount. *)
Definition verify_size_exact (lines : list string) (amounts : list nat) : bool :=
  negb (existsb (Nat.eqb (List.length lines)) amounts).
Definition verify_size_at_least (lines : list string) (n : nat) : bool := Nat.ltb (List.length lines) n.

(** verify.py:399-430 *)
Definition verify_short_separator (line : string) (symbol : ascii) : bool :=
  (String.length (py_strip line) <? 10)%nat && (String.length (py_strip line) =? py_count symbol line)%nat.

Section Verify.
(** [float(word)] / [int(word)] succeed, verify.py:32-62. *)
Variable is_float : string -> bool.
Variable is_integer : string -> bool.

(** verify.py:270-317, one line: the words after the keyword, the allowed amounts of numbers. *)
Definition verify_numbers (ws : list string) (amounts : list nat) : bool :=
  negb (existsb (Nat.eqb (List.length ws)) amounts) || existsb (fun w => negb (is_float w)) ws.
Fixpoint verify_number_lines (lines : list string) (specs : list (list nat)) : bool :=
  match lines, specs with
  | l :: lt, s :: st => verify_numbers (py_split (str_lower l)) s || verify_number_lines lt st
  | _, _ => false
  end.
(** [_verify_numerical_data_block] without keyword, verify.py:210-317. *)
Definition verify_data_block (lines : list string) (specs : list (list nat)) : bool :=
  negb (Nat.eqb (List.length lines) (List.length specs)) || verify_number_lines lines specs.
(** The same with a keyword, of which the first letter is compared (280-294). *)
Definition verify_keyword_block (k : ascii) (lines : list string) (specs : list (list nat)) : bool :=
  negb (Nat.eqb (List.length lines) (List.length specs)) ||
  match lines, specs with
  | l :: lt, s :: st =>
      let ws := py_split (str_lower l) in
      negb (match char0 (word0 ws) with Some c => Ascii.eqb c k | None => false end)
      || verify_numbers (tl ws) s || verify_number_lines lt st
  | _, _ => false
  end.

Context {F : Type} {SF : Scalar F}.
Variable to_float : string -> option F.

(** [float(w) <= 0] / [float(w) == 0] for a word that is a number. *)
Definition float_is_zero (w : string) : bool :=
  match to_float w with Some x => if feq_dec x f0 then true else false | None => false end.
Definition float_not_positive (w : string) : bool :=
  match to_float w with Some x => fltb x f0 || (if feq_dec x f0 then true else false) | None => false end.

(** ** Cell, verify.py:436-504 *)
Definition verify_cell (lines : list string) : bool :=
  if verify_size_exact lines [4; 5]%nat then true else
  let e1 := verify_section_header (hd "" lines) ["a"; "b"] in
  if Nat.eqb (List.length lines) 5 then
    let scale_errors := verify_data_block [nth 1 lines ""] [[1; 3]]%nat in
    let scale := py_split (nth 1 lines "") in
    let e2 := negb scale_errors && Nat.eqb (List.length scale) 1 && float_is_zero (nth 0 scale "") in
    let e3 := negb scale_errors && Nat.eqb (List.length scale) 3
              && (float_not_positive (nth 0 scale "") || float_not_positive (nth 1 scale "") || float_not_positive (nth 2 scale "")) in
    e1 || scale_errors || e2 || e3 || verify_data_block (skipn 2 lines) [[3]; [3]; [3]]%nat
  else e1 || verify_data_block (skipn 1 lines) [[3]; [3]; [3]]%nat.

(** ** Atoms, verify.py:510-799 *)
Definition verify_vector_keyword (keywords : list string) (liter : string) : bool :=
  let ks := sort_str keywords in
  negb (existsb (fun e => if list_eq_dec string_dec ks e then true else false)
    [ [liter ++ "x"; liter ++ "y"; liter ++ "z"];
      [liter; liter ++ "p"; liter ++ "t"];
      [liter];
      [liter; liter ++ "x"; liter ++ "y"; liter ++ "z"];
      [liter; liter ++ "p"; liter ++ "t"; liter ++ "x"; liter ++ "y"; liter ++ "z"];
      [] ]).

(** The class a keyword of the data header falls in, 633-645 (tests in this order). *)
Definition is_position (k : string) : bool := starts_with "r" k || is_substring k "xyz".
Definition is_spin (k : string) : bool := negb (is_position k) && starts_with "s" k.
Definition is_orbital (k : string) : bool := negb (is_position k) && starts_with "l" k.
Definition is_total (k : string) : bool := negb (is_position k) && starts_with "j" k.

(** verify.py:567-699: number of blocks, index of the name, errors. *)
Definition verify_atoms_data_header (line : string) : nat * option nat * bool :=
  let keywords0 := py_split (str_lower line) in
  let e1 := negb (Nat.eqb (List.length keywords0) (List.length (nodup string_dec keywords0))) in
  let name_index := index_of "name" keywords0 in
  let e2 := match name_index with Some _ => false | None => true end in
  let keywords := remove_str "g" (remove_str "q" (remove_str "name" keywords0)) in
  let position := sort_str (filter is_position keywords) in
  let e3 := negb (existsb (fun e => if list_eq_dec string_dec position e then true else false)
              [ ["r1"; "r2"; "r3"]; ["x"; "y"; "z"]; ["r1"; "r2"; "r3"; "x"; "y"; "z"] ]) in
  (List.length (py_split line), name_index,
   e1 || e2 || e3
   || verify_vector_keyword (filter is_spin keywords) "s"
   || verify_vector_keyword (filter is_orbital keywords) "l"
   || verify_vector_keyword (filter is_total keywords) "j").

(** Data blocks of one atom line other than the name: numbers or "-", 775-789. *)
Definition verify_blocks (name_index : option nat) (ws : list string) : bool :=
  existsb (fun p => negb (match name_index with Some n => Nat.eqb (fst p) n | None => false end)
                    && negb (is_float (snd p)) && (if string_dec (snd p) "-" then false else true))
          (combine (seq 0 (List.length ws)) ws).

(** The loop over the atom lines, 747-789: [line[name_index]] raises IndexError on a line that is too short. *)
Fixpoint verify_atom_lines (N : nat) (name_index : option nat) (lines : list string) (allowed : list string) (errors : bool)
  : out (list string * bool) :=
  match lines with
  | [] => Ret (allowed, errors)
  | l :: t =>
      let ws := py_split l in
      let e1 := errors || negb (Nat.eqb (List.length ws) N) in
      match name_index with
      | None => verify_atom_lines N name_index t allowed (e1 || verify_blocks name_index ws)
      | Some n =>
          match nth_error ws n with
          | None => Raise IndexError
          | Some name => verify_atom_lines N name_index t (allowed ++ [name])
                           (e1 || verify_atom_name name || verify_blocks name_index ws)
          end
      end
  end.
(** [_verify_atoms], verify.py:702-799; [allowed_atoms] is a set: the list of names, its size that of [nodup]. *)
Definition verify_atoms (lines : list string) : out (list string * bool) :=
  if verify_size_at_least lines 3 then Ret ([], true) else
  let e1 := verify_section_header (hd "" lines) ["a"; "b"] in
  let '(N, name_index, e2) := verify_atoms_data_header (nth 1 lines "") in
  match verify_atom_lines N name_index (skipn 2 lines) [] (e1 || e2) with
  | Raise e => Raise e
  | Ret (allowed, errors) =>
      Ret (allowed, errors || negb (Nat.eqb (List.length (nodup string_dec allowed)) (List.length lines - 2)))
  end.

(** ** Notation, verify.py:805-952 *)

(** [found_properties] (871-898): first letter of the property to its value; first entry wins, errors. *)
Fixpoint find_properties (lines : list string) (found : dict ascii string) (errors : bool) : dict ascii string * bool :=
  match lines with
  | [] => (found, errors)
  | l :: t =>
      match py_split (str_lower l) with
      | [p; v] =>
          match char0 p with
          | Some c => if dmem found c then find_properties t found true
                      else find_properties t (dset found c v) errors
          | None => find_properties t found true
          end
      | _ => find_properties t found true
      end
  end.
Definition verify_property (found : dict ascii string) (c : ascii) (expected : bool) (check : string -> bool) : bool :=
  match dget found c with
  | None => expected
  | Some v => negb (check v)
  end.
Definition verify_notation (expect_ef expect_of expect_dc expect_sn : bool) (lines : list string) : bool :=
  let n (b : bool) := if b then 1%nat else 0%nat in
  let e1 := verify_size_at_least lines (n expect_ef + n expect_of + n expect_dc + n expect_sn + 1) in
  let e2 := verify_section_header (hd "" lines) [] in
  let '(found, e3) := find_properties (tl lines) [] false in
  e1 || e2 || e3
  || verify_property found "d" expect_dc is_bool || verify_property found "s" expect_sn is_bool
  || verify_property found "e" expect_ef is_float || verify_property found "o" expect_of is_float.

(** ** Exchange, verify.py:958-1178 *)

(** Data lines of a bond, 1018-1063: errors and the number of entries (matrix, symmetric, dmi, iso). The loop
    also looks at the rows of the matrix. *)
Fixpoint verify_bond_data (lines : list string) : bool * (nat * nat * nat * nat) :=
  match lines with
  | [] => (false, (0, 0, 0, 0)%nat)
  | l :: t =>
      let k := word0 (py_split (str_lower l)) in
      let '(e, (m, s, d, i)) := verify_bond_data t in
      let is_i := starts_with "i" k in
      let is_d := starts_with "d" k in
      let is_s := starts_with "s" k in
      let is_m := starts_with "m" k in
      ((is_i && verify_keyword_block "i" [l] [[1]]%nat) || (is_d && verify_keyword_block "d" [l] [[3]]%nat)
       || (is_s && verify_keyword_block "s" [l] [[5]]%nat)
       || (is_m && verify_keyword_block "m" (firstn 4 (l :: t)) [[0]; [3]; [3]; [3]]%nat) || e,
       (if is_m then S m else m, if is_s then S s else s, if is_d then S d else d, if is_i then S i else i))
  end.
Definition verify_bond (allowed : list string) (lines : list string) : bool :=
  let ws := py_split (hd "" lines) in
  let e1 := match ws with
            | [n1; n2; i; j; k] =>
                verify_atom_name n1 || verify_atom_name n2 || negb (mem_str n1 allowed) || negb (mem_str n2 allowed)
                || negb (is_integer i && is_integer j && is_integer k)
            | _ => true
            end in
  let '(e2, (m, s, d, i)) := verify_bond_data (tl lines) in
  e1 || e2 || Nat.ltb 1 m || Nat.ltb 1 s || Nat.ltb 1 d || Nat.ltb 1 i || Nat.eqb (m + s + d + i) 0.

(** [_verify_exchange], 1107-1178. The code looks for the bonds with an index that runs over the lines: it skips
    separators, then takes the lines up to the next line starting with ten dashes. Too short separators are
    errors wherever they are; where a run starts with some, the code skips them. *)
Definition is_subsep (l : string) : bool := starts_with dashes l.
Definition short_dash (l : string) : bool := verify_short_separator l "-".
Definition nonempty {A} (l : list A) : bool := match l with [] => false | _ => true end.
Definition exchange_blocks (lines : list string) : list (list string) :=
  filter nonempty (map (drop_while short_dash) (split_runs is_subsep (tl lines))).
Definition energy_units := ["m"; "e"; "j"; "k"; "r"].
Definition verify_exchange (allowed : list string) (lines : list string) : bool :=
  let bonds := exchange_blocks lines in
  verify_section_header (hd "" lines) energy_units || existsb short_dash (tl lines)
  || negb (nonempty bonds) || existsb (verify_bond allowed) bonds.

(** ** On-site, verify.py:1184-1291. The loop alternates: skip separators, a name line, a line of six numbers
    (a line of numbers is taken whatever it looks like, so separators are only skipped before names). The second
    component counts the parameters. [expect] tells whether the line of numbers is due. *)
Fixpoint verify_on_site_lines (allowed : list string) (expect : bool) (lines : list string) : bool * nat :=
  match lines with
  | [] => (expect, 0%nat)
  | l :: t =>
      if expect then
        let '(e, n) := verify_on_site_lines allowed false t in (verify_data_block [l] [[6]]%nat || e, S n)
      else if short_dash l then (true, snd (verify_on_site_lines allowed false t))
      else if is_subsep l then verify_on_site_lines allowed false t
      else
        let ws := py_split l in
        let '(e, n) := verify_on_site_lines allowed true t in
        (negb (Nat.eqb (List.length ws) 1) || verify_atom_name (word0 ws) || negb (mem_str (word0 ws) allowed) || e, n)
  end.
Definition verify_on_site (allowed : list string) (lines : list string) : bool :=
  let '(e, n) := verify_on_site_lines allowed false (tl lines) in
  verify_section_header (hd "" lines) energy_units || e || Nat.eqb n 0.

(** ** Cone axis, verify.py:1297-1339, and spiral vector, 1345-1392 *)
Definition verify_cone_axis (lines : list string) : bool :=
  if verify_size_exact lines [2]%nat then true else
  verify_section_header (hd "" lines) ["a"; "r"] || verify_data_block [nth 1 lines ""] [[3; 2]]%nat.
Definition verify_spiral_vector (lines : list string) : bool :=
  if verify_size_exact lines [2]%nat then true else
  verify_section_header (hd "" lines) ["a"; "r"] || verify_data_block [nth 1 lines ""] [[3]]%nat.

(** ** The file, verify.py:1423-1563 *)
Definition is_sep (l : string) : bool := starts_with equals l.
Definition short_equal (l : string) : bool := verify_short_separator l "=".

(** Sections in the order of the file: the lines between separators, without leading short separators (1460-1485). *)
Definition section_blocks (lines : list string) : list (list string) :=
  filter nonempty (map (drop_while short_equal) (split_runs is_sep lines)).
(** [lines[i].split()[0].lower()], 1475. *)
Definition section_keyword (s : list string) : string := str_lower (word0 (py_split (hd "" s))).
(** [found_sections]: keyword to section, the last one of a name wins (1493); the code stores (start, end). *)
Definition found_sections (lines : list string) : dict string (list string) :=
  fold_left (fun d s => dset d (section_keyword s) s) (section_blocks lines) [].

(** One verified section, 1534-1553; unsupported sections only produce a warning. *)
Definition verify_section (found : dict string (list string)) (allowed : list string) (name : string) (lines : list string) : bool :=
  let ex := dmem found "exchange" in
  let os := dmem found "on-site" in
  if string_dec name "cell" then verify_cell lines
  else if string_dec name "notation" then verify_notation ex os ex (ex || os) lines
  else if string_dec name "exchange" then verify_exchange allowed lines
  else if string_dec name "on-site" then verify_on_site allowed lines
  else if string_dec name "cone-axis" then verify_cone_axis lines
  else if string_dec name "spiral-vector" then verify_spiral_vector lines
  else false.

(** [_verify_model_file] with [return_sections]: the sections found and whether there are errors. *)
Definition verify_file (lines : list string) : out (dict string (list string) * bool) :=
  let found := found_sections lines in
  let e1 := existsb short_equal lines in
  let e2 := negb (dmem found "cell") || negb (dmem found "atoms") in
  match (match dget found "atoms" with
         | Some a => verify_atoms a
         | None => Ret ([], false)
         end) with
  | Raise e => Raise e
  | Ret (allowed, e3) =>
      Ret (found, e1 || e2 || e3
                  || existsb (fun p => if string_dec (fst p) "atoms" then false
                                       else verify_section found allowed (fst p) (snd p)) found)
  end.
(** With [raise_on_fail], 1556-1570. *)
Definition verify_model_file (raise_on_fail : bool) (lines : list string) : out (dict string (list string)) :=
  match verify_file lines with
  | Raise e => Raise e
  | Ret (found, errors) => if errors && raise_on_fail then Raise FailedToVerifyTxtModelFile else Ret found
  end.

End Verify.
