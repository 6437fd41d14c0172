(** Model of the messages of the text file verifier (src/magnopy/io/txt/verify.py).

    The checks of [TxtVerify.v] again, here with the lines' original numbers and with everything that goes to
    [_logger.error]; messages of the levels info and warning are not modelled. A line is its text and its number
    in the file. A check gives the messages in the order in which they are logged and whether errors were found. *)
From Coq Require Import String Ascii List Bool ZArith Arith DecimalString.
From Verif.Base Require Import Scalar Linear3 PyDict PyString PyText.
From Verif.Model Require Import Hamiltonian TxtVerify.
Import ListNotations.
Local Open Scope string_scope.

(** ** Messages *)
Inductive complaint :=
| BadName (n : nat) (w : string)                                     (* 101-112 *)
| UnitsNotExpected (n : nat) (ws : list string)                      (* 154-161 *)
| UnknownUnits (n : nat) (units : list string) (w : string)          (* 165-174 *)
| HeaderTooLong (n : nat) (units : bool) (ws : list string)          (* 182-205 *)
| WrongLineCount (n expected got : nat)                              (* 260-267 *)
| WrongKeyword (n : nat) (keyword : string) (letter : string)        (* 281-290 *)
| WrongAmount (n : nat) (keyword : option string) (amounts : list nat) (got : nat)   (* 308-317 *)
| NotANumber (n block : nat) (w : string)                            (* 320-330 *)
| SizeExact (n : nat) (section : string) (amounts : list nat) (got : nat)            (* 371-380 *)
| SizeAtLeast (n : nat) (section : string) (least got : nat)         (* 388-397 *)
| ShortSeparator (n : nat) (symbol : ascii) (count : nat)            (* 421-430 *)
| ScaleZero                                                          (* 481-482 *)
| ScaleNotPositive (ws : list string)                                (* 488-491 *)
| VectorKeywords (n : nat) (ws : list string)                        (* 548-558 *)
| NotUnique (n : nat) (ws : list string)                             (* 596-605 *)
| NoName (n : nat)                                                   (* 611-620 *)
| PositionKeywords (n : nat) (ws : list string)                      (* 652-665 *)
| WrongBlocks (n expected : nat) (line : string)                     (* 751-760 *)
| NotNumberOrDash (n block : nat) (w : string)                       (* 774-784 *)
| DuplicateNames (first last unique : nat)                           (* 786-795 *)
| NotTwoBlocks (n : nat) (line : string)                             (* 874-883 *)
| RepeatedProperty (n : nat) (w : string)                            (* 886-895 *)
| MissingProperty (n : nat) (name : string)                          (* 925-930 *)
| BadProperty (n : nat) (kind : string) (w : string)                 (* 934-944 *)
| BondHeader (n : nat) (ws : list string)                            (* 991-1000 *)
| UnknownAtom (n block : nat) (w : string)                           (* 1006-1016 *)
| NotIntegers (n : nat) (ws : list string)                           (* 1019-1028 *)
| RepeatedData (first last : nat) (key : string)                     (* 1080-1089 *)
| NoData (first last : nat)                                          (* 1092-1101 *)
| NoBonds                                                            (* 1168-1170 *)
| NotOnlyName (n : nat) (line : string)                              (* 1229-1238 *)
| UnknownSiteAtom (n : nat) (w : string)                             (* 1242-1251 *)
| NumbersMissing (n : nat)                                           (* 1256-1266 *)
| NoParameters                                                       (* 1278-1282 *)
| MissingSection (name : string).                                    (* 1499-1502 *)

Definition dec (n : nat) : string := NilZero.string_of_uint (Nat.to_uint n).
Definition join_words (ws : list string) : string := String.concat " " ws.
Definition in_quotes (s : string) : string := """" ++ s ++ """".
(** What is handed to [_logger.error], by the lines named above. *)
Definition at_line (n : nat) (s : string) : string := "Line " ++ dec n ++ ": " ++ s.
Definition at_block (n b : nat) (s : string) : string := "Line " ++ dec n ++ ", block " ++ dec b ++ ": " ++ s.
Definition either (amounts : list nat) : string := String.concat " or " (map dec amounts).
Definition text (c : complaint) : string :=
  match c with
  | BadName n w => at_line n ("Atom names have to start with a letter or a number and should not contain any ""#"" symbols and should not start nor end with double underscore ""__"", got " ++ in_quotes w)
  | UnitsNotExpected n ws => at_line n ("expected only the section name and no <units>, got " ++ in_quotes (join_words ws) ++ ".")
  | UnknownUnits n us w => at_block n 2 ("expected word starting from " ++ String.concat ", " (map in_quotes us) ++ " got " ++ in_quotes w ++ ".")
  | HeaderTooLong n u ws => at_line n ("expected " ++ in_quotes (hd "" ws) ++ " keyword and" ++ (if u then "/or" else " no") ++ " <units>, got " ++ in_quotes (join_words ws) ++ ".")
  | WrongLineCount n e g => at_line n ("Expected to have " ++ dec e ++ " lines,got " ++ dec g ++ " lines")
  | WrongKeyword n k l => at_line n ("expected to have the " ++ in_quotes k ++ " keyword (only first letter is checked),got " ++ in_quotes l)
  | WrongAmount n k am g => at_line n ("expected to have " ++ match k with Some k => in_quotes k ++ " keyword followed by" | None => "" end ++ " " ++ either am ++ " numbers, got " ++ dec g ++ " numbers")
  | NotANumber n b w => at_block n b ("expected a number, got " ++ in_quotes w)
  | SizeExact n s am g => at_line n ("expected to have " ++ s ++ " section with exactly " ++ either am ++ " lines, got " ++ dec g ++ " lines")
  | SizeAtLeast n s l g => at_line n ("expected to have " ++ s ++ " section with at least " ++ dec l ++ " lines, got " ++ dec g ++ " lines")
  | ShortSeparator n c k => at_line n ("Potential separator is too short (expected 10 or more " ++ in_quotes (String c "") ++ " symbols), got " ++ dec k ++ " " ++ in_quotes (String c "") ++ " symbols.")
  | ScaleZero => "Scale can not be zero"
  | ScaleNotPositive ws => "Scale as three numbers - all have to be positive, got ""[" ++ String.concat ", " (map (fun w => "'" ++ w ++ "'") ws) ++ "]"""
  | VectorKeywords n ws => at_line n ("expected to have full combination or several full combinations of vector keywords or nothing got " ++ in_quotes (join_words ws) ++ ". Check atoms section of documentation for the correct format.")
  | NotUnique n ws => at_line n ("expected unique blocks in the data header, got " ++ in_quotes (join_words ws))
  | NoName n => at_line n "expected to have the atom's name in the data header, got none"
  | PositionKeywords n ws => at_line n ("expected to have three or six position keywords. Either ""r1 r2 r3"" or ""x y z"" or both, got " ++ in_quotes (join_words ws))
  | WrongBlocks n e l => at_line n ("expected to have " ++ dec e ++ " blocks as per data header, got " ++ in_quotes l)
  | NotNumberOrDash n b w => at_block n b ("expected a number or ""-"" symbol, got " ++ in_quotes w)
  | DuplicateNames f l u => "Line " ++ dec f ++ "-" ++ dec l ++ ": expected to have unique atom's names, got duplicates. " ++ dec u ++ " unique names found."
  | NotTwoBlocks n l => at_line n ("expected to have two blocks, separated by spaces, got " ++ in_quotes l)
  | RepeatedProperty n w => at_line n ("found more than one entry of the " ++ in_quotes w ++ " property (only first letter is checked)")
  | MissingProperty n p => at_line n ("did not find the " ++ in_quotes p ++ " property in the notation section")
  | BadProperty n k w => at_line n ("expected to have a " ++ k ++ ", got " ++ in_quotes w)
  | BondHeader n ws => at_line n ("expected two atom names and three integers separated by spaces, got " ++ in_quotes (join_words ws))
  | UnknownAtom n b w => at_block n b ("atom name " ++ w ++ " is not present in the atoms section")
  | NotIntegers n ws => at_line n ("expected to have three integers, got " ++ in_quotes (join_words ws))
  | RepeatedData f l k => at_line f ("found more than one " ++ in_quotes k ++ " entry. Check the bond on lines " ++ dec f ++ "-" ++ dec l)
  | NoData f l => at_line f ("did not find any information about the parameter value. Check the bond on lines " ++ dec f ++ "-" ++ dec l)
  | NoBonds => "Found 0 bonds in the ""exchange"" section, expected at least one"
  | NotOnlyName n l => at_line n ("expected only the atom's name, got " ++ in_quotes l)
  | UnknownSiteAtom n w => at_line n ("atom name " ++ w ++ " is not present in the atoms section")
  | NumbersMissing n => at_line n "Expected to have six numbers, separated with spaces at the next line, got nothing"
  | NoParameters => "Found 0 parameters in the ""on-site"" section, expected at least one"
  | MissingSection s => "File: failed to find required section " ++ in_quotes s
  end.

(** ** Checks *)
Definition line := (string * nat)%type.
Definition check := (list complaint * bool)%type.
Definition fine : check := ([], false).
(** [errors = errors or f(...)]: [f] is not called once there are errors. *)
Definition or_check (s f : check) : check := if snd s then s else (fst s ++ fst f, snd f)%list.
(** [e = f(...); errors = errors or e] *)
Definition and_check (s f : check) : check := (fst s ++ fst f, snd s || snd f)%list.
(** [if b: errors = True; _logger.error(...)] *)
Definition fail_if (b : bool) (c : complaint) (s : check) : check := if b then (fst s ++ [c], true)%list else s.
Definition line0 : line := ("", 0%nat).
Definition words (l : line) : list string := py_split (fst l).
Definition low_words (l : line) : list string := py_split (str_lower (fst l)).

(** 80-114 *)
Definition log_atom_name (w : string) (n : nat) : check := fail_if (verify_atom_name w) (BadName n w) fine.
(** 117-207 *)
Definition log_section_header (l : line) (units : list string) : check :=
  let ws := low_words l in
  match ws with
  | [_; u] =>
      match units with
      | [] => fail_if true (UnitsNotExpected (snd l) ws) fine
      | _ => fail_if (negb (existsb (fun e => starts_with e (str_lower u)) units)) (UnknownUnits (snd l) units u) fine
      end
  | [_] => fine
  | _ => fail_if true (HeaderTooLong (snd l) (nonempty units) ws) fine
  end.
(** 333-397 *)
Definition log_size_exact (section : string) (lines : list line) (n : nat) (amounts : list nat) : check :=
  fail_if (negb (existsb (Nat.eqb (List.length lines)) amounts)) (SizeExact n section amounts (List.length lines)) fine.
Definition log_size_at_least (section : string) (lines : list line) (n : nat) (least : nat) : check :=
  fail_if (Nat.ltb (List.length lines) least) (SizeAtLeast n section least (List.length lines)) fine.
(** 400-431 *)
Definition log_short_separator (l : line) (symbol : ascii) : check :=
  fail_if (verify_short_separator (fst l) symbol) (ShortSeparator (snd l) symbol (py_count symbol (fst l))) fine.

Section Verify.
Variable is_float : string -> bool.
Variable is_integer : string -> bool.

(** 319-330: words of a line, counted from [b]. *)
Fixpoint log_numbers (n b : nat) (ws : list string) (s : check) : check :=
  match ws with
  | [] => s
  | w :: t => log_numbers n (S b) t (fail_if (negb (is_float w)) (NotANumber n b w) s)
  end.
(** 293-330: the words of one line, after a keyword if there is one. *)
Definition log_amount (keyword : option string) (n : nat) (ws : list string) (amounts : list nat) (s : check) : check :=
  log_numbers n 1 ws (fail_if (negb (existsb (Nat.eqb (List.length ws)) amounts)) (WrongAmount n keyword amounts (List.length ws)) s).
Fixpoint log_number_lines (lines : list line) (specs : list (list nat)) (s : check) : check :=
  match lines, specs with
  | l :: lt, a :: st => log_number_lines lt st (log_amount None (snd l) (low_words l) a s)
  | _, _ => s
  end.
(** [_verify_numerical_data_block], 210-332. *)
Definition log_data_block (lines : list line) (specs : list (list nat)) : check :=
  log_number_lines lines specs
    (fail_if (negb (Nat.eqb (List.length lines) (List.length specs))) (WrongLineCount (snd (hd line0 lines)) (List.length specs) (List.length lines)) fine).
Definition log_keyword_block (keyword : string) (lines : list line) (specs : list (list nat)) : check :=
  let s := fail_if (negb (Nat.eqb (List.length lines) (List.length specs))) (WrongLineCount (snd (hd line0 lines)) (List.length specs) (List.length lines)) fine in
  match lines, specs with
  | l :: lt, a :: st =>
      let ws := low_words l in
      let first w := match char0 w with Some c => String c "" | None => "" end in
      let s := fail_if (negb (match char0 (word0 ws), char0 keyword with Some c, Some k => Ascii.eqb c k | _, _ => false end)) (WrongKeyword (snd l) keyword (first (word0 ws))) s in
      log_number_lines lt st (log_amount (Some keyword) (snd l) (tl ws) a s)
  | _, _ => s
  end.

Context {F : Type} {SF : Scalar F}.
Variable to_float : string -> option F.

(** 434-507 *)
Definition log_cell (lines : list line) : check :=
  let size := log_size_exact "cell" lines (snd (hd line0 lines)) [4; 5]%nat in
  if snd size then size else
  let s := log_section_header (hd line0 lines) ["a"; "b"] in
  if Nat.eqb (List.length lines) 5 then
    let e := log_data_block [nth 1 lines line0] [[1; 3]]%nat in
    let s := and_check s e in
    let scale := words (nth 1 lines line0) in
    let s := fail_if (negb (snd e) && Nat.eqb (List.length scale) 1 && float_is_zero to_float (nth 0 scale "")) ScaleZero s in
    let s := fail_if (negb (snd e) && Nat.eqb (List.length scale) 3
        && (float_not_positive to_float (nth 0 scale "") || float_not_positive to_float (nth 1 scale "") || float_not_positive to_float (nth 2 scale "")))
        (ScaleNotPositive scale) s in
    or_check s (log_data_block (skipn 2 lines) [[3]; [3]; [3]]%nat)
  else or_check s (log_data_block (skipn 1 lines) [[3]; [3]; [3]]%nat).

(** 510-562 *)
Definition log_vector_keyword (keywords : list string) (liter : string) (n : nat) : check :=
  fail_if (verify_vector_keyword keywords liter) (VectorKeywords n (sort_str keywords)) fine.
(** 565-699: number of blocks, index of the name, errors. *)
Definition log_atoms_data_header (l : line) : nat * option nat * check :=
  let keywords0 := low_words l in
  let n := snd l in
  let s := fail_if (negb (Nat.eqb (List.length keywords0) (List.length (nodup string_dec keywords0)))) (NotUnique n keywords0) fine in
  let name_index := index_of "name" keywords0 in
  let s := fail_if (match name_index with Some _ => false | None => true end) (NoName n) s in
  let keywords := remove_str "g" (remove_str "q" (remove_str "name" keywords0)) in
  let position := sort_str (filter is_position keywords) in
  let s := fail_if (negb (existsb (fun e => if list_eq_dec string_dec position e then true else false)
             [ ["r1"; "r2"; "r3"]; ["x"; "y"; "z"]; ["r1"; "r2"; "r3"; "x"; "y"; "z"] ])) (PositionKeywords n position) s in
  let s := or_check s (log_vector_keyword (filter is_spin keywords) "s" n) in
  let s := or_check s (log_vector_keyword (filter is_orbital keywords) "l" n) in
  (List.length (words l), name_index, or_check s (log_vector_keyword (filter is_total keywords) "j" n)).
(** 768-784: blocks counted from [b]. *)
Fixpoint log_blocks (name_index : option nat) (n b : nat) (ws : list string) (s : check) : check :=
  match ws with
  | [] => s
  | w :: t =>
      log_blocks name_index n (S b) t
        (fail_if (negb (match name_index with Some i => Nat.eqb b i | None => false end) && negb (is_float w) && (if string_dec w "-" then false else true))
                 (NotNumberOrDash n (b + 1) w) s)
  end.
(** 746-784; the messages logged so far are kept when [line[name_index]] raises. *)
Fixpoint log_atom_lines (N : nat) (name_index : option nat) (lines : list line) (allowed : list string) (s : check)
  : list complaint * out (list string * bool) :=
  match lines with
  | [] => (fst s, Ret (allowed, snd s))
  | l :: t =>
      let ws := words l in
      let s := fail_if (negb (Nat.eqb (List.length ws) N)) (WrongBlocks (snd l) N (fst l)) s in
      match name_index with
      | None => log_atom_lines N name_index t allowed (log_blocks name_index (snd l) 0 ws s)
      | Some i =>
          match nth_error ws i with
          | None => (fst s, Raise IndexError)
          | Some name => log_atom_lines N name_index t (allowed ++ [name])%list
                           (log_blocks name_index (snd l) 0 ws (or_check s (log_atom_name name (snd l))))
          end
      end
  end.
(** 702-797. The size is checked twice (731-735), so the message comes twice. *)
Definition log_atoms (lines : list line) : list complaint * out (list string * bool) :=
  let size := log_size_at_least "atoms" lines (snd (hd line0 lines)) 3 in
  if snd size then (fst size ++ fst size, Ret ([], true))%list else
  let s := log_section_header (hd line0 lines) ["a"; "b"] in
  let '(N, name_index, e) := log_atoms_data_header (nth 1 lines line0) in
  match log_atom_lines N name_index (skipn 2 lines) [] (and_check s e) with
  | (log, Raise x) => (log, Raise x)
  | (log, Ret (allowed, errors)) =>
      let k := List.length (nodup string_dec allowed) in
      let s := fail_if (negb (Nat.eqb k (List.length lines - 2))) (DuplicateNames (snd (nth 2 lines line0)) (snd (last lines line0)) k) (log, errors) in
      (fst s, Ret (allowed, snd s))
  end.

(** 868-895: first letter of a property to its value and line. *)
Fixpoint log_find_properties (lines : list line) (found : dict ascii (string * nat)) (s : check) : dict ascii (string * nat) * check :=
  match lines with
  | [] => (found, s)
  | l :: t =>
      match low_words l with
      | [p; v] =>
          match char0 p with
          | Some c => if dmem found c then log_find_properties t found (fail_if true (RepeatedProperty (snd l) p) s)
                      else log_find_properties t (dset found c (v, snd l)) s
          | None => log_find_properties t found (fail_if true (NotTwoBlocks (snd l) (fst l)) s)
          end
      | _ => log_find_properties t found (fail_if true (NotTwoBlocks (snd l) (fst l)) s)
      end
  end.
(** 919-945 *)
Definition log_property (found : dict ascii (string * nat)) (n : nat) (c : ascii) (name kind : string) (expected : bool) (test : string -> bool) (s : check) : check :=
  match dget found c with
  | None => fail_if expected (MissingProperty n name) s
  | Some (v, m) => fail_if (negb (test v)) (BadProperty m kind v) s
  end.
(** 803-958 *)
Definition log_notation (expect_ef expect_of expect_dc expect_sn : bool) (lines : list line) : check :=
  let k (b : bool) := if b then 1%nat else 0%nat in
  let n := snd (hd line0 lines) in
  let s := log_size_at_least "notation" lines n (k expect_ef + k expect_of + k expect_dc + k expect_sn + 1) in
  let s := or_check s (log_section_header (hd line0 lines) []) in
  let '(found, s) := log_find_properties (tl lines) [] s in
  let s := log_property found n "d" "double-counting" "boolean" expect_dc is_bool s in
  let s := log_property found n "s" "spin-normalized" "boolean" expect_sn is_bool s in
  let s := log_property found n "e" "exchange-factor" "number" expect_ef is_float s in
  log_property found n "o" "on-site-factor" "number" expect_of is_float s.

(** 1030-1075 *)
Fixpoint log_bond_data (lines : list line) (s : check) : check :=
  match lines with
  | [] => s
  | l :: t =>
      let k := word0 (low_words l) in
      let s := if starts_with "i" k then or_check s (log_keyword_block "isotropic" [l] [[1]]%nat) else s in
      let s := if starts_with "d" k then or_check s (log_keyword_block "dmi" [l] [[3]]%nat) else s in
      let s := if starts_with "s" k then or_check s (log_keyword_block "symmetric-anisotropy" [l] [[5]]%nat)
               else if starts_with "m" k then or_check s (log_keyword_block "matrix" (firstn 4 (l :: t)) [[0]; [3]; [3]; [3]]%nat) else s in
      log_bond_data t s
  end.
Definition data_starting (c : string) (lines : list line) : nat := List.length (filter (fun l => starts_with c (word0 (low_words l))) lines).
(** 964-1104; [found_data] counts the lines by their first letter. *)
Definition log_bond (allowed : list string) (lines : list line) : check :=
  let l := hd line0 lines in
  let n := snd l in
  let m := snd (last lines line0) in
  let s := match words l with
           | [n1; n2; i; j; k] =>
               let s := or_check (log_atom_name n1 n) (log_atom_name n2 n) in
               let s := fail_if (negb (mem_str n1 allowed)) (UnknownAtom n 1 n1) s in
               let s := fail_if (negb (mem_str n2 allowed)) (UnknownAtom n 2 n2) s in
               fail_if (negb (is_integer i && is_integer j && is_integer k)) (NotIntegers n [i; j; k]) s
           | ws => fail_if true (BondHeader n ws) fine
           end in
  let s := log_bond_data (tl lines) s in
  let count c := data_starting c (tl lines) in
  let s := fail_if (Nat.ltb 1 (count "m")) (RepeatedData n m "matrix") s in
  let s := fail_if (Nat.ltb 1 (count "s")) (RepeatedData n m "symmetric") s in
  let s := fail_if (Nat.ltb 1 (count "d")) (RepeatedData n m "dmi") s in
  let s := fail_if (Nat.ltb 1 (count "i")) (RepeatedData n m "iso") s in
  fail_if (Nat.eqb (count "m" + count "s" + count "d" + count "i") 0) (NoData n m) s.

(** The lines between separators, without leading short separators, as in [TxtVerify.v]. *)
Fixpoint line_runs (sep : string -> bool) (ls : list line) : list line * list (list line) :=
  match ls with
  | [] => ([], [])
  | l :: t =>
      let '(cur, rest) := line_runs sep t in
      if sep (fst l) then ([], match cur with [] => rest | _ => cur :: rest end) else (l :: cur, rest)
  end.
Definition line_blocks (sep short : string -> bool) (ls : list line) : list (list line) :=
  let '(cur, rest) := line_runs sep ls in
  filter nonempty (map (drop_while (fun l => short (fst l))) (match cur with [] => rest | _ => cur :: rest end)).
(** The search for blocks, 1142-1164 and 1446-1485: every line that is not inside a block is tested for a short
    separator, one inside only while there are no errors. *)
Fixpoint log_separators (sep : string -> bool) (symbol : ascii) (inside : bool) (lines : list line) (s : check) : check :=
  match lines with
  | [] => s
  | l :: t =>
      if sep (fst l) then log_separators sep symbol false t s
      else if inside then log_separators sep symbol true t (or_check s (log_short_separator l symbol))
      else log_separators sep symbol (negb (verify_short_separator (fst l) symbol)) t (and_check s (log_short_separator l symbol))
  end.
(** 1107-1178 *)
Definition log_exchange (allowed : list string) (lines : list line) : check :=
  let s := log_section_header (hd line0 lines) energy_units in
  let s := log_separators is_subsep "-" false (tl lines) s in
  let bonds := line_blocks is_subsep short_dash (tl lines) in
  let s := fail_if (negb (nonempty bonds)) NoBonds s in
  fold_left (fun s b => or_check s (log_bond allowed b)) bonds s.

(** 1210-1276: the parameters found and the errors; [before]: the number of the line of the name, when its numbers
    are due. *)
Fixpoint log_on_site_lines (allowed : list string) (before : option nat) (lines : list line) (found : nat) (s : check) : nat * check :=
  match lines with
  | [] => (found, match before with Some n => fail_if true (NumbersMissing n) s | None => s end)
  | l :: t =>
      match before with
      | Some _ => log_on_site_lines allowed None t (S found) (or_check s (log_data_block [l] [[6]]%nat))
      | None =>
          let s := and_check s (log_short_separator l "-") in
          if is_subsep (fst l) || short_dash (fst l) then log_on_site_lines allowed None t found s
          else
            let w := word0 (words l) in
            let s := fail_if (negb (Nat.eqb (List.length (words l)) 1)) (NotOnlyName (snd l) (fst l)) s in
            let s := or_check s (log_atom_name w (snd l)) in
            let s := fail_if (negb (mem_str w allowed)) (UnknownSiteAtom (snd l) w) s in
            log_on_site_lines allowed (Some (snd l)) t found s
      end
  end.
(** 1184-1284 *)
Definition log_on_site (allowed : list string) (lines : list line) : check :=
  let '(found, s) := log_on_site_lines allowed None (tl lines) 0 (log_section_header (hd line0 lines) energy_units) in
  fail_if (Nat.eqb found 0) NoParameters s.

(** 1290-1334 and 1340-1383 *)
Definition log_cone_axis (lines : list line) : check :=
  let size := log_size_exact "cone-axis" lines (snd (hd line0 lines)) [2]%nat in
  if snd size then size else
  or_check (log_section_header (hd line0 lines) ["a"; "r"]) (log_data_block [nth 1 lines line0] [[3; 2]]%nat).
Definition log_spiral_vector (lines : list line) : check :=
  let size := log_size_exact "spiral-vector" lines (snd (hd line0 lines)) [2]%nat in
  if snd size then size else
  or_check (log_section_header (hd line0 lines) ["a"; "r"]) (log_data_block [nth 1 lines line0] [[3]]%nat).

(** ** The file, 1419-1561 *)
Definition line_keyword (s : list line) : string := str_lower (word0 (words (hd line0 s))).
Definition line_sections (lines : list line) : dict string (list line) :=
  fold_left (fun d s => dset d (line_keyword s) s) (line_blocks is_sep short_equal lines) [].
Definition log_section (found : dict string (list line)) (allowed : list string) (name : string) (lines : list line) : check :=
  let ex := dmem found "exchange" in
  let os := dmem found "on-site" in
  if string_dec name "cell" then log_cell lines
  else if string_dec name "notation" then log_notation ex os ex (ex || os) lines
  else if string_dec name "exchange" then log_exchange allowed lines
  else if string_dec name "on-site" then log_on_site allowed lines
  else if string_dec name "cone-axis" then log_cone_axis lines
  else if string_dec name "spiral-vector" then log_spiral_vector lines
  else fine.
(** [_verify_model_file] up to its conclusion: the messages, and the errors or the exception. *)
Definition log_file (lines : list line) : list complaint * out bool :=
  let found := line_sections lines in
  let s := log_separators is_sep "=" false lines fine in
  let s := fail_if (negb (dmem found "cell")) (MissingSection "cell") s in
  let s := fail_if (negb (dmem found "atoms")) (MissingSection "atoms") s in
  let '(log, r) := match dget found "atoms" with Some a => log_atoms a | None => ([], Ret ([], false)) end in
  match r with
  | Raise x => (fst s ++ log, Raise x)%list
  | Ret (allowed, e) =>
      let s := fold_left (fun s p => if string_dec (fst p) "atoms" then s else or_check s (log_section found allowed (fst p) (snd p))) found
                 (and_check s (log, e)) in
      (fst s, Ret (snd s))
  end.
(** The messages logged by [_verify_model_file] on what the filter returns for the lines of a file. *)
Definition messages (content : list string) : list string :=
  let '(ls, ns) := filter_lines 0 content in map text (fst (log_file (combine ls ns))).
End Verify.
