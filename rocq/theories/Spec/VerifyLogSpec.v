(** What the messages of the text file verifier say, as statements about the file.

    Spec vocabulary: Spec/TxtSpec.v, Spec/TxtFormat.v, the kinds of messages ([complaint]) and the number
    conversions of [externals]. *)
From Coq Require Import String Ascii List Bool ZArith Sorted.
From Verif.Base Require Import Scalar Linear3 PyDict PyString PyText.
From Verif.Spec Require Import TxtSpec TxtFormat.
From Verif.Model Require Import Hamiltonian TxtRead VerifyLog.
Import ListNotations.
Local Open Scope string_scope.

(** Line [n] of the file, counted from 1, shows the text [t]. *)
Definition stands (content : list string) (n : nat) (t : string) : Prop :=
  (1 <= n)%nat /\ exists l, nth_error content (n - 1) = Some l /\ shows l t /\ t <> "".
(** [L] lists the lines that show something, in order, with their numbers. *)
Definition numbered (content : list string) (L : list line) : Prop :=
  StronglySorted lt (map snd L) /\ forall n t, In (t, n) L <-> stands content n t.

(** Blocks of lines between separators; separators and what looks like one do not begin a block. *)
Definition just (c : ascii) (l : string) : Prop := exists n, (n < 10)%nat /\ l = repeat_char c n.
Inductive cut (sep short : string -> Prop) : list line -> list (list line) -> Prop :=
| cut_nil : cut sep short [] []
| cut_skip l ls bs : sep (fst l) \/ short (fst l) -> cut sep short ls bs -> cut sep short (l :: ls) bs
| cut_last l s : ~ short (fst l) -> Forall (fun l => ~ sep (fst l)) (l :: s) -> cut sep short (l :: s) [l :: s]
| cut_cons l s x ls bs : ~ short (fst l) -> Forall (fun l => ~ sep (fst l)) (l :: s) -> sep (fst x) -> cut sep short ls bs ->
    cut sep short ((l :: s) ++ x :: ls) ((l :: s) :: bs).
Definition sections := cut separator (just "=").
Definition bonds_in := cut dash_separator (just "-").

(** A name: a letter or a digit first, no "#", no "__" at the ends. *)
Definition name_ok (w : string) : Prop :=
  (exists c r, w = String c r /\ is_alnum c = true) /\ no_hash w /\ (forall r, w <> "__" ++ r) /\ (forall r, w <> r ++ "__").
(** The words of a line in lower case. *)
Definition low (t : string) : list string := map str_lower (py_split t).
Definition begins (c : ascii) (t : string) : Prop := exists k ws, py_split t = k :: ws /\ initial c k.
Definition first_number (s : list line) (n : nat) : Prop := exists t r, s = (t, n) :: r.
Definition last_number (s : list line) (n : nat) : Prop := exists t r, s = (r ++ [(t, n)])%list.

Section Truth.
Context {F : Type} {SF : Scalar F}.
Variable X : externals F.
Variable L : list line.              (* the lines of the file that show something *)
Variable secs : list (list line).    (* its sections *)

Definition on (n : nat) (P : string -> Prop) : Prop := exists t, In (t, n) L /\ P t.
Definition section (name : string) (s : list line) : Prop := In s secs /\ section_name (map fst s) = name.
(** A line that begins a section. *)
Definition heads (n : nat) (P : string -> Prop) : Prop := exists t r, In ((t, n) :: r) secs /\ P t.
Definition bond_block (b : list line) : Prop := exists s bs, section "exchange" s /\ bonds_in (tl s) bs /\ In b bs.
(** No atom of the section "atoms" bears the name. *)
Definition unknown (w : string) : Prop :=
  exists h d ls j, section "atoms" (h :: d :: ls) /\ nth_error (low (fst d)) j = Some "name"
    /\ forall l, In l ls -> nth_error (py_split (fst l)) j <> Some w.
Definition not_a_number (w : string) : Prop := x_float X w = None.

Definition tells_truth (c : complaint) : Prop :=
  match c with
  | BadName n w => on n (fun t => In w (py_split t)) /\ ~ name_ok w
  | UnitsNotExpected n ws => heads n (fun t => low t = ws) /\ List.length ws = 2%nat
  | UnknownUnits n us w => heads n (fun t => nth_error (low t) 1 = Some w) /\ forall u r, In u us -> w <> u ++ r
  | HeaderTooLong n _ ws => heads n (fun t => low t = ws) /\ (2 < List.length ws)%nat
  | WrongLineCount n e g => on n (begins "m") /\ e = 4%nat /\ exists b p q, bond_block b /\ b = (p ++ q)%list /\ first_number q n /\ List.length q = g /\ (g < 4)%nat
  | WrongKeyword _ _ _ => False
  | WrongAmount n None am g => on n (fun t => List.length (py_split t) = g) /\ ~ In g am
  | WrongAmount n (Some k) am g => on n (fun t => List.length (py_split t) = S g /\ exists c, initial c k /\ begins c t) /\ ~ In g am
  | NotANumber n b w => not_a_number w /\ (1 <= b)%nat /\
      (on n (fun t => nth_error (low t) (b - 1) = Some w)
       \/ on n (fun t => (begins "i" t \/ begins "d" t \/ begins "s" t \/ begins "m" t) /\ nth_error (low t) b = Some w))
  | SizeExact n name am g => ~ In g am /\ exists s, section name s /\ first_number s n /\ List.length s = g
  | SizeAtLeast n name k g => (g < k)%nat /\ exists s, section name s /\ first_number s n /\ List.length s = g
  | ShortSeparator n c k => (c = "="%char \/ c = "-"%char) /\ (k < 10)%nat /\ on n (fun t => t = repeat_char c k)
  | ScaleZero => exists n w, on n (fun t => py_split t = [w]) /\ x_float X w = Some f0
  | ScaleNotPositive ws => List.length ws = 3%nat /\ (exists n, on n (fun t => py_split t = ws))
      /\ exists w x, In w ws /\ x_float X w = Some x /\ (fltb x f0 = true \/ x = f0)
  | VectorKeywords n ws => on n (fun t => forall w, In w ws -> In w (low t)) /\ ws <> [] /\ exists c, In c ["s"; "l"; "j"] /\
      (forall w, In w ws -> exists r, w = c ++ r) /\
      ~ In ws [[c ++ "x"; c ++ "y"; c ++ "z"]; [c; c ++ "p"; c ++ "t"]; [c]; [c; c ++ "x"; c ++ "y"; c ++ "z"]; [c; c ++ "p"; c ++ "t"; c ++ "x"; c ++ "y"; c ++ "z"]]
  | NotUnique n ws => on n (fun t => low t = ws) /\ ~ NoDup ws
  | NoName n => on n (fun t => ~ In "name" (low t))
  | PositionKeywords n ws => on n (fun t => forall w, In w ws -> In w (low t)) /\ ~ In ws [["r1"; "r2"; "r3"]; ["x"; "y"; "z"]; ["r1"; "r2"; "r3"; "x"; "y"; "z"]]
  | WrongBlocks n e t => on n (fun t' => t' = t) /\ List.length (py_split t) <> e
      /\ exists h d ls, section "atoms" (h :: d :: ls) /\ In (t, n) ls /\ List.length (py_split (fst d)) = e
  | NotNumberOrDash n b w => not_a_number w /\ w <> "-" /\ (1 <= b)%nat /\ on n (fun t => nth_error (py_split t) (b - 1) = Some w)
  | DuplicateNames f l u => exists h d s, section "atoms" (h :: d :: s) /\ first_number s f /\ last_number s l /\ (u < List.length s)%nat
      /\ exists names, NoDup names /\ List.length names = u
         /\ (forall w, In w names -> exists j t n, nth_error (low (fst d)) j = Some "name" /\ In (t, n) s /\ nth_error (py_split t) j = Some w)
         /\ (In "name" (low (fst d)) -> exists j, nth_error (low (fst d)) j = Some "name" /\ forall t n, In (t, n) s -> exists w, nth_error (py_split t) j = Some w /\ In w names)
  | NotTwoBlocks n t => on n (fun t' => t' = t) /\ List.length (py_split t) <> 2%nat
  | RepeatedProperty n w => exists s p t v q t' n' k' v' c, section "notation" s /\ s = (p ++ (t, n) :: q)%list /\ low t = [w; v]
      /\ In (t', n') p /\ low t' = [k'; v'] /\ initial c w /\ initial c k'
  | MissingProperty n name => exists s, section "notation" s /\ first_number s n
      /\ forall t m k v c, In (t, m) (tl s) -> py_split t = [k; v] -> initial c name -> ~ initial c k
  | BadProperty n kind w => on n (fun t => exists k, low t = [k; w] /\
      ((kind = "boolean" /\ (initial "d" k \/ initial "s" k) /\ ~ says w true /\ ~ says w false)
       \/ (kind = "number" /\ (initial "e" k \/ initial "o" k) /\ not_a_number w)))
  | BondHeader n ws => on n (fun t => py_split t = ws) /\ List.length ws <> 5%nat /\ exists b, bond_block b /\ first_number b n
  | UnknownAtom n b w => on n (fun t => nth_error (py_split t) (b - 1) = Some w) /\ (1 <= b <= 2)%nat /\ unknown w
  | NotIntegers n ws => on n (fun t => exists a b, py_split t = a :: b :: ws) /\ List.length ws = 3%nat /\ exists w, In w ws /\ x_int X w = None
  | RepeatedData f l key => exists b, bond_block b /\ first_number b f /\ last_number b l
      /\ exists c p q r t1 n1 t2 n2, initial c key /\ tl b = (p ++ (t1, n1) :: q ++ (t2, n2) :: r)%list /\ begins c t1 /\ begins c t2
  | NoData f l => exists b, bond_block b /\ first_number b f /\ last_number b l
      /\ forall t n c, In (t, n) (tl b) -> In c ["i"; "d"; "s"; "m"]%char -> ~ begins c t
  | NoBonds => exists s, section "exchange" s /\ bonds_in (tl s) []
  | NotOnlyName n t => on n (fun t' => t' = t) /\ List.length (py_split t) <> 1%nat
  | UnknownSiteAtom n w => on n (fun t => nth_error (py_split t) 0 = Some w) /\ unknown w
  | NumbersMissing n => exists s, section "on-site" s /\ last_number s n
  | NoParameters => exists s p q, section "on-site" s /\ tl s = (p ++ q)%list /\ (List.length q <= 1)%nat
      /\ Forall (fun l => dash_separator (fst l) \/ just "-" (fst l)) p
  | MissingSection name => (name = "cell" \/ name = "atoms") /\ forall s, ~ section name s
  end.
End Truth.

(** A message names a line when it begins "Line <n>" and a colon, a comma or a dash. *)
Definition names_line (m : string) (n : nat) : Prop :=
  exists c r, m = "Line " ++ dec n ++ String c r /\ In c [":"; ","; "-"]%char.
Definition nameless (m : string) : Prop :=
  In m ["Scale can not be zero"; "Found 0 bonds in the ""exchange"" section, expected at least one";
        "Found 0 parameters in the ""on-site"" section, expected at least one";
        "File: failed to find required section ""cell"""; "File: failed to find required section ""atoms"""]
  \/ exists r, m = "Scale as three numbers - all have to be positive, got " ++ r.

(** ** What a message has to mention *)
Definition contains (m w : string) : Prop := exists a b, m = a ++ w ++ b.
Definition quoted (w : string) : string := """" ++ w ++ """".
Definition mentions (c : complaint) : list string :=
  match c with
  | BadName n w => ["Line " ++ dec n; quoted w]
  | UnitsNotExpected n ws => ["Line " ++ dec n; quoted (String.concat " " ws)]
  | UnknownUnits n us w => ["Line " ++ dec n; "block " ++ dec 2; quoted w; String.concat ", " (map quoted us)]
  | HeaderTooLong n _ ws => ["Line " ++ dec n; quoted (String.concat " " ws)]
  | WrongLineCount n e g => ["Line " ++ dec n; dec e ++ " lines"; "got " ++ dec g ++ " lines"]
  | WrongKeyword n k l => ["Line " ++ dec n; quoted k; quoted l]
  | WrongAmount n None am g => ["Line " ++ dec n; String.concat " or " (map dec am) ++ " numbers"; "got " ++ dec g ++ " numbers"]
  | WrongAmount n (Some k) am g => ["Line " ++ dec n; quoted k; String.concat " or " (map dec am) ++ " numbers"; "got " ++ dec g ++ " numbers"]
  | NotANumber n b w => ["Line " ++ dec n; "block " ++ dec b; quoted w]
  | SizeExact n s am g => ["Line " ++ dec n; s ++ " section"; "exactly " ++ String.concat " or " (map dec am) ++ " lines"; "got " ++ dec g ++ " lines"]
  | SizeAtLeast n s k g => ["Line " ++ dec n; s ++ " section"; "at least " ++ dec k ++ " lines"; "got " ++ dec g ++ " lines"]
  | ShortSeparator n c k => ["Line " ++ dec n; "10 or more " ++ quoted (String c ""); "got " ++ dec k ++ " " ++ quoted (String c "")]
  | ScaleZero => ["Scale"; "zero"]
  | ScaleNotPositive ws => ["Scale"; "positive"; String.concat ", " (map (fun w => "'" ++ w ++ "'") ws)]
  | VectorKeywords n ws => ["Line " ++ dec n; quoted (String.concat " " ws)]
  | NotUnique n ws => ["Line " ++ dec n; quoted (String.concat " " ws)]
  | NoName n => ["Line " ++ dec n; "name"]
  | PositionKeywords n ws => ["Line " ++ dec n; quoted (String.concat " " ws)]
  | WrongBlocks n e l => ["Line " ++ dec n; dec e ++ " blocks"; quoted l]
  | NotNumberOrDash n b w => ["Line " ++ dec n; "block " ++ dec b; quoted w]
  | DuplicateNames f l u => ["Line " ++ dec f ++ "-" ++ dec l; "duplicates"; dec u ++ " unique names"]
  | NotTwoBlocks n l => ["Line " ++ dec n; quoted l]
  | RepeatedProperty n w => ["Line " ++ dec n; "more than one"; quoted w]
  | MissingProperty n p => ["Line " ++ dec n; "did not find"; quoted p]
  | BadProperty n k w => ["Line " ++ dec n; k; quoted w]
  | BondHeader n ws => ["Line " ++ dec n; quoted (String.concat " " ws)]
  | UnknownAtom n b w => ["Line " ++ dec n; "block " ++ dec b; "atom name " ++ w ++ " is not present"]
  | NotIntegers n ws => ["Line " ++ dec n; "three integers"; quoted (String.concat " " ws)]
  | RepeatedData f l k => ["Line " ++ dec f; "more than one"; quoted k; "lines " ++ dec f ++ "-" ++ dec l]
  | NoData f l => ["Line " ++ dec f; "did not find"; "lines " ++ dec f ++ "-" ++ dec l]
  | NoBonds => ["0 bonds"; quoted "exchange"]
  | NotOnlyName n l => ["Line " ++ dec n; "name"; quoted l]
  | UnknownSiteAtom n w => ["Line " ++ dec n; "atom name " ++ w ++ " is not present"]
  | NumbersMissing n => ["Line " ++ dec n; "six numbers"; "got nothing"]
  | NoParameters => ["0 parameters"; quoted "on-site"]
  | MissingSection s => ["failed to find"; quoted s]
  end.
