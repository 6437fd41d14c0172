(** Model of [SpinHamiltonian] (src/magnopy/spinham/hamiltonian.py).

    State. MatrixParameter objects are mutable and may be shared, so they live in a
    store indexed by locations (object identities); the dictionaries [_exchange] and
    [_on_site] map keys to locations. The state of the world is the store plus one
    Hamiltonian.

    Exceptions. Every operation returns the state reached together with either a value
    or an exception, so partial updates before a raise are visible.

    wulfric (not part of /repo, trusted): an [Atom] is its name and index (wulfric's equality and
    hash; indices are defined); its spin is looked up in [h_spins], reading a missing spin raises
    ValueError.

    Not modelled: [spiral_vector] and [cone_axis] (see GroundState.v), the [crystal] property (980),
    keys of another type or length (KeyError, 550-554, 573-577, 586-590, 599-603). *)
From Coq Require Import List Bool ZArith String.
From Verif.Base Require Import Scalar Linear3 PyDict PyString.
From Verif.Model Require Import MatrixParam.
Import ListNotations.

Record atom := mkAtom { a_name : string; a_index : Z }.

#[global] Instance atom_eq_dec : EqDec atom.
Proof. intros x y. decide equality; [apply Z.eq_dec|apply string_dec]. Defined.

(** (i, j, k) unit cell of the second atom. *)
Definition cell3 := (Z * Z * Z)%type.
#[global] Instance cell3_eq_dec : EqDec cell3.
Proof. intros x y. repeat decide equality. Defined.

(** Key of [_exchange]: (atom1, atom2, (i,j,k)). *)
Record bkey := mkB { b_from : atom; b_to : atom; b_cell : cell3 }.
#[global] Instance bkey_eq_dec : EqDec bkey.
Proof. intros x y. decide equality; [apply cell3_eq_dec|apply atom_eq_dec|apply atom_eq_dec]. Defined.

(** (-i, -j, -k) *)
Definition cneg (c : cell3) : cell3 := let '(i, j, k) := c in (- i, - j, - k)%Z.
(** The mirrored bond (atom2, atom1, (-i, -j, -k)). *)
Definition mirror (b : bkey) : bkey := mkB (b_to b) (b_from b) (cneg (b_cell b)).

Inductive exn :=
| KeyError | ValueError | TypeError | NotationError | ZeroDivisionError | AttributeError
| IndexError | NameError | UnboundLocalError | LinAlgError | OSError
| FailedToVerifyTxtModelFile | RuntimeError | FileExistsError
| NonFinite (* numpy would go on with inf/nan and a RuntimeWarning: the model stops here *).

Inductive out (A : Type) := Ret (a : A) | Raise (e : exn).
Arguments Ret {A}. Arguments Raise {A}.

Section HamiltonianModel.
Context {F : Type} {SF : Scalar F}.
Local Open Scope fld_scope.

Definition loc := nat.

(** hamiltonian.py:72-81 *)
Record ham := mkHam {
  h_exch : dict bkey loc;
  h_ons : dict atom loc;
  h_atoms : list atom;
  h_spins : dict atom F;
  h_dc : option bool;
  h_sn : option bool;
  h_ef : option F;
  h_of : option F }.

Record world := mkW { w_store : list (M3 F); w_ham : ham }.

(** ** State and exception monad *)
Definition M (A : Type) := world -> world * out A.
Definition ret {A} (a : A) : M A := fun w => (w, Ret a).
Definition raise {A} (e : exn) : M A := fun w => (w, Raise e).
Definition bind {A B} (m : M A) (k : A -> M B) : M B :=
  fun w => match m w with (w', Ret a) => k a w' | (w', Raise e) => (w', Raise e) end.
(** try: m except e: handler *)
Definition try_catch {A} (m : M A) (is : exn -> bool) (handler : M A) : M A :=
  fun w => match m w with
           | (w', Raise e) => if is e then handler w' else (w', Raise e)
           | r => r end.
Definition gets {A} (f : ham -> A) : M A := fun w => (w, Ret (f (w_ham w))).
Definition modify (f : ham -> ham) : M unit := fun w => (mkW (w_store w) (f (w_ham w)), Ret tt).

End HamiltonianModel.

Declare Scope py_scope.
Delimit Scope py_scope with py.
Notation "x <- m ;; k" := (bind m (fun x => k)) (at level 61, m at next level, right associativity) : py_scope.
Notation "m ;;; k" := (bind m (fun _ => k)) (at level 61, right associativity) : py_scope.

Section HamiltonianModel2.
Context {F : Type} {SF : Scalar F}.
Local Open Scope fld_scope.
Local Open Scope py_scope.
Notation ham := (@ham F).
Notation world := (@world F).
Notation M := (@M F).

(** for x in l: body *)
Fixpoint for_each {A} (l : list A) (body : A -> M unit) : M unit :=
  match l with
  | [] => ret tt
  | x :: l' => body x ;;; for_each l' body
  end.

(** A new MatrixParameter object. *)
Definition alloc (m : M3 F) : M loc :=
  fun w => (mkW (w_store w ++ [m]) (w_ham w), Ret (List.length (w_store w))).

(** Reading / writing [_matrix] of the object at a location. A location outside the store is no
    Python situation; the model raises KeyError there and the well-formedness invariant excludes it. *)
Definition read (l : loc) : M (M3 F) :=
  fun w => match nth_error (w_store w) l with Some m => (w, Ret m) | None => (w, Raise KeyError) end.
Fixpoint list_set (l : list (M3 F)) (n : nat) (m : M3 F) : list (M3 F) :=
  match l, n with
  | [], _ => []
  | _ :: t, O => m :: t
  | x :: t, S n' => x :: list_set t n' m
  end.
Definition write (l : loc) (m : M3 F) : M unit :=
  fun w => (mkW (list_set (w_store w) l m) (w_ham w), Ret tt).

Definition set_exch (d : dict bkey loc) : M unit :=
  modify (fun h => mkHam d (h_ons h) (h_atoms h) (h_spins h) (h_dc h) (h_sn h) (h_ef h) (h_of h)).
Definition set_ons (d : dict atom loc) : M unit :=
  modify (fun h => mkHam (h_exch h) d (h_atoms h) (h_spins h) (h_dc h) (h_sn h) (h_ef h) (h_of h)).
Definition set_atoms (l : list atom) : M unit :=
  modify (fun h => mkHam (h_exch h) (h_ons h) l (h_spins h) (h_dc h) (h_sn h) (h_ef h) (h_of h)).
Definition put_dc (b : bool) : M unit :=
  modify (fun h => mkHam (h_exch h) (h_ons h) (h_atoms h) (h_spins h) (Some b) (h_sn h) (h_ef h) (h_of h)).
Definition put_sn (b : bool) : M unit :=
  modify (fun h => mkHam (h_exch h) (h_ons h) (h_atoms h) (h_spins h) (h_dc h) (Some b) (h_ef h) (h_of h)).
Definition put_ef (x : F) : M unit :=
  modify (fun h => mkHam (h_exch h) (h_ons h) (h_atoms h) (h_spins h) (h_dc h) (h_sn h) (Some x) (h_of h)).
Definition put_of (x : F) : M unit :=
  modify (fun h => mkHam (h_exch h) (h_ons h) (h_atoms h) (h_spins h) (h_dc h) (h_sn h) (h_ef h) (Some x)).

(** ** wulfric interface (trusted assumptions) *)

(** An argument that is an Atom object or a string. *)
Inductive aref := AObj (a : atom) | AName (s : string).

(** [Crystal.get_atom(name)]: the unique atom of that name, ValueError otherwise. *)
Definition get_atom (s : string) : M atom :=
  l <- gets (@h_atoms F) ;;
  match filter (fun a => if string_dec (a_name a) s then true else false) l with
  | [a] => ret a
  | _ => raise ValueError
  end.

Definition mem_atom (a : atom) (l : list atom) : bool := if in_dec eq_dec a l then true else false.

(** [Crystal.add_atom(atom)] for an atom not yet in the crystal: appended. *)
Definition add_atom (a : atom) : M unit := l <- gets (@h_atoms F) ;; set_atoms (l ++ [a]).

Fixpoint remove_first (a : atom) (l : list atom) : list atom :=
  match l with [] => [] | x :: t => if eq_dec a x then t else x :: remove_first a t end.
(** [Crystal.remove_atom(atom)]: ValueError when it is not there. *)
Definition crystal_remove_atom (a : atom) : M unit :=
  l <- gets (@h_atoms F) ;; if mem_atom a l then set_atoms (remove_first a l) else raise ValueError.

(** [Atom.spin]: ValueError when undefined. *)
Definition spin (a : atom) : M F :=
  d <- gets (@h_spins F) ;; match dget d a with Some s => ret s | None => raise ValueError end.

(** [str] -> get_atom, Atom not in the crystal -> add it; hamiltonian.py:696-706, 791-797. *)
Definition resolve_add (r : aref) : M atom :=
  match r with
  | AName s => get_atom s
  | AObj a => l <- gets (@h_atoms F) ;; (if mem_atom a l then ret tt else add_atom a) ;;; ret a
  end.
(** [str] -> get_atom, Atom as is; hamiltonian.py:542-546, 567-570, 746-750. *)
Definition resolve (r : aref) : M atom :=
  match r with AName s => get_atom s | AObj a => ret a end.

(** ** Notation getters, hamiltonian.py:276-304, 394-422, 447-475, 488-516 *)
Definition get_dc : M bool := x <- gets (@h_dc F) ;; match x with Some b => ret b | None => raise NotationError end.
Definition get_sn : M bool := x <- gets (@h_sn F) ;; match x with Some b => ret b | None => raise NotationError end.
Definition get_ef : M F := x <- gets (@h_ef F) ;; match x with Some b => ret b | None => raise NotationError end.
Definition get_of : M F := x <- gets (@h_of F) ;; match x with Some b => ret b | None => raise NotationError end.

Definition is_notation_error (e : exn) : bool := match e with NotationError => true | _ => false end.
Definition is_key_error (e : exn) : bool := match e with KeyError => true | _ => false end.

(** ** Dictionary-like access *)

(** [__getitem__] of a bond given by Atom objects, hamiltonian.py:564-572 (KeyError if absent). *)
Definition get_bond (k : bkey) : M loc :=
  d <- gets (@h_exch F) ;; match dget d k with Some l => ret l | None => raise KeyError end.
(** [__getitem__] of an on-site parameter given by an Atom object, hamiltonian.py:558-562. *)
Definition get_onsite (a : atom) : M loc :=
  d <- gets (@h_ons F) ;; match dget d a with Some l => ret l | None => raise KeyError end.
(** The same with names allowed, hamiltonian.py:556-572. *)
Definition getitem_bond (r1 r2 : aref) (ijk : cell3) : M loc :=
  a1 <- resolve r1 ;; a2 <- resolve r2 ;; get_bond (mkB a1 a2 ijk).
Definition getitem_onsite (r : aref) : M loc := a <- resolve r ;; get_onsite a.
(** [__contains__], hamiltonian.py:532-549. *)
Definition contains_bond (r1 r2 : aref) (ijk : cell3) : M bool :=
  a1 <- resolve r1 ;; a2 <- resolve r2 ;; d <- gets (@h_exch F) ;; ret (dmem d (mkB a1 a2 ijk)).
Definition contains_onsite (r : aref) : M bool :=
  a <- resolve r ;; d <- gets (@h_ons F) ;; ret (dmem d a).

(** ** Exchange, hamiltonian.py:670-767 *)

(** hamiltonian.py:712-726: store the parameter, add the mirrored bond if double counting is on and
    the mirrored bond is absent; NotationError (unset) is swallowed. *)
Definition store_exchange (k : bkey) (l : loc) : M unit :=
  d <- gets (@h_exch F) ;;
  set_exch (dset d k l) ;;;
  try_catch
    (dc <- get_dc ;;
     d' <- gets (@h_exch F) ;;
     if (dc && negb (dmem d' (mirror k)))%bool then
       m <- read l ;;
       l' <- alloc (p_T m) ;;
       set_exch (dset d' (mirror k) l')
     else ret tt)
    is_notation_error (ret tt).

(** [add_exchange] with an existing parameter object, hamiltonian.py:670-726. *)
Definition add_exchange (r1 r2 : aref) (ijk : cell3) (l : loc) : M unit :=
  a1 <- resolve_add r1 ;;
  a2 <- resolve_add r2 ;;
  store_exchange (mkB a1 a2 ijk) l.

(** MatrixParameter constructor with keyword arguments: [None] stands for keywords of a wrong shape
    (ValueError, parameter.py:136-144, 300-310, 397-404). *)
Definition construct (m : option (M3 F)) : M loc :=
  match m with Some m' => alloc m' | None => raise ValueError end.

(** [add_exchange] with keyword arguments (a new MatrixParameter), hamiltonian.py:696-726; the
    constructor (710) runs after the atoms were added. *)
Definition add_exchange_new (r1 r2 : aref) (ijk : cell3) (m : option (M3 F)) : M unit :=
  a1 <- resolve_add r1 ;;
  a2 <- resolve_add r2 ;;
  l <- construct m ;;
  store_exchange (mkB a1 a2 ijk) l.

(** [remove_exchange], hamiltonian.py:728-767. *)
Definition remove_bond (k : bkey) (raise_if_no_bond : bool) : M unit :=
  d <- gets (@h_exch F) ;;
  (if dmem d k then set_exch (ddel d k)
   else if raise_if_no_bond then raise KeyError else ret tt) ;;;
  try_catch
    (dc <- get_dc ;;
     d' <- gets (@h_exch F) ;;
     if (dc && dmem d' (mirror k))%bool then set_exch (ddel d' (mirror k)) else ret tt)
    is_notation_error (ret tt).
Definition remove_exchange (r1 r2 : aref) (ijk : cell3) (raise_if_no_bond : bool) : M unit :=
  a1 <- resolve r1 ;; a2 <- resolve r2 ;; remove_bond (mkB a1 a2 ijk) raise_if_no_bond.

(** ** On-site, hamiltonian.py:772-827 *)
Definition add_on_site (r : aref) (l : loc) : M unit :=
  a <- resolve_add r ;; d <- gets (@h_ons F) ;; set_ons (dset d a l).
Definition add_on_site_new (r : aref) (m : option (M3 F)) : M unit :=
  a <- resolve_add r ;; l <- construct m ;; d <- gets (@h_ons F) ;; set_ons (dset d a l).

(** [remove_on_site], hamiltonian.py:805-827. For a string the code looks the atom up into an unused
    variable (819) and then deletes with the string itself as key: KeyError (a string is never a key),
    and building the message reads [.fullname] of a string: AttributeError. *)
Definition remove_on_site (r : aref) (raise_if_no_bond : bool) : M unit :=
  match r with
  | AName s => get_atom s ;;; (if raise_if_no_bond then raise AttributeError else ret tt)
  | AObj a =>
      d <- gets (@h_ons F) ;;
      if dmem d a then set_ons (ddel d a)
      else if raise_if_no_bond then raise KeyError else ret tt
  end.

(** [__delitem__] with an Atom or a bond of Atoms, hamiltonian.py:592-603. *)
Inductive item := IBond (k : bkey) | IAtom (a : atom).
#[global] Instance item_eq_dec : EqDec item.
Proof. intros x y. decide equality; apply eq_dec. Defined.
Definition delitem (i : item) : M unit :=
  match i with
  | IBond k => remove_bond k true
  | IAtom a => remove_on_site (AObj a) true
  end.

(** ** double_counting, hamiltonian.py:306-392 *)

(** One [self[key].matrix *= factor], hamiltonian.py:385, 440, 443, 484, 525: the array of the object is
    changed in place and assigned back through the setter (parameter.py:136-144). *)
Definition scale_loc (l : loc) (c : F) : M unit := m <- read l ;; write l (mscale c m).
(** One [self[key].matrix /= x]; numpy yields inf/nan for x = 0. *)
Definition div_loc (l : loc) (c : F) : M unit :=
  m <- read l ;; match p_div m c with Some m' => write l m' | None => raise NonFinite end.

Definition scale_bonds (c : F) : M unit :=
  d <- gets (@h_exch F) ;; for_each (dkeys d) (fun k => l <- get_bond k ;; scale_loc l c).

(** [_ensure_double_counting], 306-322. The membership test of line 317 asks whether a 3-tuple occurs
    in an iterator of 4-tuples, which is never the case: every bond is collected. *)
Fixpoint mirror_all (items : list (bkey * loc)) : M (list (bkey * loc)) :=
  match items with
  | [] => ret []
  | (k, l) :: t => m <- read l ;; l' <- alloc (p_T m) ;; r <- mirror_all t ;; ret ((mirror k, l') :: r)
  end.
Definition ensure_dc : M unit :=
  d <- gets (@h_exch F) ;;
  to_add <- mirror_all d ;;
  for_each to_add (fun kl => add_exchange (AObj (b_from (fst kl))) (AObj (b_to (fst kl))) (b_cell (fst kl)) (snd kl)).

(** The direction that stays, 342-347. *)
Definition canonical (k : bkey) : bool :=
  let '(i, j, n) := b_cell k in
  (0 <? i)%Z || ((i =? 0) && (0 <? j))%Z || ((i =? 0) && (j =? 0) && (0 <? n))%Z
  || ((i =? 0) && (j =? 0) && (n =? 0) && (a_index (b_from k) <=? a_index (b_to k)))%Z.

(** Collecting loop of [_ensure_no_double_counting], 340-359. Line 355 calls list.append with four
    arguments: TypeError. Hence nothing is ever added (361-362). *)
Fixpoint collect_removal (items : list (bkey * loc)) : M (list bkey) :=
  match items with
  | [] => ret []
  | (k, _) :: t =>
      d <- gets (@h_exch F) ;;
      if canonical k then
        r <- collect_removal t ;;
        ret (if dmem d (mirror k) then mirror k :: r else r)
      else if dmem d (mirror k) then
        r <- collect_removal t ;; ret (k :: r)
      else raise TypeError
  end.
Definition ensure_no_dc : M unit :=
  d <- gets (@h_exch F) ;;
  to_remove <- collect_removal d ;;
  for_each to_remove (fun k => remove_bond k false).

(** [double_counting] setter, 367-392. *)
Definition set_double_counting (new : bool) : M unit :=
  old <- gets (@h_dc F) ;;
  put_dc new ;;;
  (match old with
   | Some true => if new then ret tt else scale_bonds f2
   | Some false => if new then scale_bonds (1 / f2) else ret tt
   | None => ret tt
   end) ;;;
  if new then ensure_dc else ensure_no_dc.

(** ** spin_normalized, hamiltonian.py:424-445 *)
Definition set_spin_normalized (new : bool) : M unit :=
  old <- gets (@h_sn F) ;;
  (match old, new with
   | Some true, false =>
       d <- gets (@h_exch F) ;;
       for_each (dkeys d) (fun k =>
         l <- get_bond k ;; s1 <- spin (b_from k) ;; s2 <- spin (b_to k) ;; div_loc l (s1 * s2)) ;;;
       e <- gets (@h_ons F) ;;
       for_each (dkeys e) (fun a => l <- get_onsite a ;; s <- spin a ;; div_loc l (s * s))
   | Some false, true =>
       d <- gets (@h_exch F) ;;
       for_each (dkeys d) (fun k =>
         l <- get_bond k ;; s1 <- spin (b_from k) ;; s2 <- spin (b_to k) ;; scale_loc l (s1 * s2)) ;;;
       e <- gets (@h_ons F) ;;
       for_each (dkeys e) (fun a => l <- get_onsite a ;; s <- spin a ;; scale_loc l (s * s))
   | _, _ => ret tt
   end) ;;;
  put_sn new.

(** Python float division. *)
Definition py_div (a b : F) : M F := if feq_dec b 0 then raise ZeroDivisionError else ret (a / b).

(** ** exchange_factor, hamiltonian.py:477-486 *)
Definition set_exchange_factor (new : F) : M unit :=
  old <- gets (@h_ef F) ;;
  (match old with
   | Some o =>
       if feq_dec o new then ret tt else
       d <- gets (@h_exch F) ;;
       for_each (dkeys d) (fun k => l <- get_bond k ;; c <- py_div o new ;; scale_loc l c)
   | None => ret tt
   end) ;;;
  put_ef new.

(** ** on_site_factor, hamiltonian.py:518-527 *)
Definition set_on_site_factor (new : F) : M unit :=
  old <- gets (@h_of F) ;;
  (match old with
   | Some o =>
       if feq_dec o new then ret tt else
       d <- gets (@h_ons F) ;;
       for_each (dkeys d) (fun a => l <- get_onsite a ;; c <- py_div o new ;; scale_loc l c)
   | None => ret tt
   end) ;;;
  put_of new.

(** ** notation, hamiltonian.py:30-35, 195-274 *)
Inductive notation_arg :=
| NStr (s : string)                   (* a string *)
| N3 (dc sn : bool) (f : F)           (* three elements, converted with bool/bool/float *)
| N4 (dc sn : bool) (fe fo : F)       (* four elements *)
| NOther.                             (* wrong length, or neither string nor iterable *)

Definition predefined (s : string) : option (bool * bool * F * F) :=
  if string_dec s "magnopy" then Some (true, false, 1 / f2, 1)
  else if string_dec s "tb2j" then Some (true, true, - (1), - (1))
  else if string_dec s "spinw" then Some (true, false, 1, 1)
  else if string_dec s "vampire" then Some (true, true, - (1 / f2), - (1))
  else None.

Definition parse_notation (n : notation_arg) : option (bool * bool * F * F) :=
  match n with
  | NStr s => predefined (str_lower s)
  | N3 dc sn f => Some (dc, sn, f, f)
  | N4 dc sn fe fo => Some (dc, sn, fe, fo)
  | NOther => None
  end.

Definition set_notation (n : notation_arg) : M unit :=
  match parse_notation n with
  | None => raise ValueError
  | Some (dc, sn, fe, fo) =>
      set_double_counting dc ;;; set_spin_normalized sn ;;; set_exchange_factor fe ;;; set_on_site_factor fo
  end.

(** [notation] getter, 223-228. *)
Definition get_notation : M (bool * bool * F * F) :=
  dc <- get_dc ;; sn <- get_sn ;; fe <- get_ef ;; fo <- get_of ;; ret (dc, sn, fe, fo).

(** ** magnetic_atoms, hamiltonian.py:623-665. [order] is the iteration order of the Python set. *)
Fixpoint insert_by_index (a : atom) (l : list atom) : list atom :=
  match l with
  | [] => [a]
  | x :: t => if (a_index a <=? a_index x)%Z then a :: l else x :: insert_by_index a t
  end.
Fixpoint sort_by_index (l : list atom) : list atom :=
  match l with [] => [] | a :: t => insert_by_index a (sort_by_index t) end.
Definition mentioned (h : ham) : list atom :=
  flat_map (fun k => [b_from k; b_to k]) (dkeys (h_exch h)) ++ dkeys (h_ons h).
Definition magnetic_atoms (order : list atom -> list atom) : M (list atom) :=
  l <- gets mentioned ;; ret (sort_by_index (order (nodup eq_dec l))).

(** ** filter, hamiltonian.py:832-888. [dist] is Crystal.get_distance; [order] is the iteration order of
    the Python set of parameters to remove. *)
Section Filter.
Variable dist : bkey -> F.
Variable order : list item -> list item.

Definition drop_bond (maxd mind : option F) (custom : option (M3 F -> bool)) (k : bkey) (m : M3 F) : bool :=
  (match maxd with Some x => fltb x (dist k) | None => false end)
  || (match mind with Some x => fltb (dist k) x | None => false end)
  || (match custom with Some f => negb (f m) | None => false end).
Definition drop_onsite (mind : option F) (custom : option (M3 F -> bool)) (m : M3 F) : bool :=
  (match mind with Some x => fltb 0 x | None => false end)
  || (match custom with Some f => negb (f m) | None => false end).

Fixpoint collect_filter_bonds maxd mind custom (items : list (bkey * loc)) : M (list item) :=
  match items with
  | [] => ret []
  | (k, l) :: t => m <- read l ;; r <- collect_filter_bonds maxd mind custom t ;;
                   ret (if drop_bond maxd mind custom k m then IBond k :: r else r)
  end.
Fixpoint collect_filter_onsite mind custom (items : list (atom * loc)) : M (list item) :=
  match items with
  | [] => ret []
  | (a, l) :: t => m <- read l ;; r <- collect_filter_onsite mind custom t ;;
                   ret (if drop_onsite mind custom m then IAtom a :: r else r)
  end.
Definition h_filter (maxd mind : option F) (custom : option (M3 F -> bool)) : M unit :=
  d <- gets (@h_exch F) ;;
  r1 <- collect_filter_bonds maxd mind custom d ;;
  e <- gets (@h_ons F) ;;
  r2 <- collect_filter_onsite mind custom e ;;
  for_each (order (nodup eq_dec (r1 ++ r2))) (fun i => try_catch (delitem i) is_key_error (ret tt)).
End Filter.

(** ** remove_atom, hamiltonian.py:927-960 *)
Definition touches (a : atom) (k : bkey) : bool :=
  (if eq_dec (b_from k) a then true else false) || (if eq_dec (b_to k) a then true else false).
Definition remove_atom (r : aref) : M unit :=
  a <- resolve r ;;
  d <- gets (@h_exch F) ;;
  e <- gets (@h_ons F) ;;
  for_each (map IBond (filter (touches a) (dkeys d)) ++ (if dmem e a then [IAtom a] else [])) delitem ;;;
  crystal_remove_atom a.

(** ** exchange_like, hamiltonian.py:111-129, 1035-1075: on-site terms first, as new objects
    [parameter * (exchange_factor / on_site_factor)], then the exchange parameters themselves.
    The division happens when the iterator is created (1053). In the second branch the code advances
    [index1] instead of [index2] (1067); the iteration still ends because the dictionary iterator itself
    raises StopIteration, so every exchange parameter is listed once. *)
Fixpoint scaled_onsite (c : F) (items : list (atom * loc)) : M (list (bkey * loc)) :=
  match items with
  | [] => ret []
  | (a, l) :: t => m <- read l ;; l' <- alloc (p_mul m c) ;; r <- scaled_onsite c t ;;
                   ret ((mkB a a (0, 0, 0)%Z, l') :: r)
  end.
Definition exchange_like : M (list (bkey * loc)) :=
  ef <- get_ef ;; of_ <- get_of ;; c <- py_div ef of_ ;;
  e <- gets (@h_ons F) ;; r <- scaled_onsite c e ;;
  d <- gets (@h_exch F) ;; ret (r ++ d).

(** ** copy (deepcopy), hamiltonian.py:608-618: a new Hamiltonian whose parameter objects are fresh. deepcopy
    keeps sharing inside the copied object: one fresh object per distinct old location. *)
Fixpoint assign_fresh (seen : list (loc * loc)) (ls : list loc) (store : list (M3 F)) : list (loc * loc) * list (M3 F) :=
  match ls with
  | [] => (seen, store)
  | l :: t =>
      match find (fun p => Nat.eqb (fst p) l) seen, nth_error store l with
      | Some _, _ => assign_fresh seen t store
      | None, Some m => assign_fresh ((l, List.length store) :: seen) t (store ++ [m])
      | None, None => assign_fresh seen t store
      end
  end.
Definition relocate (seen : list (loc * loc)) (l : loc) : loc :=
  match find (fun p => Nat.eqb (fst p) l) seen with Some p => snd p | None => l end.
Definition copy_ham (store : list (M3 F)) (h : ham) : list (M3 F) * ham :=
  let '(seen, store') := assign_fresh [] (map snd (h_exch h) ++ map snd (h_ons h)) store in
  (store', mkHam (map (fun kl => (fst kl, relocate seen (snd kl))) (h_exch h))
                 (map (fun kl => (fst kl, relocate seen (snd kl))) (h_ons h))
                 (h_atoms h) (h_spins h) (h_dc h) (h_sn h) (h_ef h) (h_of h)).

(** [filtered], hamiltonian.py:890-922: copy, then filter the copy. The result lists the store, the
    original (untouched object) and the outcome on the copy. *)
Definition filtered dist order maxd mind custom (w : world) : list (M3 F) * ham * (ham * out unit) :=
  let '(st, h') := copy_ham (w_store w) (w_ham w) in
  let '(w2, o) := h_filter dist order maxd mind custom (mkW st h') in
  (w_store w2, w_ham w, (w_ham w2, o)).

(** A Hamiltonian just created, hamiltonian.py:65-83, from a crystal. *)
Definition new_ham (atoms : list atom) (spins : dict atom F) : ham :=
  mkHam [] [] atoms spins None None None None.

End HamiltonianModel2.
