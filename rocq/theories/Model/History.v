(** Histories of calls on one SpinHamiltonian (src/magnopy/spinham/hamiltonian.py).

    Each constructor is one call of the public interface (the lines of the method are cited in
    Model/Hamiltonian.v at the definition it runs). A call that raises is caught by the caller and
    the history goes on from the state left behind. Parameter objects handed to [add_exchange] and
    [add_on_site] exist before (a location outside the store is no Python value: such a call is skipped).

    Not included: [spiral_vector], [cone_axis], the inherited lattice methods of wulfric's Crystal. *)
From Coq Require Import List Bool ZArith String.
From Verif.Base Require Import Scalar Linear3 PyDict.
From Verif.Model Require Import MatrixParam Hamiltonian.
Import ListNotations.

Section History.
Context {F : Type} {SF : Scalar F}.
Notation world := (@world F).
Notation M := (@M F).
Local Open Scope py_scope.

Inductive op :=
| OCreate (m : M3 F)                                     (* MatrixParameter(...), parameter.py:73-92 *)
| OAssign (l : loc) (m : M3 F)                           (* p.matrix = m, p.iso = ..., in place, parameter.py:136-410 *)
| OAddExchange (r1 r2 : aref) (ijk : cell3) (l : loc)    (* hamiltonian.py:670-726, existing parameter *)
| OAddExchangeNew (r1 r2 : aref) (ijk : cell3) (m : option (M3 F))
| ORemoveExchange (r1 r2 : aref) (ijk : cell3) (raise_if_no_bond : bool)  (* 728-767 *)
| OAddOnSite (r : aref) (l : loc)                        (* 772-803 *)
| OAddOnSiteNew (r : aref) (m : option (M3 F))
| ORemoveOnSite (r : aref) (raise_if_no_bond : bool)     (* 805-827 *)
| ODelete (i : item)                                     (* 592-603 *)
| OFilter (dist : bkey -> F) (order : list item -> list item) (maxd mind : option F) (custom : option (M3 F -> bool)) (* 832-888 *)
| OAddAtom (a : atom)                                    (* inherited Crystal.add_atom *)
| ORemoveAtom (r : aref)                                 (* 927-960 *)
| OSetDC (b : bool) | OSetSN (b : bool) | OSetEF (x : F) | OSetOF (x : F) (* 367-392, 424-445, 477-486, 518-527 *)
| OSetNotation (n : @notation_arg F).                    (* 230-274 *)

Definition valid_loc (w : world) (l : loc) : bool := Nat.ltb l (List.length (w_store w)).

Definition exec (o : op) : M unit :=
  match o with
  | OCreate m => alloc m ;;; ret tt
  | OAssign l m => write l m
  | OAddExchange r1 r2 ijk l => fun w => if valid_loc w l then add_exchange r1 r2 ijk l w else ret tt w
  | OAddExchangeNew r1 r2 ijk m => add_exchange_new r1 r2 ijk m
  | ORemoveExchange r1 r2 ijk b => remove_exchange r1 r2 ijk b
  | OAddOnSite r l => fun w => if valid_loc w l then add_on_site r l w else ret tt w
  | OAddOnSiteNew r m => add_on_site_new r m
  | ORemoveOnSite r b => remove_on_site r b
  | ODelete i => delitem i
  | OFilter dist order maxd mind custom => h_filter dist order maxd mind custom
  | OAddAtom a => add_atom a
  | ORemoveAtom r => remove_atom r
  | OSetDC b => set_double_counting b
  | OSetSN b => set_spin_normalized b
  | OSetEF x => set_exchange_factor x
  | OSetOF x => set_on_site_factor x
  | OSetNotation n => set_notation n
  end.

(** The state after a history; outcomes of the single calls are ignored. *)
Fixpoint run (ops : list op) (w : world) : world :=
  match ops with [] => w | o :: t => run t (fst (exec o w)) end.

(** A Hamiltonian just constructed (hamiltonian.py:65-83) over the given atoms and spins; [store] holds the
    parameter objects that already exist elsewhere. *)
Definition fresh (store : list (M3 F)) (atoms : list atom) (spins : dict atom F) : world :=
  mkW store (new_ham atoms spins).

(** States that the public interface can produce. *)
Definition reachable (w : world) : Prop :=
  exists store atoms spins ops, w = run ops (fresh store atoms spins).

End History.
