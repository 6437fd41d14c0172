(** What is saved in an HDF5 file and what comes back. Only the types of the model are used. *)
From Coq Require Import String List Bool ZArith Permutation Sorting.Sorted DecimalString.
From Verif.Base Require Import Scalar Linear3 PyDict PyString.
From Verif.Model Require Import Hamiltonian TxtRead Hdf5.
From Verif.Spec Require Import HamSpec.
Import ListNotations.
Local Open Scope fld_scope.

Section Spec.
Context {F : Type} {SF : Scalar F}.
Variable X : externals F.
Notation spinham := (@spinham F).
Notation node := (@node F).
Notation site := (@site F).

(** ** The object *)
Definition atoms_of (s : spinham) : list atom := map st_atom (sh_sites s).
Definition name_of (x : site) : string := a_name (st_atom x).
(** Everything about an atom except its index. *)
Definition facts (x : site) : string * V3 F * option (V3 F) * option F * option F :=
  (name_of x, st_position x, st_spin x, st_g x, st_charge x).

(** The crystal and the parameters belong to one object; with double counting bonds come with their mirrors (C11, C12). *)
Definition one_object (s : spinham) : Prop :=
  h_atoms (w_ham (sh_ham s)) = atoms_of s /\ wf (sh_ham s) /\ (h_dc (w_ham (sh_ham s)) = Some true -> mirror_closed (sh_ham s)).
(** Atoms are told apart by their names. *)
Definition well_named (s : spinham) : Prop :=
  NoDup (map name_of (sh_sites s)) /\ Forall (fun x => name_of x <> ""%string) (sh_sites s).
(** The stored cone axis has length one (its setter normalizes). *)
Definition unit_axis (s : spinham) : Prop := forall n, sh_cone s = Some n -> x_norm X n = 1 /\ x_close0 X n = false.
Definition units_defined : Prop := c_angstrom X <> 0 /\ c_milli X * c_electron_volt X <> 0.

(** Everything a complete description needs is set. *)
Definition complete (s : spinham) : Prop :=
  Forall (fun x => st_spin x <> None /\ st_g x <> None) (sh_sites s)
  /\ (bonds (sh_ham s) <> [] \/ sites (sh_ham s) <> [] -> h_sn (w_ham (sh_ham s)) <> None)
  /\ (bonds (sh_ham s) <> [] -> h_dc (w_ham (sh_ham s)) <> None /\ h_ef (w_ham (sh_ham s)) <> None)
  /\ (sites (sh_ham s) <> [] -> h_of (w_ham (sh_ham s)) <> None).

(** ** What comes back *)
(** The atom of the same name. *)
Definition twin (s s' : spinham) (a a' : atom) : Prop := In a (atoms_of s) /\ In a' (atoms_of s') /\ a_name a = a_name a'.
Definition same_notation (s s' : spinham) : Prop :=
  let h := w_ham (sh_ham s) in let h' := w_ham (sh_ham s') in
  h_dc h' = (match bonds (sh_ham s) with [] => None | _ => h_dc h end)
  /\ h_ef h' = (match bonds (sh_ham s) with [] => None | _ => h_ef h end)
  /\ h_of h' = (match sites (sh_ham s) with [] => None | _ => h_of h end)
  /\ h_sn h' = (match bonds (sh_ham s), sites (sh_ham s) with [], [] => None | _, _ => h_sn h end).
Definition restored (s s' : spinham) : Prop :=
  sh_cell s' = sh_cell s /\ sh_spiral s' = sh_spiral s /\ sh_cone s' = sh_cone s
  /\ Permutation (map facts (sh_sites s)) (map facts (sh_sites s'))
  /\ one_object s' /\ same_notation s s'
  /\ (forall a a' b b' R, twin s s' a a' -> twin s s' b b' ->
        bond_value (sh_ham s') (mkB a' b' R) = bond_value (sh_ham s) (mkB a b R))
  /\ (forall a a', twin s s' a a' -> onsite_value (sh_ham s') a' = onsite_value (sh_ham s) a)
  /\ (forall x v, In x (sh_sites s') -> st_spin x = Some v -> spin_of (sh_ham s') (st_atom x) = Some (x_norm X v)).

(** ** The order of entries: by the numerals 1, 2, ... as words *)
Definition numeral (n : nat) : string := NilZero.string_of_uint (Nat.to_uint n).
Definition word_order {A} (x y : string * A) : Prop := String.compare (fst x) (fst y) = Lt.
(** [l'] is [l] rearranged so that the numerals of the positions are in the order of words. *)
Definition in_word_order {A} (l l' : list A) : Prop :=
  exists ls, l' = map snd ls /\ Permutation (combine (map numeral (seq 1 (List.length l))) l) ls /\ StronglySorted word_order ls.
Definition numbered_from_one (l : list site) : Prop := map (fun x => a_index (st_atom x)) l = map Z.of_nat (seq 1 (List.length l)).

(** ** Files *)
(** Neither path leads through the other. *)
Definition apart (p q : list string) : Prop := (forall r, q <> (p ++ r)%list) /\ (forall r, p <> (q ++ r)%list).
Definition holds (file : node) (p : list string) : Prop := lookup file p <> None.
(** No parameter at all. *)
Definition no_parameters (s : spinham) : Prop := bonds (sh_ham s) = [] /\ sites (sh_ham s) = [].
(** The object carries the type SpinHamiltonian. *)
Definition labelled (n : node) : Prop := exists t, dget (node_attrs n) "type"%string = Some t /\ str_lower t = "spinhamiltonian"%string.
(** Members of a group have different names. *)
Fixpoint proper (n : node) : Prop :=
  match n with
  | Dset _ _ => True
  | Grp _ l => NoDup (map fst l) /\ (fix all (l : list (string * node)) : Prop := match l with [] => True | (_, m) :: t => proper m /\ all t end) l
  end.
(** A group can be made at this path: nothing is there, and no dataset is on the way. *)
Definition creatable (file : node) (p : list string) : Prop :=
  p <> [] /\ lookup file p = None /\ forall q r d a, p = (q ++ r)%list -> lookup file q <> Some (Dset d a).
Definition no_spinham (file : node) : Prop := forall p n, p <> [] -> lookup file p = Some n -> ~ labelled n.
End Spec.
