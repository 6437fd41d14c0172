(** Vocabulary for the history properties (C11-C18). *)
From Coq Require Import List Bool ZArith String.
From Verif.Base Require Import Scalar Linear3 PyDict.
From Verif.Model Require Import MatrixParam Hamiltonian History.
From Verif.Spec Require Import HamSpec.
Import ListNotations.

Section Spec.
Context {F : Type} {SF : Scalar F}.
Notation world := (@world F).

(** Parameter objects in use by the Hamiltonian. *)
Definition in_use (w : world) : list loc := map snd (h_exch (w_ham w)) ++ map snd (h_ons (w_ham w)).

(** The bond named by the arguments is new: neither it nor its mirror is stored, and it is no self bond. *)
Definition new_bond (w : world) (k : bkey) : Prop := ~ In k (bonds w) /\ ~ In (mirror k) (bonds w) /\ ~ self_bond k.
(** The argument [r] can stand for the atom [a]. *)
Definition refers (r : aref) (a : atom) : Prop :=
  match r with AObj a' => a' = a | AName s => a_name a = s end.

(** Calls that do not overwrite a bond, do not modify a parameter in place, do not reuse a parameter object, and
    whose notation changes succeed. *)
Definition tame (w : world) (o : op) : Prop :=
  match o with
  | OAssign l _ => ~ In l (map snd (h_exch (w_ham w)))
  | OAddExchange r1 r2 ijk l =>
      ~ In l (in_use w) /\ forall a1 a2, refers r1 a1 -> refers r2 a2 -> new_bond w (mkB a1 a2 ijk)
  | OAddExchangeNew r1 r2 ijk _ =>
      forall a1 a2, refers r1 a1 -> refers r2 a2 -> new_bond w (mkB a1 a2 ijk)
  | OAddOnSite _ l => ~ In l (in_use w)
  | OSetDC _ | OSetSN _ | OSetEF _ | OSetOF _ | OSetNotation _ => snd (exec o w) = Ret tt
  | _ => True
  end.
Fixpoint tame_history (ops : list op) (w : world) : Prop :=
  match ops with [] => True | o :: t => tame w o /\ tame_history t (fst (exec o w)) end.

(** What adding the bond [k] with matrix [m] does to the parameters: [k] carries [m]; under double counting
    the mirrored bond is created with the transposed matrix unless it exists already; nothing else changes. *)
Definition added (w w' : world) (k : bkey) (m : M3 F) : Prop :=
  bond_value w' k = Some m /\
  (forall k', k' <> k -> k' <> mirror k -> bond_value w' k' = bond_value w k') /\
  (mirror k <> k -> bond_value w' (mirror k) =
     if in_dec eq_dec (mirror k) (bonds w) then bond_value w (mirror k)
     else match h_dc (w_ham w) with Some true => Some (mtrans m) | _ => None end) /\
  (forall a, onsite_value w' a = onsite_value w a).
(** What removing the bond [k] does. *)
Definition removed (w w' : world) (k : bkey) : Prop :=
  bond_value w' k = None /\
  (forall k', k' <> k -> k' <> mirror k -> bond_value w' k' = bond_value w k') /\
  (mirror k <> k -> bond_value w' (mirror k) = match h_dc (w_ham w) with Some true => None | _ => bond_value w (mirror k) end) /\
  (forall a, onsite_value w' a = onsite_value w a).

(** Filter conditions (documented at hamiltonian.py:841-848): not farther than [maxd], not closer than [mind],
    accepted by the custom predicate; an on-site parameter has distance 0. *)
Definition meets (dist : bkey -> F) (maxd mind : option F) (custom : option (M3 F -> bool)) (w : world) (k : bkey) : Prop :=
  (forall x, maxd = Some x -> fltb x (dist k) = false) /\ (forall x, mind = Some x -> fltb (dist k) x = false) /\
  (forall f J, custom = Some f -> bond_value w k = Some J -> f J = true).
Definition meets_onsite (mind : option F) (custom : option (M3 F -> bool)) (w : world) (a : atom) : Prop :=
  (forall x, mind = Some x -> fltb 0%fld x = false) /\
  (forall f J, custom = Some f -> onsite_value w a = Some J -> f J = true).

(** Parameter objects an op is given by the caller. *)
Definition mentions (o : @op F) : list loc :=
  match o with OAssign l _ | OAddExchange _ _ _ l | OAddOnSite _ l => [l] | _ => [] end.

(** Energy carried by a list of (bond, matrix) entries when each contributes [ef S_i J S_j]. *)
Definition listed_term (sn : bool) (w : world) (L : size3) (s : config) (kJ : bkey * M3 F) : option F :=
  match spin_length sn w (b_from (fst kJ)), spin_length sn w (b_to (fst kJ)) with
  | Some x, Some y => Some (x * y * pair_energy L s (fst kJ) (snd kJ))%fld
  | _, _ => None
  end.
Definition listed_energy (w : world) (L : size3) (s : config) (items : list (bkey * M3 F)) : option F :=
  match h_sn (w_ham w), h_ef (w_ham w) with
  | Some sn, Some ef => option_map (fun x => ef * x)%fld (osum (map (listed_term sn w L s) items))
  | _, _ => None
  end.

(** Each entry together with its current matrix. *)
Definition entry_values (w : world) (r : list (bkey * loc)) : list (bkey * M3 F) :=
  flat_map (fun kl => match nth_error (w_store w) (snd kl) with Some m => [(fst kl, m)] | None => [] end) r.


Definition by_index (a b : atom) : Prop := (a_index a <= a_index b)%Z.

End Spec.
