(** What a user observes of a Hamiltonian, and its classical energy.

    The energy is the textbook one, written without reference to the code that computes
    energies: spins sit on a lattice, each stored bond (a, b, R) with matrix J contributes
    S_a(r) . J S_b(r + R) for every cell r, each on-site matrix A contributes S_a(r) . A S_a(r).
    A configuration is any assignment of directions to atoms and cells that is periodic in some
    supercell of any size; the energy is summed over one supercell. *)
From Coq Require Import List ZArith.
From Verif.Base Require Import Scalar Linear3 PyDict.
From Verif.Model Require Import Hamiltonian.
Import ListNotations.
Local Open Scope fld_scope.

Section Spec.
Context {F : Type} {SF : Scalar F}.
Notation world := (@world F).

(** ** Observations *)

(** [spinham[atom1, atom2, ijk].matrix], [None] if the bond is not in the Hamiltonian. *)
Definition bond_value (w : world) (k : bkey) : option (M3 F) :=
  match dget (h_exch (w_ham w)) k with Some l => nth_error (w_store w) l | None => None end.
(** [spinham[atom].matrix]. *)
Definition onsite_value (w : world) (a : atom) : option (M3 F) :=
  match dget (h_ons (w_ham w)) a with Some l => nth_error (w_store w) l | None => None end.
Definition bonds (w : world) : list bkey := dkeys (h_exch (w_ham w)).
Definition sites (w : world) : list atom := dkeys (h_ons (w_ham w)).
Definition spin_of (w : world) (a : atom) : option F := dget (h_spins (w_ham w)) a.

(** Notation values currently set. *)
Definition notation_is (w : world) (dc sn : bool) (ef of_ : F) : Prop :=
  h_dc (w_ham w) = Some dc /\ h_sn (w_ham w) = Some sn /\ h_ef (w_ham w) = Some ef /\ h_of (w_ham w) = Some of_.

(** Python-level sanity of the representation: every key occurs once and every key refers to an
    existing object; the atoms of all parameters are in the crystal. Holds of every Hamiltonian. *)
Definition wf (w : world) : Prop :=
  NoDup (bonds w) /\ NoDup (sites w) /\
  (forall k l, In (k, l) (h_exch (w_ham w)) -> (l < List.length (w_store w))%nat) /\
  (forall a l, In (a, l) (h_ons (w_ham w)) -> (l < List.length (w_store w))%nat) /\
  (forall k, In k (bonds w) -> In (b_from k) (h_atoms (w_ham w)) /\ In (b_to k) (h_atoms (w_ham w))) /\
  (forall a, In a (sites w) -> In a (h_atoms (w_ham w))).

(** No MatrixParameter object is used for two keys. *)
Definition unshared (w : world) : Prop :=
  NoDup (map snd (h_exch (w_ham w)) ++ map snd (h_ons (w_ham w))).

(** ** Classical energy *)
Fixpoint sum_upto (n : nat) (g : Z -> F) : F :=
  match n with O => 0 | S n' => sum_upto n' g + g (Z.of_nat n') end.

(** Supercell of size n1 x n2 x n3. *)
Definition size3 := (nat * nat * nat)%type.
Definition sum_box (L : size3) (g : cell3 -> F) : F :=
  let '(n1, n2, n3) := L in
  sum_upto n1 (fun i => sum_upto n2 (fun j => sum_upto n3 (fun k => g (i, j, k)))).
Definition config := atom -> cell3 -> V3 F.
Definition cadd (x y : cell3) : cell3 :=
  let '(i, j, k) := x in let '(i', j', k') := y in (i + i', j + j', k + k')%Z.
Definition periodic (L : size3) (s : config) : Prop :=
  let '(n1, n2, n3) := L in
  forall a r, s a (cadd r (Z.of_nat n1, 0, 0)%Z) = s a r /\
              s a (cadd r (0, Z.of_nat n2, 0)%Z) = s a r /\
              s a (cadd r (0, 0, Z.of_nat n3)%Z) = s a r.

Definition pair_energy (L : size3) (s : config) (k : bkey) (J : M3 F) : F :=
  sum_box L (fun r => dot (s (b_from k) r) (mvec J (s (b_to k) (cadd r (b_cell k))))).
Definition site_energy (L : size3) (s : config) (a : atom) (A : M3 F) : F :=
  sum_box L (fun r => dot (s a r) (mvec A (s a r))).

(** Length of the vectors in the Hamiltonian: 1 when spins are normalized, the spin value otherwise. *)
Definition spin_length (sn : bool) (w : world) (a : atom) : option F :=
  if sn then Some 1 else spin_of w a.

Fixpoint osum (l : list (option F)) : option F :=
  match l with
  | [] => Some 0
  | x :: t => match x, osum t with Some a, Some b => Some (a + b) | _, _ => None end
  end.

Definition bond_term (sn : bool) (w : world) (L : size3) (s : config) (k : bkey) : option F :=
  match spin_length sn w (b_from k), spin_length sn w (b_to k), bond_value w k with
  | Some x, Some y, Some J => Some (x * y * pair_energy L s k J)
  | _, _, _ => None
  end.
Definition site_term (sn : bool) (w : world) (L : size3) (s : config) (a : atom) : option F :=
  match spin_length sn w a, onsite_value w a with
  | Some x, Some A => Some (x * x * site_energy L s a A)
  | _, _ => None
  end.

(** The energy of configuration [s] per supercell; [None] while the notation (or a needed spin) is unset. *)
Definition energy (w : world) (L : size3) (s : config) : option F :=
  match h_sn (w_ham w), h_ef (w_ham w), h_of (w_ham w) with
  | Some sn, Some ef, Some of_ =>
      match osum (map (bond_term sn w L s) (bonds w)), osum (map (site_term sn w L s) (sites w)) with
      | Some x, Some y => Some (ef * x + of_ * y)
      | _, _ => None
      end
  | _, _, _ => None
  end.

(** A bond that is its own mirror: an atom with itself in the same cell. *)
Definition self_bond (k : bkey) : Prop := mirror k = k.

(** The documented direction that stays without double counting (hamiltonian.py:328-334). *)
Definition kept_direction (k : bkey) : Prop :=
  let '(i, j, n) := b_cell k in
  (i > 0)%Z \/ (i = 0 /\ j > 0)%Z \/ (i = 0 /\ j = 0 /\ n > 0)%Z \/
  (i = 0 /\ j = 0 /\ n = 0 /\ a_index (b_from k) <= a_index (b_to k))%Z.

(** Different atoms joined inside one cell have different indices. *)
Definition distinct_indices (w : world) : Prop :=
  forall k, In k (bonds w) -> b_cell k = (0, 0, 0)%Z -> a_index (b_from k) = a_index (b_to k) -> b_from k = b_to k.

(** Whenever both directions of a bond are stored, they are each other's transpose. *)
Definition reciprocal (w : world) : Prop :=
  forall k J J', bond_value w k = Some J -> bond_value w (mirror k) = Some J' -> J' = mtrans J.

(** A bond is stored exactly when its mirror is. *)
Definition mirror_closed (w : world) : Prop := forall k, In k (bonds w) -> In (mirror k) (bonds w).

End Spec.
