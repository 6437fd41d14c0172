(** src/magnopy/io/txt/vampire.py: dump_ucf, dump_mat, dump_vampire.

    Simplifications. The text that is produced is kept as a record of the values printed in it, not as
    characters: the logo, comments, the cell and the number formats are left out (none of them reads or
    changes the parameters). [atom.type] and positions are taken to be readable. A Python function given
    as [custom_mask] receives the array of the parameter itself, not a copy (vampire.py:229, parameter.py:133):
    it is a function from the array to the new content of that array and the outcome of the call. Opening a
    file for writing may fail: [can_write]. *)
From Coq Require Import List Bool ZArith String.
From Verif.Base Require Import Scalar Linear3 PyDict.
From Verif.Model Require Import MatrixParam Hamiltonian EnergyInit.
Import ListNotations.
Local Open Scope fld_scope.
Local Open Scope py_scope.

Section Vampire.
Context {F : Type} {SF : Scalar F}.
Notation M := (@M F).
(** units/inside.py: ENERGY. *)
Variable ENERGY : F.
(** Iteration order of the Python set in magnetic_atoms. *)
Variable order : list atom -> list atom.
(** [open(name, "w")] succeeds. *)
Variable can_write : string -> bool.

Definition mask := M3 F -> M3 F * out (M3 F).

(** One line of the interactions: IID, index of atom1, index of atom2, (i, j, k), matrix. *)
Record ucf_row := mkRow { r_id : nat; r_from : nat; r_to : nat; r_cell : cell3; r_matrix : M3 F }.
(** The .UCF file: number of materials, atoms (index, atom, material), number of interactions, interactions. *)
Record ucf := mkUcf { u_nmat : nat; u_atoms : list (nat * atom * Z); u_count : nat; u_rows : list ucf_row }.

Definition of_out {A} (o : out A) : M A := fun w => (w, o).
Definition of_option {A} (e : exn) (o : option A) : M A := match o with Some a => ret a | None => raise e end.

(** vampire.py:217-222: [materials[a_i]] raises IndexError when the list is too short. *)
Fixpoint ucf_atoms (materials : list Z) (i : nat) (l : list atom) : M (list (nat * atom * Z)) :=
  match l with
  | [] => ret []
  | a :: t => m <- of_option IndexError (nth_error materials i) ;; r <- ucf_atoms materials (S i) t ;; ret ((i, a, m) :: r)
  end.

(** vampire.py:228-236: the matrix that is printed, before the unit conversion. *)
Definition masked (anisotropic dmi : bool) (custom : option mask) (l : loc) : M (M3 F) :=
  m <- read l ;;
  match custom with
  | Some f => write l (fst (f m)) ;;; of_out (snd (f m))
  | None =>
      let m1 := if dmi then m else msub m (p_dmi_matrix m) in
      ret (if anisotropic then m1 else msub m1 (p_aniso m1))
  end.

(** vampire.py:226-245. [atom_indices[atom]] raises KeyError for an atom that is not listed. *)
Fixpoint ucf_rows (anisotropic dmi : bool) (custom : option mask) (atoms : list atom) (iid : nat)
  (items : list (bkey * loc)) : M (list ucf_row) :=
  match items with
  | [] => ret []
  | (k, l) :: t =>
      m <- masked anisotropic dmi custom l ;;
      i <- of_option KeyError (position (b_from k) atoms) ;;
      j <- of_option KeyError (position (b_to k) atoms) ;;
      r <- ucf_rows anisotropic dmi custom atoms (S iid) t ;;
      ret (mkRow iid i j (b_cell k) (p_mul m ENERGY) :: r)
  end.

(** vampire.py:162-256, up to the writing of the file. *)
Definition ucf_text (anisotropic dmi : bool) (custom : option mask) (materials : option (list Z)) : M ucf :=
  mats <- match materials with
          | Some l => ret l
          | None => l <- magnetic_atoms order ;; ret (map Z.of_nat (seq 0 (List.length l)))
          end ;;
  original <- get_notation ;;
  set_notation (NStr "vampire") ;;;
  atoms <- magnetic_atoms order ;;
  al <- ucf_atoms mats 0 atoms ;;
  items <- exchange_like ;;
  rows <- ucf_rows anisotropic dmi custom atoms 0 items ;;
  (let '(dc, sn, fe, fo) := original in set_notation (N4 dc sn fe fo)) ;;;
  ret (mkUcf (List.length (nodup Z.eq_dec mats)) al (List.length items) rows).

Definition dump_ucf (filename : option string) (anisotropic dmi : bool) (custom : option mask) (materials : option (list Z)) : M ucf :=
  text <- ucf_text anisotropic dmi custom materials ;;
  match filename with
  | None => ret text
  | Some n => if can_write n then ret text else raise OSError
  end.

(** One material of the .mat file: number, name, spin. *)
Record mat_row := mkMat { t_number : Z; t_name : string; t_spin : F }.

(** vampire.py:131-152. [materials[i] not in materials[:i]]: the first atom of its material. *)
Fixpoint mat_rows (materials : option (list Z)) (i : nat) (l : list atom) : M (list mat_row) :=
  match l with
  | [] => ret []
  | a :: t =>
      n <- match materials with
           | None => ret (Some (Z.of_nat i + 1)%Z)
           | Some ms => m <- of_option IndexError (nth_error ms i) ;;
                        ret (if in_dec Z.eq_dec m (firstn i ms) then None else Some (m + 1)%Z)
           end ;;
      here <- match n with None => ret [] | Some n => s <- spin a ;; ret [mkMat n (a_name a) s] end ;;
      r <- mat_rows materials (S i) t ;;
      ret (here ++ r)
  end.

Definition zmax (l : list Z) : option Z := match l with [] => None | x :: t => Some (fold_left Z.max t x) end.

(** vampire.py:105-159; [max] of an empty list raises ValueError. *)
Definition dump_mat (filename : option string) (materials : option (list Z)) : M (Z * list mat_row) :=
  atoms <- magnetic_atoms order ;;
  n <- match materials with
       | Some l => of_option ValueError (option_map (fun x => (x + 1)%Z) (zmax l))
       | None => ret (Z.of_nat (List.length atoms))
       end ;;
  rows <- mat_rows materials 0 atoms ;;
  match filename with
  | None => ret (n, rows)
  | Some f => if can_write f then ret (n, rows) else raise OSError
  end.

(** vampire.py:29-102. *)
Definition dump_vampire (seedname : string) (anisotropic dmi : bool) (custom : option mask) (materials : option (list Z)) : M unit :=
  dump_ucf (Some (seedname ++ ".UCF")%string) anisotropic dmi custom materials ;;;
  dump_mat (Some (seedname ++ ".mat")%string) materials ;;;
  if can_write "input"%string then ret tt else raise OSError.

End Vampire.
