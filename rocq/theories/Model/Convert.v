(** Model of the script that converts TB2J files (src/magnopy/score/convert_tb2j.py:27-47).

    The Hamiltonian handed to the writers is the loaded one: no spins (tb2j.py:132-139 sets [magmom], not the spin), no cone
    axis, no spiral vector. Relative positions and the g-factor wulfric gives to atoms are arguments ([pos], [g]): nothing
    below depends on them. Not modelled: [verbose]. *)
From Coq Require Import String Ascii List Bool ZArith.
From Verif.Base Require Import Scalar Linear3 PyDict PyString PyText.
From Verif.Model Require Import MatrixParam Hamiltonian TxtVerify TxtRead Hdf5 TxtDump Tb2j.
Import ListNotations.
Local Open Scope string_scope.

Inductive writer := ToText | ToHdf5.
(** 30-34, 36, 38, 43-46 *)
Definition choose_writer (format : option string) (name : string) : out writer :=
  let f := match format with Some f => f | None => if ends_with ".hdf5" name then "hdf5" else "txt" end in
  if String.eqb (str_lower f) "txt" then Ret ToText
  else if String.eqb (str_lower f) "hdf5" then Ret ToHdf5
  else Raise RuntimeError.
(** s[:-n] *)
Definition cut_end (n : nat) (s : string) : string := substring 0 (String.length s - n) s.
(** 39-43 *)
Definition hdf5_name (name : string) : string :=
  let name := if ends_with ".txt" name then cut_end 4 name else name in
  let name := if ends_with ".hdf5" name then cut_end 5 name else name in
  name ++ ".hdf5".

Section Convert.
Context {F : Type} {SF : Scalar F}.
Variable X : externals F.
Variable P : printer F.
Variable pos : @tb_atom F -> V3 F.
Variable g : option F.
Variable default_cell : M3 F.

Definition site_of (a : tb_atom) : @site F := mkSite (mkAtom (ta_name a) (ta_index a)) (pos a) None g (ta_charge a).
Definition spinham_of (r : @tb_loaded F) : @spinham F :=
  mkSH (match tl_cell r with Some c => c | None => default_cell end) (map site_of (tl_atoms r)) (tl_ham r) None None.

Inductive written := WText (name content : string) | WHdf5 (name : string) (file : @node F).
(** [old] is the HDF5 file of that name, if any (empty otherwise); the group is "spinham", nothing is overwritten. *)
Definition convert (old : string -> @node F) (lines : list string) (name : string) (format : option string) : out written :=
  obind (load_tb2j X lines) (fun r =>
  obind (choose_writer format name) (fun k =>
  match k with
  | ToText => obind (dump_txt P default_flags (spinham_of r)) (fun content => Ret (WText name content))
  | ToHdf5 => match dump (spinham_of r) ["spinham"] false (old (hdf5_name name)) with
              | (file, Ret _) => Ret (WHdf5 (hdf5_name name) file)
              | (_, Raise e) => Raise e
              end
  end)).
End Convert.
