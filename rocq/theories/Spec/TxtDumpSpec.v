(** What a text file keeps of a Hamiltonian. Only the types of the model are used. *)
From Coq Require Import String Ascii List Bool ZArith DecimalString.
From Verif.Base Require Import Scalar Linear3 PyDict PyString PyText.
From Verif.Model Require Import Hamiltonian TxtRead Hdf5 TxtDump.
From Verif.Spec Require Import HamSpec TxtSpec Hdf5Spec.
Import ListNotations.
Local Open Scope fld_scope.

(** ** Words *)
Definition digit_char (c : ascii) : Prop := (48 <= nat_of_ascii c <= 57)%nat.
(** A sign or none, a digit, then digits and dots. *)
Definition plain_number (w : string) : Prop :=
  exists c t, (w = String c t \/ w = String "-" (String c t)) /\ digit_char c /\ all_chars (fun d => digit_char d \/ d = "."%char) t.
(** One word, no "#" in it. *)
Definition one_word (w : string) : Prop := w <> ""%string /\ all_chars (fun c => is_space c = false /\ c <> "#"%char) w.
(** A name that can stand in a file (docs: starts with a letter or a digit, no "#", no white space, no "__" at the end). *)
Definition letter_or_digit (c : ascii) : Prop :=
  let n := nat_of_ascii c in (48 <= n <= 57 \/ 65 <= n <= 90 \/ 97 <= n <= 122)%nat.
Definition good_name (w : string) : Prop :=
  one_word w /\ (exists c t, w = String c t /\ letter_or_digit c) /\ ~ (exists t, w = (t ++ "__")%string).

Section Spec.
Context {F : Type} {SF : Scalar F}.
Variable X : externals F.
Variable P : printer F.
Notation spinham := (@spinham F).
Notation site := (@site F).
Notation world := (@world F).

(** ** What the outside functions are trusted for *)
(** Half a unit of the last of [p] decimal places. *)
Fixpoint pow10 (p : nat) : F := match p with O => 1 | S p' => (1 + 1 + 1 + 1 + 1 + 1 + 1 + 1 + 1 + 1) * pow10 p' end.
Definition near (p : nat) (x y : F) : Prop :=
  fltb 1 ((1 + 1) * pow10 p * (x - y)) = false /\ fltb 1 ((1 + 1) * pow10 p * (y - x)) = false.
(** A vector divided by its length. *)
Definition unit_vector (v : V3 F) : V3 F := vscale (1 / x_norm X v) v.
(** [rnd p x] is the number one reads where [x] was printed with [p] places. *)
Record prints (rnd : nat -> F -> F) : Prop := {
  pn_fixed : forall p x, x_float X (pr_fixed P p x) = Some (rnd p x);
  pn_plain : forall p x, plain_number (pr_fixed P p x);
  pn_near : forall p x, near p x (rnd p x);
  pn_str : forall x, x_float X (pr_str P x) = Some x;
  pn_word : forall x, one_word (pr_str P x);
  pn_int : forall z, x_int X (NilZero.string_of_int (Z.to_int z)) = Some z;
  pn_logo : Forall (fun l => exists t, l = String "#" t /\ all_chars (fun c => c <> ascii_of_nat 10) t) (pr_logo P);
  pn_some : pr_logo P <> [];
  pn_unit : forall v, v <> mkV 0 0 0 -> x_norm X (unit_vector v) = 1
}.

Section Rounded.
Variable rnd : nat -> F -> F.
Definition rv (p : nat) (v : V3 F) : V3 F := mkV (rnd p (vx v)) (rnd p (vy v)) (rnd p (vz v)).
Definition rm (p : nat) (m : M3 F) : M3 F :=
  mkM (rnd p (mxx m)) (rnd p (mxy m)) (rnd p (mxz m)) (rnd p (myx m)) (rnd p (myy m)) (rnd p (myz m))
      (rnd p (mzx m)) (rnd p (mzy m)) (rnd p (mzz m)).

(** ** Which Hamiltonians can be written and read back *)
Definition within_cell (k : bkey) : Prop := b_from k = b_to k /\ b_cell k = (0, 0, 0)%Z.
Definition printable (s : spinham) : Prop :=
  sh_sites s <> [] /\ NoDup (map name_of (sh_sites s)) /\ Forall (fun x => good_name (name_of x) /\ st_spin x <> None) (sh_sites s)
  /\ mdet (rm 8 (sh_cell s)) <> 0
  /\ (forall n, sh_cone s = Some n -> rv 8 n <> mkV 0 0 0)
  /\ (bonds (sh_ham s) <> [] -> exists k, In k (bonds (sh_ham s)) /\ ~ within_cell k).
(** The notation is set as far as the parameters need it. *)
Definition noted_for (s : spinham) : Prop :=
  (bonds (sh_ham s) <> [] \/ sites (sh_ham s) <> [] -> h_sn (w_ham (sh_ham s)) <> None)
  /\ (bonds (sh_ham s) <> [] -> h_dc (w_ham (sh_ham s)) <> None /\ h_ef (w_ham (sh_ham s)) <> None)
  /\ (sites (sh_ham s) <> [] -> h_of (w_ham (sh_ham s)) <> None).
Definition something_written (fl : flags) : Prop := fl_matrix fl = true \/ fl_iso fl = true \/ fl_dmi fl = true \/ fl_symm fl = true.

(** ** What comes back *)
(** Isotropic, antisymmetric and symmetric traceless part of a matrix. *)
Definition iso_of (m : M3 F) : F := mtrace m / (1 + 1 + 1).
Definition dmi_of (m : M3 F) : V3 F :=
  mkV ((myz m - mzy m) / (1 + 1)) ((mzx m - mxz m) / (1 + 1)) ((mxy m - myx m) / (1 + 1)).
(** The five numbers of a symmetric traceless matrix: xx, yy, xy, xz, yz. *)
Definition five_of (m : M3 F) : F * F * F * F * F :=
  (mxx m - iso_of m, myy m - iso_of m, (mxy m + myx m) / (1 + 1), (mxz m + mzx m) / (1 + 1), (myz m + mzy m) / (1 + 1)).
(** Each part that is written comes back rounded; a part that is not written is that of the rounded matrix, or zero if
    the matrix is not written either. *)
Definition five_rounded (p : nat) (m : M3 F) : F * F * F * F * F :=
  let '(a, b, c, d, e) := five_of m in (rnd p a, rnd p b, rnd p c, rnd p d, rnd p e).
Definition kept_parts (fl : flags) (m m' : M3 F) : Prop :=
  let m0 := if fl_matrix fl then rm 4 m else mkM 0 0 0 0 0 0 0 0 0 in
  iso_of m' = (if fl_iso fl then rnd 4 (iso_of m) else iso_of m0)
  /\ dmi_of m' = (if fl_dmi fl then rv 4 (dmi_of m) else dmi_of m0)
  /\ five_of m' = (if fl_symm fl then five_rounded 4 m else five_of m0).
(** Of an on-site matrix the upper triangle is written. *)
Definition upper (m : M3 F) : M3 F := mkM (mxx m) (mxy m) (mxz m) (mxy m) (myy m) (myz m) (mxz m) (myz m) (mzz m).

(** The atom of the loaded Hamiltonian with the name of [a]. *)
Definition namesake (s : spinham) (L : @loaded F) (a a' : atom) : Prop :=
  In a (atoms_of s) /\ In a' (h_atoms (w_ham (ld_ham L))) /\ a_name a = a_name a'.
Definition seen_notation (s : spinham) (L : @loaded F) : Prop :=
  let h := w_ham (sh_ham s) in let h' := w_ham (ld_ham L) in
  h_dc h' = (match bonds (sh_ham s) with [] => None | _ => h_dc h end)
  /\ h_ef h' = (match bonds (sh_ham s) with [] => None | _ => h_ef h end)
  /\ h_of h' = (match sites (sh_ham s) with [] => None | _ => h_of h end)
  /\ h_sn h' = (match bonds (sh_ham s), sites (sh_ham s) with [], [] => None | _, _ => h_sn h end).
(** [m'] stands for the matrix of the bond [k], if there is one and it is written. *)
Definition bond_kept (fl : flags) (k : bkey) (o o' : option (M3 F)) : Prop :=
  match o with
  | Some m => (within_cell k /\ o' = None) \/ (~ within_cell k /\ exists m', o' = Some m' /\ kept_parts fl m m')
  | None => o' = None
  end.
Definition kept (fl : flags) (s : spinham) (L : @loaded F) : Prop :=
  ld_cell L = rm 8 (sh_cell s)
  /\ map (fun a => (ad_name a, ad_position a, Some (ad_spin a))) (ld_atoms L)
     = map (fun x => (name_of x, rv 8 (st_position x), option_map (rv 4) (st_spin x))) (sh_sites s)
  /\ map a_name (h_atoms (w_ham (ld_ham L))) = map name_of (sh_sites s)
  /\ seen_notation s L
  /\ (forall a a' b b' R, namesake s L a a' -> namesake s L b b' ->
        bond_kept fl (mkB a b R) (bond_value (sh_ham s) (mkB a b R)) (bond_value (ld_ham L) (mkB a' b' R)))
  /\ (forall a a', namesake s L a a' -> onsite_value (ld_ham L) a' = option_map (fun m => rm 4 (upper m)) (onsite_value (sh_ham s) a))
  /\ ld_cone L = option_map (fun n => unit_vector (rv 8 n)) (sh_cone s).
(** The printed components of the spiral vector are taken for relative ones. *)
Definition spiral_read (s : spinham) (L : @loaded F) : Prop :=
  match sh_spiral s with
  | None => ld_spiral L = None
  | Some q => exists r, x_reciprocal X (rm 8 (sh_cell s)) = Some r /\ ld_spiral L = Some (vmat (rv 8 q) r)
  end.
(** What is never written. *)
Definition lost (L : @loaded F) : Prop := Forall (fun a => ad_charge a = 0 /\ ad_g a = f2) (ld_atoms L).
End Rounded.

(** ** Restored up to the printed precision *)
Definition near_v (p : nat) (v v' : V3 F) : Prop := near p (vx v) (vx v') /\ near p (vy v) (vy v') /\ near p (vz v) (vz v').
Definition near_m (p : nat) (m m' : M3 F) : Prop :=
  (near p (mxx m) (mxx m') /\ near p (mxy m) (mxy m') /\ near p (mxz m) (mxz m'))
  /\ (near p (myx m) (myx m') /\ near p (myy m) (myy m') /\ near p (myz m) (myz m'))
  /\ (near p (mzx m) (mzx m') /\ near p (mzy m) (mzy m') /\ near p (mzz m) (mzz m')).
Definition near_opt {A} (R : A -> A -> Prop) (o o' : option A) : Prop :=
  match o, o' with Some a, Some a' => R a a' | None, None => True | _, _ => False end.
Definition restored (s : spinham) (L : @loaded F) : Prop :=
  near_m 8 (sh_cell s) (ld_cell L)
  /\ Forall2 (fun x a => ad_name a = name_of x /\ near_v 8 (st_position x) (ad_position a) /\ near_opt (near_v 4) (st_spin x) (Some (ad_spin a)))
       (sh_sites s) (ld_atoms L)
  /\ map a_name (h_atoms (w_ham (ld_ham L))) = map name_of (sh_sites s)
  /\ seen_notation s L
  /\ (forall a a' b b' R, namesake s L a a' -> namesake s L b b' ->
        near_opt (near_m 4) (bond_value (sh_ham s) (mkB a b R)) (bond_value (ld_ham L) (mkB a' b' R)))
  /\ (forall a a', namesake s L a a' -> near_opt (near_m 4) (onsite_value (sh_ham s) a) (onsite_value (ld_ham L) a')).
(** Only the matrices are written: the default, with or without the distances. *)
Definition matrices_only (fl : flags) : Prop := fl_matrix fl = true /\ fl_iso fl = false /\ fl_dmi fl = false /\ fl_symm fl = false.
(** Nothing of what the text dump loses: bonds of an atom with itself, antisymmetric on-site parts. *)
Definition no_self_bonds (s : spinham) : Prop := forall k, In k (bonds (sh_ham s)) -> ~ within_cell k.
Definition symmetric_sites (s : spinham) : Prop :=
  forall a m, onsite_value (sh_ham s) a = Some m -> mxy m = myx m /\ mxz m = mzx m /\ myz m = mzy m.
End Spec.
