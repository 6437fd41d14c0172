(** Model of the script that minimizes the energy (src/magnopy/score/minimize_energy.py:63-107, 153-231).

    What the minimizer returns is abstract ([ferro], [spiral], [antiferro]: an energy or an exception; the first argument is
    the position in the selection, since every run starts from other random numbers). The results file is the list of what
    is written after all runs; of the runs themselves only the names of the history files are kept. Choices other than the
    three types are refused by the parser (262-270), "all" stands for the three (175-178). Not modelled: the tables of the
    minimum configurations in the results file. *)
From Coq Require Import String List ZArith.
From Verif.Base Require Import PyString.
From Verif.Model Require Import Hamiltonian.
Import ListNotations.
Local Open Scope string_scope.

Section Minimize.
Context {F : Type}.

Inductive gs := Ferro | Antiferro | Spiral.

(** (np.indices((3, 3, 3)) - 1).transpose((1, 2, 3, 0)).reshape(27, 3), line 71. *)
Definition steps3 : list Z := [(-1)%Z; 0%Z; 1%Z].
Definition q_points : list (Z * Z * Z) :=
  flat_map (fun a => flat_map (fun b => map (fun c => (a, b, c)) steps3) steps3) steps3.
Definition is_gamma (q : Z * Z * Z) : bool := let '(a, b, c) := q in (Z.eqb a 0 && Z.eqb b 0 && Z.eqb c 0)%bool.

(** An element of [energies]: a number or, for the antiferromagnetic case, a list. *)
Inductive energy := One (e : F) | Many (l : list F).

Variables ferro spiral : nat -> out F.
Variable antiferro : nat -> Z * Z * Z -> out F.
(** Number of magnetic atoms. *)
Variable n : nat.

(** The loop of [_minimize_antiferro], 69-107. [i] is the Python variable of that name: counted up at the beginning of a
    turn (72) and used again as the index of the spins (97), where it ends as n - 1 (unchanged without spins). Collected:
    the numbers of the history files (74) with the point, and the energies (105). *)
Fixpoint antiferro_loop (pos : nat) (qs : list (Z * Z * Z)) (i : nat) : out (list (nat * (Z * Z * Z)) * list F) :=
  match qs with
  | [] => Ret ([], [])
  | q :: t =>
      let i := S i in
      if is_gamma q then antiferro_loop pos t i
      else match antiferro pos q with
           | Raise e => Raise e
           | Ret e => match antiferro_loop pos t (match n with O => i | S m => m end) with
                      | Raise e' => Raise e'
                      | Ret (files, energies) => Ret ((i, q) :: files, e :: energies)
                      end
           end
  end.
Definition minimize_antiferro (pos : nat) := antiferro_loop pos q_points 0.

(** The loop over the selection, 180-212. *)
Fixpoint run_all (pos : nat) (sel : list gs) : out (list energy) :=
  match sel with
  | [] => Ret []
  | g :: t =>
      match (match g with
             | Ferro => match ferro pos with Ret e => Ret (One e) | Raise e => Raise e end
             | Spiral => match spiral pos with Ret e => Ret (One e) | Raise e => Raise e end
             | Antiferro => match minimize_antiferro pos with Ret (_, l) => Ret (Many l) | Raise e => Raise e end
             end) with
      | Raise e => Raise e
      | Ret e => match run_all (S pos) t with Ret r => Ret (e :: r) | Raise x => Raise x end
      end
  end.

(** Lines of the summary, 214-225. *)
Inductive line := LFerro (e : F) | LAntiHead | LAnti (k : nat) (e : F) | LSpiral (e : F).

(** [f"{energies[i]:.8f}"]: IndexError beyond the list, TypeError for a list. *)
Definition formatted (energies : list energy) (i : nat) : out F :=
  match nth_error energies i with
  | None => Raise IndexError
  | Some (Many _) => Raise TypeError
  | Some (One e) => Ret e
  end.
(** The loop of 221-222 from [i] on, [left] turns to go. *)
Fixpoint anti_lines (energies : list energy) (i left : nat) : list line * option exn :=
  match left with
  | O => ([], None)
  | S left' => match formatted energies i with
               | Raise e => ([], Some e)
               | Ret e => let '(l, x) := anti_lines energies (S i) left' in (LAnti (S i) e :: l, x)
               end
  end.
(** One turn of the loop 215-225; the inner loop leaves [i] at 25. *)
Definition summary_turn (sel : list gs) (energies : list energy) (i : nat) : list line * option exn :=
  let first := match nth_error sel i with
               | Some Ferro => match formatted energies i with Ret e => ([LFerro e], None) | Raise x => ([], Some x) end
               | _ => ([], None)
               end in
  match first with
  | (l, Some x) => (l, Some x)
  | (l, None) =>
      let '(l2, x2, i) := match nth_error sel i with
                          | Some Antiferro => let '(l, x) := anti_lines energies 0 26 in (LAntiHead :: l, x, 25%nat)
                          | _ => ([], None, i)
                          end in
      match x2 with
      | Some x => ((l ++ l2)%list, Some x)
      | None => match nth_error sel i with
                | Some Spiral => match formatted energies i with
                                 | Ret e => ((l ++ l2 ++ [LSpiral e])%list, None)
                                 | Raise x => ((l ++ l2)%list, Some x)
                                 end
                | _ => ((l ++ l2)%list, None)
                end
      end
  end.
Fixpoint summary_loop (sel : list gs) (energies : list energy) (is : list nat) : list line * option exn :=
  match is with
  | [] => ([], None)
  | i :: t => match summary_turn sel energies i with
              | (l, Some x) => (l, Some x)
              | (l, None) => let '(l', x) := summary_loop sel energies t in ((l ++ l')%list, x)
              end
  end.
(** [manager], 159-225: the lines of the summary and the exception, if any. *)
Definition manager (sel : list gs) : list line * option exn :=
  match run_all 0 sel with
  | Raise e => ([], Some e)
  | Ret energies => summary_loop sel energies (seq 0 (List.length energies))
  end.

End Minimize.
