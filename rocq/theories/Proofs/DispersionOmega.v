(** omega: the fallback attempts and the shape of what is returned. *)
From Coq Require Import List Bool ZArith Reals Lra Lia Arith.
From Coquelicot Require Import Complex.
From Verif.Base Require Import Scalar ScalarR Linear3 PyDict.
From Verif.Model Require Import MatrixParam Hamiltonian EnergyInit Energy Dispersion.
From Verif.Spec Require Import HamSpec DispersionSpec.
From Verif.Proofs Require Import DispersionMatrix DispersionModes.
From Coq Require Import List.
Import ListNotations.
Local Open Scope R_scope.

(** ** Quadratic forms *)
Definition norm2 (n : nat) (x : nat -> C) : R := fst (csum n (fun p => Cmult (Cconj (x p)) (x p))).
Lemma fst_plus (a b : C) : fst (Cplus a b) = fst a + fst b. Proof. reflexivity. Qed.
Lemma conj_self (z : C) : fst (Cmult (Cconj z) z) = fst z * fst z + snd z * snd z.
Proof. destruct z. unfold Cmult, Cconj; cbn. ring. Qed.
Lemma norm2_nonneg n x : 0 <= norm2 n x.
Proof. unfold norm2. induction n as [|n IH]; cbn [csum]; [cbn; lra|]. rewrite fst_plus, conj_self. nra. Qed.
Lemma norm2_pos n x : (exists p, (p < n)%nat /\ x p <> RtoC 0) -> 0 < norm2 n x.
Proof.
  intros (p & L & N). revert L. unfold norm2. induction n as [|n IH]; intros L; [lia|]. cbn [csum]. rewrite fst_plus, conj_self.
  assert (H := norm2_nonneg n x). unfold norm2 in H. destruct (Nat.eq_dec p n) as [->|Np].
  - assert (0 < fst (x n) * fst (x n) + snd (x n) * snd (x n)); [|lra].
    destruct (Req_dec (fst (x n)) 0) as [A|A]; [|nra]. destruct (Req_dec (snd (x n)) 0) as [B|B]; [|nra].
    exfalso. apply N. apply injective_projections; assumption.
  - assert (0 < fst (csum n (fun p => Cmult (Cconj (x p)) (x p)))) by (apply IH; lia). nra.
Qed.

Lemma quad_opp n m x : quad n (mat_opp m) x = Copp (quad n m x).
Proof.
  unfold quad, mat_opp. transitivity (csum n (fun p => Cmult (RtoC (-1)) (csum n (fun q => Cmult (Cmult (Cconj (x p)) (m p q)) (x q))))).
  - apply csum_ext. intros p _. rewrite <- csum_scale. apply csum_ext. intros q _. replace (RtoC (-1)) with (Copp (RtoC 1)) by (unfold RtoC, Copp; cbn; f_equal; ring). ring.
  - rewrite csum_scale. replace (RtoC (-1)) with (Copp (RtoC 1)) by (unfold RtoC, Copp; cbn; f_equal; ring). ring.
Qed.
Lemma quad_shift n c m x : quad n (shift c m) x = Cplus (quad n m x) (Cmult (RtoC c) (csum n (fun p => Cmult (Cconj (x p)) (x p)))).
Proof.
  unfold quad. rewrite <- csum_scale, <- csum_plus. apply csum_ext. intros p Lp.
  transitivity (csum n (fun q => Cplus (Cmult (Cmult (Cconj (x p)) (m p q)) (x q)) (if Nat.eqb p q then Cmult (RtoC c) (Cmult (Cconj (x p)) (x q)) else RtoC 0))).
  - apply csum_ext. intros q _. unfold shift. destruct (Nat.eqb p q); ring.
  - rewrite csum_plus. f_equal. rewrite (csum_delta n _ p Lp); [rewrite Nat.eqb_refl; reflexivity|]. intros i _ Ni. destruct (Nat.eqb_spec p i); [congruence|reflexivity].
Qed.
Lemma quad_shift_re n c m x : fst (quad n (shift c m) x) = fst (quad n m x) + c * norm2 n x.
Proof. rewrite quad_shift, fst_plus. unfold norm2. destruct (csum n (fun p => Cmult (Cconj (x p)) (x p))) as [a b]. cbn. ring. Qed.
Lemma quad_opp_re n m x : fst (quad n (mat_opp m) x) = - fst (quad n m x).
Proof. rewrite quad_opp. reflexivity. Qed.
Lemma hermitian_opp n m : hermitian n m -> hermitian n (mat_opp m).
Proof. intros H p q Lp Lq. unfold mat_opp. rewrite (H p q Lp Lq). unfold Cconj, Copp; cbn. f_equal. Qed.
Lemma hermitian_shift n c m : hermitian n m -> hermitian n (shift c m).
Proof.
  intros H p q Lp Lq. unfold shift. rewrite (Nat.eqb_sym q p), (H p q Lp Lq). destruct (Nat.eqb p q); [|reflexivity]. unfold Cconj, Cplus, RtoC; cbn. f_equal. ring.
Qed.

Lemma eps_pos : 0 < / 10 ^ 8. Proof. apply Rinv_0_lt_compat. lra. Qed.

(** ** Attempts *)
Section Attempts.
Variables (n : nat) (solve : mat -> option (list C * mat)).
Hypothesis ok : succeeds_on_positive_definite n solve.

Lemma second_attempt h : hermitian n h -> (forall x, 0 <= fst (quad n h x)) -> exists r, solve (shift (/ 10 ^ 8) h) = Some r.
Proof.
  intros H P. assert (S0 : solve (shift (/ 10 ^ 8) h) <> None).
  { apply ok; [apply hermitian_shift, H|]. split; [apply hermitian_shift, H|]. intros x Hx. rewrite quad_shift_re.
    assert (0 < norm2 n x) by (apply norm2_pos, Hx). assert (E := eps_pos). specialize (P x). nra. }
  destruct (solve _) as [r|]; [eauto|congruence].
Qed.
Lemma fourth_attempt h : hermitian n h -> solve (mat_opp h) = None -> solve (shift (- / 10 ^ 8) (mat_opp h)) = None.
Proof.
  intros H E3. destruct (solve (shift (- / 10 ^ 8) (mat_opp h))) as [r|] eqn:E4; [|reflexivity]. exfalso.
  assert (P : positive_definite n (shift (- / 10 ^ 8) (mat_opp h))) by (apply ok; [apply hermitian_shift, hermitian_opp, H|congruence]).
  assert (Q : solve (mat_opp h) <> None); [|congruence]. apply ok; [apply hermitian_opp, H|]. split; [apply hermitian_opp, H|]. intros x Hx.
  destruct P as [_ P]. specialize (P x Hx). rewrite quad_shift_re in P. assert (0 < norm2 n x) by (apply norm2_pos, Hx). assert (E := eps_pos). nra.
Qed.
End Attempts.

(** ** Shape of the result *)
Lemma attempts_cases solve N h z :
  (exists r, (solve h = Some r \/ solve (shift (/ 10 ^ 8) h) = Some r) /\ attempts solve N h z = (map Num (fst r), Entries (snd r))) \/
  (exists r, (solve (mat_opp h) = Some r \/ solve (shift (- / 10 ^ 8) (mat_opp h)) = Some r) /\
             attempts solve N h z = (map (fun c => Num (Copp c)) (fst r), Entries (mat_opp (snd r)))) \/
  (solve h = None /\ solve (shift (/ 10 ^ 8) h) = None /\ solve (mat_opp h) = None /\ solve (shift (- / 10 ^ 8) (mat_opp h)) = None /\
   attempts solve N h z = if z then (repeat NaN (2 * N), Unset) else (repeat (Num (RtoC 0)) N, Entries (fun _ _ => RtoC 0))).
Proof.
  unfold attempts, pos_result, neg_result. destruct (solve h) as [r|]; [left; eauto|]. destruct (solve (shift (/ 10 ^ 8) h)) as [r|]; [left; eauto|].
  destruct (solve (mat_opp h)) as [r|]; [right; left; eauto|]. destruct (solve (shift (- / 10 ^ 8) (mat_opp h))) as [r|]; [right; left; eauto|]. right; right. auto.
Qed.

Lemma omega_values solve N h z rG rI : fst (omega solve N h z rG rI) =
  let l := map (fun x => if rI then chop x else real_part (chop x)) (fst (attempts solve N h z)) in if rG then l else firstn N l.
Proof. unfold omega. destruct (attempts solve N h z) as [om G]. cbn [fst]. destruct rI, rG; cbn [fst]; rewrite ?map_map; reflexivity. Qed.

Lemma attempts_length solve N h z : one_energy_per_row (2 * N) solve ->
  List.length (fst (attempts solve N h z)) = (2 * N)%nat \/
  (solve h = None /\ solve (shift (/ 10 ^ 8) h) = None /\ solve (mat_opp h) = None /\ solve (shift (- / 10 ^ 8) (mat_opp h)) = None /\ z = false /\
   List.length (fst (attempts solve N h z)) = N).
Proof.
  intros HL. destruct (attempts_cases solve N h z) as [(r & Hr & ->)|[(r & Hr & ->)|(A & B & C & D & ->)]].
  - left. cbn [fst]. rewrite map_length. destruct r as [E G]. destruct Hr as [Hr|Hr]; exact (HL _ _ _ Hr).
  - left. cbn [fst]. rewrite map_length. destruct r as [E G]. destruct Hr as [Hr|Hr]; exact (HL _ _ _ Hr).
  - destruct z; cbn [fst]; rewrite repeat_length; [left; reflexivity|right; splits; auto].
Qed.

Lemma omega_length solve N h z rI : one_energy_per_row (2 * N) solve -> List.length (fst (omega solve N h z false rI)) = N.
Proof.
  intros HL. rewrite omega_values. cbv zeta. rewrite firstn_length, map_length. destruct (attempts_length solve N h z HL) as [->|(_ & _ & _ & _ & _ & ->)]; lia.
Qed.
Lemma omega_length_G solve N h z rI : one_energy_per_row (2 * N) solve ->
  z = true \/ (exists r, solve h = Some r \/ solve (shift (/ 10 ^ 8) h) = Some r \/ solve (mat_opp h) = Some r) ->
  List.length (fst (omega solve N h z true rI)) = (2 * N)%nat.
Proof.
  intros HL Hs. rewrite omega_values. cbv zeta. rewrite map_length. destruct (attempts_length solve N h z HL) as [->|(A & B & C & D & E & _)]; [reflexivity|].
  exfalso. destruct Hs as [->|(r & [Hs|[Hs|Hs]])]; congruence.
Qed.

(** Values: nan (only when asked for and every attempt failed) or a number that is 0 or not tiny. *)
Lemma chop_values z : real_part (chop (Num z)) = Num (RtoC 0) \/ (Cmod z > / 10 ^ 8 /\ real_part (chop (Num z)) = Num (RtoC (fst z))).
Proof. cbn [chop]. destruct (Rle_dec (Cmod z) (/ 10 ^ 8)) as [L|L]; [left; reflexivity|right; split; [lra|reflexivity]]. Qed.
Lemma Cmod_real (z : C) : snd z = 0 -> Cmod z = Rabs (fst z).
Proof. intros H. destruct z as [a b]; cbn in H; subst. apply Cmod_R. Qed.

Lemma firstn_In {A} n (l : list A) x : In x (firstn n l) -> In x l.
Proof. revert l. induction n as [|n IH]; intros [|y l]; cbn; try tauto. intros [->|I]; [left; reflexivity|right; apply IH, I]. Qed.

Lemma omega_no_tiny solve N h z rG : real_energies solve ->
  Forall (fun x => (x = NaN /\ z = true /\ solve h = None) \/ exists r : R, x = Num (RtoC r) /\ (r = 0 \/ Rabs r > / 10 ^ 8)) (fst (omega solve N h z rG false)).
Proof.
  intros HR. rewrite omega_values. cbv zeta.
  assert (X : Forall (fun x => (x = NaN /\ z = true /\ solve h = None) \/ exists r : R, x = Num (RtoC r) /\ (r = 0 \/ Rabs r > / 10 ^ 8))
    (map (fun x => real_part (chop x)) (fst (attempts solve N h z)))).
  { assert (Y : forall c, snd c = 0 -> exists r : R, real_part (chop (Num c)) = Num (RtoC r) /\ (r = 0 \/ Rabs r > / 10 ^ 8)).
    { intros c Hc. destruct (chop_values c) as [->|[L ->]]; [exists 0; auto|]. exists (fst c). rewrite (Cmod_real c Hc) in L. auto. }
    apply Forall_map. destruct (attempts_cases solve N h z) as [(r & Hr & ->)|[(r & Hr & ->)|(A & _ & _ & _ & ->)]]; cbn [fst].
    - apply Forall_map. apply Forall_impl with (P := fun c : C => snd c = 0); [intros c Hc; right; apply Y, Hc|].
      destruct r as [E G]. destruct Hr as [Hr|Hr]; exact (HR _ _ _ Hr).
    - apply Forall_map. apply Forall_impl with (P := fun c : C => snd c = 0); [intros c Hc; right; apply Y; cbn; rewrite Hc; ring|].
      destruct r as [E G]. destruct Hr as [Hr|Hr]; exact (HR _ _ _ Hr).
    - destruct z; cbn [fst]; apply Forall_forall; intros x I; apply repeat_spec in I; subst x; [left; auto|right; apply Y; reflexivity]. }
  destruct rG; [exact X|]. rewrite Forall_forall in *. intros x I. apply X. eapply firstn_In; eauto.
Qed.
