(** Calls that Python refuses. *)
From Coq Require Import String Ascii List Bool.
From Verif.Base Require Import PyString PyDict.
From Verif.Model Require Import Hamiltonian CommandLine.
From Verif.Proofs Require Import DictProofs.
Import ListNotations.

Section Proofs.
Context {F : Type}.

Lemma absent {A} (kw : dict string A) p : ~ In p (map fst kw) -> dget kw p = None.
Proof.
  induction kw as [|[k v] t IH]; intros H; [reflexivity|]. cbn in *. destruct (eq_dec p k) as [->|]; [tauto|]. apply IH. tauto.
Qed.
Lemma call_missing (sig : @signature F) kw p : In (p, None) sig -> ~ In p (map fst kw) -> call sig kw = Raise TypeError.
Proof.
  intros I N. unfold call. destruct (forallb _ kw); [|reflexivity].
  assert (T : forall s : @signature F, (exists l, fold_right (fun p acc => match acc with Raise e => Raise e | Ret l => match dget kw (fst p), snd p with Some v, _ | None, Some v => Ret (v :: l) | None, None => Raise TypeError end end) (Ret []) s = Ret l) \/
     fold_right (fun p acc => match acc with Raise e => Raise e | Ret l => match dget kw (fst p), snd p with Some v, _ | None, Some v => Ret (v :: l) | None, None => Raise TypeError end end) (Ret []) s = Raise TypeError).
  { induction s as [|x t IH]; [left; eexists; reflexivity|]. cbn [fold_right]. destruct IH as [[l ->]| ->]; [|right; reflexivity].
    destruct (dget kw (fst x)), (snd x); eauto. }
  induction sig as [|x t IH]; [destruct I|]. cbn [fold_right]. destruct I as [->|I].
  - destruct (T t) as [[l ->]| ->]; [|reflexivity]. cbn [fst snd]. rewrite absent by exact N. reflexivity.
  - rewrite IH by exact I. reflexivity.
Qed.
Lemma call_unknown (sig : @signature F) kw k v : In (k, v) kw -> ~ In k (map fst sig) -> call sig kw = Raise TypeError.
Proof.
  intros I N. unfold call. destruct (forallb _ kw) eqn:E; [|reflexivity]. rewrite forallb_forall in E. specialize (E _ I).
  cbn in E. unfold dmem in E. rewrite absent in E by exact N. discriminate.
Qed.
Lemma call_values (sig : @signature F) kw l : call sig kw = Ret l ->
  Forall2 (fun p v => match find (fun x => String.eqb (fst x) (fst p)) kw with Some x => v = snd x | None => snd p = Some v end) sig l.
Proof.
  unfold call. destruct (forallb _ kw); [|discriminate]. revert l.
  assert (G : forall k, dget kw k = option_map snd (find (fun x => String.eqb (fst x) k) kw)).
  { clear. induction kw as [|[k' v'] t IH]; intros k; [reflexivity|]. cbn [dget find fst]. destruct (eq_dec k k') as [->|N].
    - rewrite String.eqb_refl. reflexivity.
    - destruct (String.eqb_spec k' k) as [E|_]; [congruence|]. apply IH. }
  induction sig as [|p t IH]; intros l; cbn [fold_right]; [intros [= <-]; constructor|].
  destruct (fold_right _ _ t) as [r|]; [|discriminate]. specialize (IH r eq_refl). rewrite G.
  destruct (find (fun x => String.eqb (fst x) (fst p)) kw) as [x|] eqn:E; cbn [option_map].
  - intros [= <-]. constructor; [rewrite E; reflexivity|exact IH].
  - destruct (snd p) as [v|] eqn:Ep; [|discriminate]. intros [= <-]. constructor; [rewrite E; exact Ep|exact IH].
Qed.
End Proofs.
