(** Proofs for C86: the .mat file of the export to Vampire. *)
From Coq Require Import List Bool ZArith Lia Permutation Sorted String.
From Verif.Base Require Import Scalar Linear3 PyDict.
From Verif.Model Require Import MatrixParam Hamiltonian Vampire.
From Verif.Spec Require Import HamSpec NotationSpec VampireSpec MatSpec.
From Verif.Proofs Require Import HamBasics HistoryProofs EnergyInitProofs VampireProofs FilterProofs NotationProofs HamGlue.
Import ListNotations.
Local Open Scope py_scope.

Section MatProofs.
Context {F : Type}.
Notation world := (@world F).

(** A failing call was stopped by a first atom without a spin or by a short list. *)
Definition ranged (mats : list Z) (i n : nat) (idx : list nat) : Prop :=
  StronglySorted lt idx /\
  forall k, In k idx <-> (i <= k < n)%nat /\ forall j, (j < k)%nat -> nth_error mats j <> nth_error mats k.

Lemma in_firstn_nth (ms : list Z) m i : In m (firstn i ms) <-> exists j, (j < i)%nat /\ nth_error ms j = Some m.
Proof.
  revert ms. induction i as [|i IH]; intros ms; [cbn; split; [tauto|intros (j & L & _); lia]|].
  destruct ms as [|x t].
  - cbn. split; [tauto|]. intros (j & _ & E). destruct j; discriminate E.
  - cbn [firstn In]. rewrite IH. split.
    + intros [<-|(j & L & E)]; [exists 0%nat; split; [lia|reflexivity]|exists (S j); split; [lia|exact E]].
    + intros ([|j] & L & E); [left; cbn in E; congruence|right; exists j; split; [lia|exact E]].
Qed.

Lemma mat_rows_cases (ms : list Z) (w : world) : forall l i pre, List.length pre = i ->
  match mat_rows (Some ms) i l w with
  | (w', Ret rows) => w' = w /\ (i + List.length l <= List.length ms \/ l = [])%nat /\
      exists idx, ranged ms i (i + List.length l) idx /\ Forall2 (describes w ms (pre ++ l)) idx rows
  | (w', Raise x) => w' = w /\
      ((x = IndexError /\ (List.length ms < i + List.length l)%nat) \/
       (x = ValueError /\ exists k a, (i <= k < i + List.length l)%nat /\ (forall j, (j < k)%nat -> nth_error ms j <> nth_error ms k) /\
          nth_error (pre ++ l) k = Some a /\ spin_of w a = None))
  end.
Proof.
  induction l as [|a t IH]; intros i pre Lp; cbn [mat_rows].
  - cbn. split; [reflexivity|]. split; [auto|]. exists []. split; [|constructor]. split; [constructor|]. intros k. cbn. split; [tauto|lia].
  - specialize (IH (S i) (pre ++ [a])). rewrite <- app_assoc in IH. cbn [app] in IH. rewrite app_length, Lp in IH. cbn [List.length] in IH.
    specialize (IH (Nat.add_1_r i)). replace (i + List.length (a :: t))%nat with (S i + List.length t)%nat by (cbn; lia).
    assert (Na : nth_error (pre ++ a :: t) i = Some a) by (rewrite nth_error_app2, Lp, Nat.sub_diag by lia; reflexivity).
    unfold bind at 1. unfold bind at 1. destruct (nth_error ms i) as [m|] eqn:Em; cbn [of_option ret raise].
    2:{ split; [reflexivity|]. left. split; [reflexivity|]. apply nth_error_None in Em. lia. }
    assert (Li : (i < List.length ms)%nat) by (apply nth_error_Some; congruence).
    destruct (in_dec Z.eq_dec m (firstn i ms)) as [I|I].
    + unfold bind at 1. cbn [ret]. unfold bind. destruct (mat_rows (Some ms) (S i) t w) as [w' [rows|x]]; cbn [ret].
      * destruct IH as (-> & L & idx & (Hs & Hi) & Hf). split; [reflexivity|]. split; [destruct L as [L| ->]; cbn in *; left; lia|].
        exists idx. split; [|exact Hf]. split; [exact Hs|]. intros k. rewrite Hi. split; intros (R & D); (split; [|exact D]); try lia.
        destruct (Nat.eq_dec k i) as [->|]; [|lia]. apply in_firstn_nth in I as (j & Lj & Ej). exfalso. apply (D j Lj). congruence.
      * destruct IH as (-> & [(-> & L)|(-> & k & b & R & D & E1 & E2)]); (split; [reflexivity|]); [left; split; [reflexivity|lia]|].
        right. split; [reflexivity|]. exists k, b. split; [lia|]. auto.
    + assert (Di : forall j, (j < i)%nat -> nth_error ms j <> nth_error ms i).
      { intros j Lj E. apply I, in_firstn_nth. exists j. split; [exact Lj|congruence]. }
      unfold bind at 1. unfold bind at 1. unfold spin. rewrite bind_gets. fold (spin_of w a). destruct (spin_of w a) as [s|] eqn:Es; cbn [ret raise].
      2:{ split; [reflexivity|]. right. split; [reflexivity|]. exists i, a. split; [lia|]. auto. }
      unfold bind. destruct (mat_rows (Some ms) (S i) t w) as [w' [rows|x]]; cbn [ret app].
      * destruct IH as (-> & L & idx & (Hs & Hi) & Hf). split; [reflexivity|]. split; [destruct L as [L| ->]; cbn in *; left; lia|].
        exists (i :: idx). split.
        -- split; [constructor; [exact Hs|apply Forall_forall; intros k Ik; apply Hi in Ik; lia]|].
           intros k. cbn [In]. rewrite Hi. split.
           ++ intros [<-|(R & D)]; (split; [lia|auto]).
           ++ intros (R & D). destruct (Nat.eq_dec i k); [left; auto|right; split; [lia|exact D]].
        -- constructor; [|exact Hf]. exists a, m, s. cbn. splits; auto.
      * destruct IH as (-> & [(-> & L)|(-> & k & b & R & D & E1 & E2)]); (split; [reflexivity|]); [left; split; [reflexivity|lia]|].
        right. split; [reflexivity|]. exists k, b. split; [lia|]. auto.
Qed.

Lemma nth_numbers n i : (i < n)%nat -> nth_error (map Z.of_nat (seq 0 n)) i = Some (Z.of_nat i).
Proof.
  intros L. rewrite nth_error_map. rewrite (nth_error_nth' (seq 0 n) 0%nat) by (rewrite seq_length; exact L).
  rewrite seq_nth by exact L. reflexivity.
Qed.
Lemma mat_rows_none (w : world) n : forall l i, (i + List.length l <= n)%nat ->
  mat_rows None i l w = mat_rows (Some (map Z.of_nat (seq 0 n))) i l w.
Proof.
  induction l as [|a t IH]; intros i L; cbn [mat_rows]; [reflexivity|]. cbn [List.length] in L.
  rewrite nth_numbers by lia. cbn [of_option].
  assert (X : (if in_dec Z.eq_dec (Z.of_nat i) (firstn i (map Z.of_nat (seq 0 n))) then None else Some (Z.of_nat i + 1)%Z) = Some (Z.of_nat i + 1)%Z).
  { destruct (in_dec Z.eq_dec (Z.of_nat i) (firstn i (map Z.of_nat (seq 0 n)))) as [I|_]; [|reflexivity].
    apply in_firstn_nth in I as (j & Lj & Ej). rewrite nth_numbers in Ej by lia. injection Ej. lia. }
  unfold bind, ret. rewrite X. destruct (spin a w) as [w1 [s|x]] eqn:Es; [|reflexivity].
  assert (w1 = w). { assert (H := spin_still a w). rewrite Es in H. exact H. } subst w1.
  rewrite <- IH by lia. reflexivity.
Qed.

Lemma mat_rows_of (w : world) materials atoms :
  mat_rows materials 0 atoms w = mat_rows (Some (mats_of materials (List.length atoms))) 0 atoms w.
Proof. destruct materials; [reflexivity|]. apply mat_rows_none. lia. Qed.

Lemma fold_max (t : list Z) : forall x, In (fold_left Z.max t x) (x :: t) /\ forall y, In y (x :: t) -> (y <= fold_left Z.max t x)%Z.
Proof.
  induction t as [|z t IH]; intros x; cbn [fold_left].
  - split; [left; reflexivity|]. intros y [<-|[]]. lia.
  - destruct (IH (Z.max x z)) as (I & H). split.
    + destruct I as [E|I]; [|right; right; exact I]. rewrite <- E. destruct (Z.max_spec x z) as [(_ & ->)|(_ & ->)]; [right; left|left]; reflexivity.
    + intros y [<-|[<-|Iy]]; [| |apply H; right; exact Iy]; (transitivity (Z.max x z); [lia|apply H; left; reflexivity]).
Qed.
Lemma zmax_spec (l : list Z) : match zmax l with Some m => In m l /\ forall x, In x l -> (x <= m)%Z | None => l = [] end.
Proof. destruct l as [|x t]; [reflexivity|]. apply fold_max. Qed.

Lemma mats_length materials n : enough materials n <-> (n <= List.length (mats_of materials n))%nat.
Proof. destruct materials; cbn; [tauto|]. rewrite map_length, seq_length. split; auto. Qed.

Section Run.
Variable order : list atom -> list atom.
Variable can_write : string -> bool.

Lemma mat_outcome (w : world) filename materials atoms : magnetic_atoms order w = (w, Ret atoms) ->
  match dump_mat order can_write filename materials w with
  | (w', Ret (N, rows)) => w' = w /\ enough materials (List.length atoms) /\ declared materials (List.length atoms) N /\
      exists idx, first_atoms (mats_of materials (List.length atoms)) (List.length atoms) idx /\
        Forall2 (describes w (mats_of materials (List.length atoms)) atoms) idx rows
  | (w', Raise x) => w' = w /\
      ((x = ValueError /\ materials = Some []) \/
       (x = IndexError /\ ~ enough materials (List.length atoms)) \/
       (x = ValueError /\ exists i a, nth_error atoms i = Some a /\ spin_of w a = None /\
          forall j, (j < i)%nat -> nth_error (mats_of materials (List.length atoms)) j <> nth_error (mats_of materials (List.length atoms)) i) \/
       (x = OSError /\ exists f, filename = Some f /\ can_write f = false))
  end.
Proof.
  intros Ea. unfold dump_mat. rewrite (bind_val _ _ _ _ _ Ea).
  assert (Hn : match (match materials with Some l => of_option ValueError (option_map (fun x => (x + 1)%Z) (zmax l)) | None => ret (Z.of_nat (List.length atoms)) end : @M F Z) w with
               | (w', Ret N) => w' = w /\ declared materials (List.length atoms) N
               | (w', Raise x) => w' = w /\ x = ValueError /\ materials = Some [] end).
  { destruct materials as [l|]; [|cbn; auto]. assert (Z := zmax_spec l). destruct (zmax l) as [m|]; cbn.
    - split; [reflexivity|]. exists m. tauto.
    - subst l. auto. }
  set (q := match materials with Some l => _ | None => _ end) in *. clearbody q. unfold bind at 1.
  destruct (q w) as [w1 [N|x]]; destruct Hn as (-> & Hn); [|split; [reflexivity|left; tauto]].
  unfold bind. rewrite (mat_rows_of w materials atoms).
  assert (H := mat_rows_cases (mats_of materials (List.length atoms)) w atoms 0 [] eq_refl). cbn [app Nat.add] in H.
  destruct (mat_rows _ 0 atoms w) as [w2 [rows|x]].
  - destruct H as (-> & L & idx & (Hs & Hi) & Hf).
    assert (En : enough materials (List.length atoms)). { apply mats_length. destruct L as [L| ->]; [exact L|cbn; lia]. }
    assert (Hx : exists idx, first_atoms (mats_of materials (List.length atoms)) (List.length atoms) idx /\
        Forall2 (describes w (mats_of materials (List.length atoms)) atoms) idx rows).
    { exists idx. split; [|exact Hf]. split; [exact Hs|]. intros i. rewrite Hi. split; intros (A & B); (split; [lia|exact B]). }
    destruct filename as [f|]; [destruct (can_write f) eqn:Ew|]; cbn; splits; auto. right; right; right. split; [reflexivity|]. exists f. auto.
  - destruct H as (-> & [(-> & L)|(-> & k & a & R & D & E1 & E2)]); (split; [reflexivity|]).
    + right; left. split; [reflexivity|]. rewrite mats_length. lia.
    + right; right; left. split; [reflexivity|]. exists k, a. auto.
Qed.

Lemma mat_content (w w' : world) filename materials atoms N rows : magnetic_atoms order w = (w, Ret atoms) ->
  dump_mat order can_write filename materials w = (w', Ret (N, rows)) ->
  w' = w /\ enough materials (List.length atoms) /\ declared materials (List.length atoms) N /\
  exists idx, first_atoms (mats_of materials (List.length atoms)) (List.length atoms) idx /\
    Forall2 (describes w (mats_of materials (List.length atoms)) atoms) idx rows.
Proof. intros Ea E. assert (H := mat_outcome w filename materials atoms Ea). rewrite E in H. exact H. Qed.
Lemma mat_failure (w w' : world) filename materials atoms x : magnetic_atoms order w = (w, Ret atoms) ->
  dump_mat order can_write filename materials w = (w', Raise x) ->
  (x = ValueError /\ materials = Some []) \/
  (x = IndexError /\ ~ enough materials (List.length atoms)) \/
  (x = ValueError /\ exists i a, nth_error atoms i = Some a /\ spin_of w a = None /\
     forall j, (j < i)%nat -> nth_error (mats_of materials (List.length atoms)) j <> nth_error (mats_of materials (List.length atoms)) i) \/
  (x = OSError /\ exists f, filename = Some f /\ can_write f = false).
Proof. intros Ea E. assert (H := mat_outcome w filename materials atoms Ea). rewrite E in H. tauto. Qed.

(** The first atom of the material of an atom. *)
Lemma first_of (mats : list Z) : forall i, exists k, (k <= i)%nat /\ nth_error mats k = nth_error mats i /\ forall j, (j < k)%nat -> nth_error mats j <> nth_error mats k.
Proof.
  intros i. induction i as [i IH] using lt_wf_ind.
  destruct (in_dec (fun a b : option Z => ltac:(decide equality; apply Z.eq_dec) : {a = b} + {a <> b}) (nth_error mats i) (map (nth_error mats) (seq 0 i))) as [I|I].
  - apply in_map_iff in I as (j & Ej & Ij). apply in_seq in Ij. destruct (IH j) as (k & L & E & D); [lia|]. exists k. splits; [lia|congruence|exact D].
  - exists i. splits; auto. intros j Lj E. apply I, in_map_iff. exists j. split; [exact E|]. apply in_seq. lia.
Qed.

Lemma mat_every (w w' : world) filename materials atoms N rows : magnetic_atoms order w = (w, Ret atoms) ->
  dump_mat order can_write filename materials w = (w', Ret (N, rows)) ->
  NoDup (map (@t_number F) rows) /\
  (forall r, In r rows -> (t_number r <= N)%Z) /\
  forall i m, (i < List.length atoms)%nat -> nth_error (mats_of materials (List.length atoms)) i = Some m ->
    exists r, In r rows /\ t_number r = (m + 1)%Z.
Proof.
  intros Ea E. destruct (mat_content w w' filename materials atoms N rows Ea E) as (_ & En & Dn & idx & (Hs & Hi) & Hf).
  set (mats := mats_of materials (List.length atoms)) in *. splits.
  - assert (Q : forall idx rows, StronglySorted lt idx -> (forall k, In k idx -> forall j, (j < k)%nat -> nth_error mats j <> nth_error mats k) ->
      Forall2 (describes w mats atoms) idx rows -> NoDup (map (@t_number F) rows)).
    { clear. intros idx rows Hs Hd Hf. induction Hf as [|i r idx rows Hr Hf IH]; cbn [map]; [constructor|].
      inversion Hs as [|? ? Hs' Ha]; subst. constructor; [|apply IH; [exact Hs'|intros; apply Hd; [right|]; assumption]].
      intros I. apply in_map_iff in I as (r' & Er & Ir).
      assert (X : exists i', In i' idx /\ describes w mats atoms i' r').
      { clear - Hf Ir. induction Hf as [|a b la lb Hab Hf IH]; [destruct Ir|]. destruct Ir as [->|Ir]; [exists a; split; [left; reflexivity|exact Hab]|].
        destruct (IH Ir) as (i' & I & D). exists i'. split; [right; exact I|exact D]. }
      destruct X as (i' & Ii & _ & m' & _ & _ & Em' & _ & En' & _). destruct Hr as (_ & m & _ & _ & Em & _ & En & _).
      rewrite Forall_forall in Ha. apply (Hd i' (or_intror Ii) i (Ha i' Ii)). rewrite Em, Em'. f_equal. lia. }
    apply (Q idx rows Hs); [|exact Hf]. intros k Ik. apply Hi, Ik.
  - intros r Ir. assert (X : exists i, In i idx /\ describes w mats atoms i r).
    { clear - Hf Ir. induction Hf as [|a b la lb Hab Hf IH]; [destruct Ir|]. destruct Ir as [->|Ir]; [exists a; split; [left; reflexivity|exact Hab]|].
      destruct (IH Ir) as (i' & I & D). exists i'. split; [right; exact I|exact D]. }
    destruct X as (i & Ii & _ & m & _ & _ & Em & _ & -> & _). apply Hi in Ii as (Li & _). subst mats. destruct materials as [l|]; cbn in *.
    + destruct Dn as (mx & _ & Hx & ->). apply nth_error_In in Em. specialize (Hx m Em). lia.
    + rewrite nth_numbers in Em by exact Li. injection Em as <-. subst N. lia.
  - intros i m Li Em. destruct (first_of mats i) as (k & Lk & Ek & Dk). assert (Ik : In k idx) by (apply Hi; split; [lia|exact Dk]).
    assert (X : exists r, In r rows /\ describes w mats atoms k r).
    { clear - Hf Ik. induction Hf as [|a b la lb Hab Hf IH]; [destruct Ik|]. destruct Ik as [->|Ik]; [exists b; split; [left; reflexivity|exact Hab]|].
      destruct (IH Ik) as (r & I & D). exists r. split; [right; exact I|exact D]. }
    destruct X as (r & Ir & _ & m' & _ & _ & Em' & _ & Er & _). exists r. split; [exact Ir|]. rewrite Er. f_equal. congruence.
Qed.
End Run.

(** ** The count of the .UCF file *)
Lemma gapless_count (l : list Z) m : gapless l -> In m l -> (forall x, In x l -> (x <= m)%Z) ->
  Z.of_nat (List.length (nodup Z.eq_dec l)) = (m + 1)%Z.
Proof.
  intros (Hp & Hg) Im Hm. assert (Hm0 := Hp m Im).
  assert (P : Permutation (nodup Z.eq_dec l) (map Z.of_nat (seq 0 (Z.to_nat (m + 1))))).
  { apply NoDup_Permutation; [apply NoDup_nodup| |].
    - apply FinFun.Injective_map_NoDup; [intros a b; lia|apply seq_NoDup].
    - intros x. rewrite nodup_In, in_map_iff. split.
      + intros I. assert (A := Hp x I). assert (B := Hm x I). exists (Z.to_nat x). split; [lia|]. apply in_seq. lia.
      + intros (k & <- & Ik). apply in_seq in Ik. apply (Hg _ m Im). lia. }
  apply Permutation_length in P. rewrite P, map_length, seq_length. lia.
Qed.
Lemma gapless_numbers n : gapless (map Z.of_nat (seq 0 n)).
Proof.
  split; [intros x I; apply in_map_iff in I as (k & <- & _); lia|].
  intros x y I L. apply in_map_iff in I as (k & <- & Ik). apply in_seq in Ik. apply in_map_iff. exists (Z.to_nat x). split; [lia|]. apply in_seq. lia.
Qed.
Lemma numbers_count n : List.length (nodup Z.eq_dec (map Z.of_nat (seq 0 n))) = n.
Proof.
  rewrite nodup_fixed_point; [rewrite map_length, seq_length; reflexivity|].
  apply FinFun.Injective_map_NoDup; [intros a b; lia|apply seq_NoDup].
Qed.
End MatProofs.

Section Together.
Context {F : Type} {SF : Scalar F}.
Notation world := (@world F).

(** The two files of one call. *)
Lemma files_agree e order (P : forall l, Permutation (order l) l) can_write (w w' w'' : world) dc sn ef of_ f f' an dm custom materials u N rows :
  convertible w dc sn ef of_ -> harmless custom ->
  dump_ucf e order can_write f an dm custom materials w = (w', Ret u) ->
  dump_mat order can_write f' materials w = (w'', Ret (N, rows)) ->
  (forall i a m, In (i, a, m) (u_atoms u) -> exists r, In r rows /\ t_number r = (m + 1)%Z) /\
  ((forall l, materials = Some l -> gapless l) -> Z.of_nat (u_nmat u) = N).
Proof.
  intros C H Eu Em. destruct (magnetic_atoms_exact order w P) as (at0 & Ea0 & _).
  destruct (ucf_content e order P can_write w w' dc sn ef of_ f an dm custom materials u C H Eu) as (w1 & at1 & E1 & Ea1 & S).
  destruct (ucf_run e order P w dc sn ef of_ an dm custom materials C H) as (w1' & at1' & _ & E1' & [F1 P1] & _ & Ea1' & _).
  assert (w1' = w1) by congruence. subst w1'. assert (at1' = at1) by congruence. subst at1'.
  assert (F0 : full w dc sn ef of_) by (destruct C as (W & U & Sp & St & No & Ne & Nf); apply full_intro; assumption).
  assert (Lc := magnetic_count order w w1 at0 at1 _ _ _ _ _ _ _ _ P F0 F1 P1 Ea0 Ea1).
  destruct (mat_every order can_write w w'' f' materials at0 N rows Ea0 Em) as (_ & _ & Cv).
  destruct (mat_content order can_write w w'' f' materials at0 N rows Ea0 Em) as (_ & _ & Dn & _).
  destruct S as (Sn & Sa & Si & Sm & _). split.
  - intros i a m I. rewrite Forall_forall in Sm. assert (Hm := Sm _ I). cbn [fst snd] in Hm. rewrite <- Lc in Hm. apply (Cv i m); [|exact Hm].
    assert (Ii : In i (map (fun x => fst (fst x)) (u_atoms u))) by (apply in_map_iff; exists (i, a, m); split; [reflexivity|exact I]).
    rewrite Si in Ii. apply in_seq in Ii. lia.
  - intros G. rewrite Sn, <- Lc. destruct materials as [l|]; cbn in *.
    + destruct Dn as (m & Im & Hm & ->). apply gapless_count; auto.
    + rewrite numbers_count. auto.
Qed.
End Together.
