From Coq Require Import List ZArith Lia.
From Verif.Model Require Import Hamiltonian Minimize.
From Verif.Spec Require Import MinimizeSpec.
Import ListNotations.

Section Proofs.
Context {F : Type}.
Variables ferro spiral : nat -> out F.
Variable antiferro : nat -> Z * Z * Z -> out F.
Variable n : nat.

Definition elem (r : gs * list F) : energy :=
  match r with (Antiferro, l) => Many l | (_, [e]) => One e | (_, l) => Many l end.

Lemma loop_energies pos qs es : Forall2 (fun q e => antiferro pos q = Ret e) (filter (fun q => negb (is_gamma q)) qs) es ->
  forall i, exists files, antiferro_loop antiferro n pos qs i = Ret (files, es) /\ map snd files = filter (fun q => negb (is_gamma q)) qs.
Proof.
  revert es. induction qs as [|q qs IH]; intros es H i; cbn [filter antiferro_loop] in *.
  - inversion H. exists []. auto.
  - destruct (is_gamma q) eqn:G; cbn [negb] in *.
    + apply IH, H.
    + inversion H as [|? e ? es' He Ht]; subst. rewrite He. destruct (IH _ Ht (match n with O => S i | S m => m end)) as (fs & E & Es). rewrite E.
      exists ((S i, q) :: fs). cbn. rewrite Es. auto.
Qed.
Lemma run_ran sel pos rs : ran ferro spiral antiferro pos sel rs -> run_all ferro spiral antiferro n pos sel = Ret (map elem rs) /\ sel = map fst rs.
Proof.
  induction 1 as [|pos t e r He _ [IH IH']|pos t e r He _ [IH IH']|pos t es r He _ [IH IH']]; cbn [run_all map elem fst]; [auto| | |].
  - rewrite He, IH, <- IH'. auto.
  - rewrite He, IH, <- IH'. auto.
  - unfold minimize_antiferro. destruct (loop_energies pos q_points es He 0) as (fs & E & _). rewrite E, IH, <- IH'. auto.
Qed.
(** The energies other than antiferromagnetic ones are single numbers. *)
Definition single (r : gs * list F) : Prop := fst r <> Antiferro /\ exists e, snd r = [e].
Lemma ran_single sel pos rs : ran ferro spiral antiferro pos sel rs -> forall r, In r rs -> fst r <> Antiferro -> exists e, snd r = [e].
Proof.
  induction 1 as [|pos t e r0 He _ IH|pos t e r0 He _ IH|pos t es r0 He _ IH]; cbn; intros r Hr N; [destruct Hr| | |];
    destruct Hr as [<-|Hr]; try (apply IH; assumption); cbn in *; try (eexists; reflexivity). congruence.
Qed.
Lemma turn_single rs i r : nth_error rs i = Some r -> single r -> summary_turn (map fst rs) (map elem rs) i = (lines_for r, None).
Proof.
  intros H [N [e E]]. unfold summary_turn, formatted. rewrite !nth_error_map, H. cbn. destruct r as [[] l]; cbn in *; subst l; try congruence; cbn; rewrite ?nth_error_map, ?H; reflexivity.
Qed.
Lemma loop_singles pre : forall rs0 rs, (forall r, In r pre -> single r) -> rs0 = rs ++ pre ->
  forall post is, summary_loop (map fst (rs0 ++ post)) (map elem (rs0 ++ post)) (seq (length rs) (length pre) ++ is)
    = (let '(l, x) := summary_loop (map fst (rs0 ++ post)) (map elem (rs0 ++ post)) is in (summary pre ++ l, x)).
Proof.
  induction pre as [|r pre IH]; intros rs0 rs Hs -> post is.
  - cbn. destruct (summary_loop _ _ is). reflexivity.
  - cbn [length seq app summary_loop].
    rewrite (turn_single _ _ r); [|rewrite <- app_assoc, nth_error_app2, Nat.sub_diag by lia; reflexivity|apply Hs; left; reflexivity].
    specialize (IH (rs ++ r :: pre) (rs ++ [r]) (fun x Hx => Hs x (or_intror Hx))).
    rewrite app_length in IH. cbn in IH. rewrite Nat.add_1_r in IH. rewrite IH by (rewrite <- app_assoc; reflexivity).
    destruct (summary_loop _ _ is) as [l x]. unfold summary. cbn [flat_map]. rewrite app_assoc. reflexivity.
Qed.
Lemma summary_no_antiferro sel rs : ~ In Antiferro sel -> ran ferro spiral antiferro 0 sel rs ->
  manager ferro spiral antiferro n sel = (summary rs, None).
Proof.
  intros N H. unfold manager. destruct (run_ran _ _ _ H) as [E Es]. rewrite E, map_length, Es.
  assert (Hs : forall r, In r rs -> single r).
  { intros r Hr. assert (fst r <> Antiferro) by (intros X; apply N; rewrite Es, <- X; apply in_map, Hr). split; [assumption|]. eapply ran_single; eassumption. }
  pose proof (loop_singles rs rs [] Hs eq_refl [] []) as L. rewrite !app_nil_r in L. cbn [length] in L. rewrite L. cbn. rewrite app_nil_r. reflexivity.
Qed.

(** The energies before the antiferromagnetic one. *)
Definition singles (rs : list (gs * list F)) : list F := flat_map snd rs.
Lemma anti_stops pre es post : (forall r, In r pre -> single r) -> forall k pre0 left, (length pre - k = length pre0)%nat -> skipn k pre = pre0 -> (k <= length pre)%nat -> (length pre0 < left)%nat ->
  anti_lines (map elem (pre ++ (Antiferro, es) :: post)) k left = (numbered (S k) (singles pre0), Some TypeError).
Proof.
  intros Hs k pre0. revert k. induction pre0 as [|r pre0 IH]; intros k left Hl Hk Hle Hlt.
  - destruct left as [|left]; [lia|]. cbn [anti_lines]. unfold formatted. rewrite nth_error_map, nth_error_app2 by (cbn in Hl; lia).
    replace (k - length pre)%nat with 0%nat by (cbn in Hl; lia). reflexivity.
  - destruct left as [|left]; [lia|]. cbn [anti_lines length] in *.
    assert (Hn : nth_error pre k = Some r).
    { rewrite <- (firstn_skipn k pre), nth_error_app2; rewrite firstn_length; [|lia]. replace (k - Nat.min k (length pre))%nat with 0%nat by lia. rewrite Hk. reflexivity. }
    assert (Hr : single r) by (apply Hs; eapply nth_error_In; exact Hn).
    unfold formatted. rewrite nth_error_map, nth_error_app1 by lia. rewrite Hn. cbn [option_map].
    destruct Hr as [N [e E]]. destruct r as [g l]. cbn [fst snd] in N, E. subst l.
    assert (elem (g, [e]) = One e) as -> by (destruct g; try reflexivity; congruence).
    rewrite (IH (S k)); [reflexivity|lia| |lia|lia]. 
    clear - Hk. revert pre Hk. induction k as [|k IHk]; intros pre Hk; [cbn in Hk; subst pre; reflexivity|]. destruct pre as [|a pre]; [discriminate|]. cbn in Hk. apply (IHk pre Hk).
Qed.
Lemma antiferro_fails sel rs pre es post : ran ferro spiral antiferro 0 sel rs -> rs = pre ++ (Antiferro, es) :: post ->
  (forall r, In r pre -> fst r <> Antiferro) -> (length pre < 26)%nat ->
  manager ferro spiral antiferro n sel = (summary pre ++ LAntiHead :: numbered 1 (singles pre), Some TypeError).
Proof.
  intros H Er Np Hl. unfold manager. destruct (run_ran _ _ _ H) as [E Es]. rewrite E, map_length, Es.
  assert (Hs : forall r, In r pre -> single r).
  { intros r Hr. split; [apply Np, Hr|]. eapply ran_single; [exact H| |apply Np, Hr]. rewrite Er. apply in_or_app. auto. }
  subst rs. replace (seq 0 (length (pre ++ (Antiferro, es) :: post))) with (seq 0 (length pre) ++ seq (length pre) (S (length post)))
    by (rewrite app_length; cbn [length]; rewrite seq_app; reflexivity).
  pose proof (loop_singles pre pre [] Hs eq_refl ((Antiferro, es) :: post) (seq (length pre) (S (length post)))) as L. cbn [length] in L. rewrite L.
  cbn [seq summary_loop]. unfold summary_turn at 1. rewrite !nth_error_map. rewrite nth_error_app2, Nat.sub_diag by lia. cbn [nth_error option_map fst].
  rewrite (anti_stops pre es post Hs 0 pre 26); [reflexivity|lia|reflexivity|lia|exact Hl].
Qed.
End Proofs.

(** ** History files *)
Section Files.
Context {F : Type}.
Variable antiferro : nat -> Z * Z * Z -> out F.
Lemma files_loop pos m qs : forall files es i, antiferro_loop antiferro (S m) pos qs i = Ret (files, es) ->
  map fst files = (fix go qs i := match qs with [] => [] | q :: t => if is_gamma q then go t (S i) else S i :: go t m end) qs i.
Proof.
  induction qs as [|q qs IH]; intros files es i H; cbn [antiferro_loop] in H.
  - injection H as <- _. reflexivity.
  - destruct (is_gamma q); [apply (IH _ _ _ H)|]. destruct (antiferro pos q); [|discriminate].
    destruct (antiferro_loop antiferro (S m) pos qs m) as [[fs es']|] eqn:E; [|discriminate]. injection H as <- _. cbn [map fst]. rewrite (IH _ _ _ E). reflexivity.
Qed.
Lemma files_of pos m files es : minimize_antiferro antiferro (S m) pos = Ret (files, es) ->
  map fst files = [1%nat] ++ repeat (S m) 12 ++ [S (S m)] ++ repeat (S m) 12 /\ map snd files = filter (fun q => negb (is_gamma q)) q_points.
Proof.
  intros H. split; [rewrite (files_loop _ _ _ _ _ _ H); reflexivity|].
  unfold minimize_antiferro in H. revert files es H. generalize 0%nat as i. generalize q_points as qs.
  induction qs as [|q qs IH]; intros i files es H; cbn [antiferro_loop] in H.
  - injection H as <- _. reflexivity.
  - cbn [filter]. destruct (is_gamma q); [apply (IH _ _ _ H)|]. destruct (antiferro pos q); [|discriminate].
    destruct (antiferro_loop antiferro (S m) pos qs m) as [[fs es']|] eqn:E; [|discriminate]. injection H as <- _. cbn. rewrite (IH _ _ _ E). reflexivity.
Qed.
End Files.

Lemma default_refuted : exists (ferro spiral : nat -> out nat) antiferro n rs, ran ferro spiral antiferro 0 [Ferro; Antiferro; Spiral] rs /\
  manager ferro spiral antiferro n [Ferro; Antiferro; Spiral] <> (summary rs, None).
Proof.
  exists (fun _ => Ret 1%nat), (fun _ => Ret 2%nat), (fun _ _ => Ret 3%nat), 1%nat, [(Ferro, [1%nat]); (Antiferro, repeat 3%nat 26); (Spiral, [2%nat])].
  split; [repeat constructor|]. intros H. vm_compute in H. discriminate.
Qed.
Lemma files_refuted : exists (antiferro : nat -> Z * Z * Z -> out nat) n pos files es, minimize_antiferro antiferro n pos = Ret (files, es) /\ ~ NoDup (map fst files).
Proof.
  exists (fun _ _ => Ret 3%nat), 2%nat, 0%nat. eexists _, _. split; [vm_compute; reflexivity|].
  intros H. vm_compute in H. inversion H as [|? ? _ H1]. inversion H1 as [|? ? N _]. apply N. left. reflexivity.
Qed.
Lemma singles_case : exists (ferro spiral : nat -> out nat) antiferro rs, ~ In Antiferro [Spiral; Ferro; Spiral] /\ ran ferro spiral antiferro 0 [Spiral; Ferro; Spiral] rs /\
  summary rs = [LSpiral 0%nat; LFerro 11%nat; LSpiral 2%nat].
Proof.
  exists (fun k => Ret (10 + k)%nat), (fun k => Ret k), (fun _ _ => Raise ValueError), [(Spiral, [0%nat]); (Ferro, [11%nat]); (Spiral, [2%nat])].
  split; [intros [H|[H|[H|[]]]]; discriminate|]. split; [repeat constructor|reflexivity].
Qed.
