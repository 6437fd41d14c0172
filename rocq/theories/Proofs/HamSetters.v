(** Outcomes of the notation setters that rescale parameters (spin_normalized, exchange_factor,
    on_site_factor) and conservation of the classical energy. *)
From Coq Require Import List Bool ZArith Lia Permutation String.
From Coq Require Import Ring Field Field_theory Ring_theory.
From Verif.Base Require Import Scalar Linear3 PyDict.
From Verif.Model Require Import MatrixParam Hamiltonian.
From Verif.Spec Require Import HamSpec.
From Verif.Proofs Require Import DictProofs HamBasics.
Import ListNotations.

Section Setters.
Context {F : Type} {SF : Scalar F}.
Add Field F_field : (@f_field F SF).
Notation world := (@world F).
Notation ham := (@ham F).
Notation M := (@M F).
Local Open Scope py_scope.
Local Open Scope fld_scope.

Lemma for_each_map {A B} (f : A -> B) (l : list A) (body : B -> M unit) w :
  for_each (map f l) body w = for_each l (fun x => body (f x)) w.
Proof.
  revert w; induction l as [|x l IH]; intros w; [reflexivity|]. cbn [for_each map]. unfold bind.
  destruct (body (f x) w) as [w' [a|e]]; auto.
Qed.

(** Success of a loop of single-object updates. *)
Lemma for_each_success {A} (P : A -> Prop) (l : list A) (body : A -> M unit) (u : A -> loc * (M3 F -> M3 F)) (h : ham) :
  (forall x st, In x l -> (P x /\ body x (mkW st h) = (mkW (apply_upd st (u x)) h, Ret tt)) \/
      exists w' e, body x (mkW st h) = (w', Raise e)) ->
  forall st w', for_each l body (mkW st h) = (w', Ret tt) ->
  w' = mkW (apply_upds st (map u l)) h /\ Forall P l.
Proof.
  intros Hb. induction l as [|x l IH]; intros st w'; cbn [for_each map].
  - intros [= <-]. split; [reflexivity|constructor].
  - unfold bind at 1. destruct (Hb x st (or_introl eq_refl)) as [[HP ->]|(w2 & e & ->)]; [|discriminate].
    intros H. apply IH in H as [-> HF].
    + split; [reflexivity|constructor; assumption].
    + intros y st' Hy. apply Hb. right; exact Hy.
Qed.

(** One update per dictionary entry. *)
Definition upds {K} (f : K -> M3 F -> M3 F) (d : dict K loc) : list (loc * (M3 F -> M3 F)) :=
  map (fun kl => (snd kl, f (fst kl))) d.
Lemma fst_upds {K} (f : K -> M3 F -> M3 F) (d : dict K loc) : map fst (upds f d) = map snd d.
Proof. unfold upds. rewrite map_map. reflexivity. Qed.

Lemma get_bond_In (w : world) k l : NoDup (bonds w) -> In (k, l) (h_exch (w_ham w)) ->
  get_bond k w = (w, Ret l).
Proof. intros N I. unfold get_bond, gets, bind. rewrite (In_dget _ _ _ N I). reflexivity. Qed.
Lemma get_onsite_In (w : world) k l : NoDup (sites w) -> In (k, l) (h_ons (w_ham w)) ->
  get_onsite k w = (w, Ret l).
Proof. intros N I. unfold get_onsite, gets, bind. rewrite (In_dget _ _ _ N I). reflexivity. Qed.

Lemma scale_loc_cases (st : list (M3 F)) (h : ham) l c :
  ((l < List.length st)%nat /\ scale_loc l c (mkW st h) = (mkW (apply_upd st (l, mscale c)) h, Ret tt)) \/
  (exists w' e, scale_loc l c (mkW st h) = (w', Raise e)).
Proof.
  unfold scale_loc, read, write, bind, apply_upd; cbn.
  destruct (nth_error st l) eqn:E; [left|right; eauto]. split; [|reflexivity].
  apply nth_error_Some. congruence.
Qed.
Lemma div_loc_cases (st : list (M3 F)) (h : ham) l c :
  (c <> 0 /\ div_loc l c (mkW st h) = (mkW (apply_upd st (l, fun m => mdivs m c)) h, Ret tt)) \/
  (exists w' e, div_loc l c (mkW st h) = (w', Raise e)).
Proof.
  unfold div_loc, read, write, bind, apply_upd, p_div; cbn.
  destruct (nth_error st l) eqn:E; [|right; eauto].
  destruct (feq_dec c 0); [right; unfold raise; eauto|left; auto].
Qed.

(** ** Values after a batch of updates *)
Lemma bond_value_upds (st : list (M3 F)) (h h' : ham) fe (fo : atom -> M3 F -> M3 F) d' :
  NoDup (map snd (h_exch h) ++ map snd d') -> h_exch h' = h_exch h ->
  forall k, bond_value (mkW (apply_upds st (upds fe (h_exch h) ++ upds fo d')) h') k
          = option_map (fe k) (bond_value (mkW st h) k).
Proof.
  intros N E k. unfold bond_value; cbn. rewrite E.
  destruct (dget (h_exch h) k) as [l|] eqn:G; [|reflexivity].
  apply nth_apply_upds_in.
  - rewrite map_app, !fst_upds. exact N.
  - apply in_or_app; left. unfold upds. apply in_map_iff. exists (k, l). split; [reflexivity|].
    apply dget_In. exact G.
Qed.
Lemma onsite_value_upds (st : list (M3 F)) (h h' : ham) (fe : bkey -> M3 F -> M3 F) (fo : atom -> M3 F -> M3 F) d' :
  NoDup (map snd d' ++ map snd (h_ons h)) -> h_ons h' = h_ons h ->
  forall k, onsite_value (mkW (apply_upds st (upds fe d' ++ upds fo (h_ons h))) h') k
          = option_map (fo k) (onsite_value (mkW st h) k).
Proof.
  intros N E k. unfold onsite_value; cbn. rewrite E.
  destruct (dget (h_ons h) k) as [l|] eqn:G; [|reflexivity].
  apply nth_apply_upds_in.
  - rewrite map_app, !fst_upds. exact N.
  - apply in_or_app; right. unfold upds. apply in_map_iff. exists (k, l). split; [reflexivity|].
    apply dget_In. exact G.
Qed.
Lemma onsite_value_out (st : list (M3 F)) (h h' : ham) (fe : bkey -> M3 F -> M3 F) d' :
  NoDup (map snd d' ++ map snd (h_ons h)) -> h_ons h' = h_ons h ->
  forall k, onsite_value (mkW (apply_upds st (upds fe d')) h') k = onsite_value (mkW st h) k.
Proof.
  intros N E k. unfold onsite_value; cbn. rewrite E.
  destruct (dget (h_ons h) k) as [l|] eqn:G; [|reflexivity].
  apply nth_apply_upds_out. rewrite fst_upds. intros I.
  apply dget_In in G. apply (in_map snd) in G. cbn in G.
  clear - N I G. induction (map snd d') as [|x t IH]; [destruct I|].
  cbn in N; inversion N; subst. destruct I as [->|I]; [|auto]. apply H1, in_or_app; auto.
Qed.
Lemma bond_value_out (st : list (M3 F)) (h h' : ham) (fo : atom -> M3 F -> M3 F) d' :
  NoDup (map snd (h_exch h) ++ map snd d') -> h_exch h' = h_exch h ->
  forall k, bond_value (mkW (apply_upds st (upds fo d')) h') k = bond_value (mkW st h) k.
Proof.
  intros N E k. unfold bond_value; cbn. rewrite E.
  destruct (dget (h_exch h) k) as [l|] eqn:G; [|reflexivity].
  apply nth_apply_upds_out. rewrite fst_upds. intros I.
  apply dget_In in G. apply (in_map snd) in G. cbn in G.
  clear - N I G. induction (map snd (h_exch h)) as [|x t IH]; [destruct G|].
  cbn in N; inversion N; subst. destruct G as [->|G]; [|auto]. apply H1, in_or_app; auto.
Qed.

Lemma NoDup_app_l {A} (l l' : list A) : NoDup (l ++ l') -> NoDup l.
Proof. induction l; cbn; intros N; [constructor|]. inversion N; subst. constructor; auto. intros I; apply H1, in_or_app; auto. Qed.
Lemma NoDup_app_r {A} (l l' : list A) : NoDup (l ++ l') -> NoDup l'.
Proof. induction l; cbn; intros N; [assumption|]. inversion N; auto. Qed.

(** ** Hamiltonian with one notation entry changed *)
Definition with_sn (h : ham) b := mkHam (h_exch h) (h_ons h) (h_atoms h) (h_spins h) (h_dc h) (Some b) (h_ef h) (h_of h).
Definition with_ef (h : ham) x := mkHam (h_exch h) (h_ons h) (h_atoms h) (h_spins h) (h_dc h) (h_sn h) (Some x) (h_of h).
Definition with_of (h : ham) x := mkHam (h_exch h) (h_ons h) (h_atoms h) (h_spins h) (h_dc h) (h_sn h) (h_ef h) (Some x).
Definition with_dc (h : ham) b := mkHam (h_exch h) (h_ons h) (h_atoms h) (h_spins h) (Some b) (h_sn h) (h_ef h) (h_of h).

(** What each setter does to the parameters when it succeeds, in one shape: every bond value goes
    through [fe k], every on-site value through [fo a], only the notation entry changes. *)
Definition rescaled (w w' : world) (h' : ham) (fe : bkey -> M3 F -> M3 F) (fo : atom -> M3 F -> M3 F) : Prop :=
  w_ham w' = h' /\ List.length (w_store w') = List.length (w_store w) /\
  (forall k, bond_value w' k = option_map (fe k) (bond_value w k)) /\
  (forall a, onsite_value w' a = option_map (fo a) (onsite_value w a)).

Lemma option_map_id {A} (o : option A) : option_map (fun x => x) o = o.
Proof. destruct o; reflexivity. Qed.

Lemma mscale_1 (m : M3 F) : mscale 1 m = m.
Proof. destruct m; lin3; f_equal; ring. Qed.
Lemma option_map_mscale_1 o : option_map (fun m : M3 F => mscale 1 m) o = o.
Proof. destruct o; cbn; [rewrite mscale_1|]; reflexivity. Qed.

Lemma rescaled_same st (h h' : ham) : h_exch h' = h_exch h -> h_ons h' = h_ons h ->
  rescaled (mkW st h) (mkW st h') h' (fun _ m => mscale 1 m) (fun _ m => mscale 1 m).
Proof.
  intros E1 E2. unfold rescaled; cbn. splits; auto; intros k; rewrite option_map_mscale_1;
    unfold bond_value, onsite_value; cbn; rewrite ?E1, ?E2; reflexivity.
Qed.

Lemma set_exchange_factor_ok (w w' : world) new :
  NoDup (bonds w) -> unshared w -> set_exchange_factor new w = (w', Ret tt) ->
  exists c : F, rescaled w w' (with_ef (w_ham w) new) (fun _ m => mscale c m) (fun _ m => mscale 1 m) /\
    (forall o, h_ef (w_ham w) = Some o -> (bonds w = [] \/ new * c = o)) /\
    (h_ef (w_ham w) = None -> c = 1).
Proof.
  destruct w as [st h]; cbn. intros Nk Nu. unfold set_exchange_factor, gets, bind at 1.
  cbn. destruct (h_ef h) as [o|] eqn:Eo.
  2:{ intros [= <-]. exists 1. split; [|split; [discriminate|reflexivity]]. apply rescaled_same; reflexivity. }
  destruct (feq_dec o new) as [->|Ne].
  { intros [= <-]. exists 1. split; [|split; [|discriminate]]; [apply rescaled_same; reflexivity|].
    intros ? [= <-]. right. ring. }
  unfold bind at 1. cbn. unfold dkeys. unfold bind at 1. rewrite for_each_map.
  destruct (for_each _ _ _) as [w1 [[]|e]] eqn:L; [|discriminate].
  cbn. intros [= <-].
  apply for_each_success with (P := fun _ => new <> 0) (u := fun kl => (snd kl, mscale (o / new))) in L.
  - destruct L as [-> HP]. exists (o / new). split; [|split; [|discriminate]].
    + unfold rescaled; cbn. splits; auto; [apply length_apply_upds| |]; intros k.
      * rewrite <- (app_nil_r (map _ _)).
        apply (bond_value_upds st h (with_ef h new) (fun _ => mscale (o / new)) (fun (_ : atom) m => m) []); [|reflexivity].
        cbn. rewrite app_nil_r. exact (NoDup_app_l _ _ Nu).
      * rewrite option_map_mscale_1. apply (onsite_value_out st h (with_ef h new) (fun _ => mscale (o / new))); [exact Nu|reflexivity].
    + intros ? [= <-]. unfold bonds; cbn. destruct (h_exch h) as [|kl d]; [left; reflexivity|right].
      inversion HP; subst. field. assumption.
  - intros [k l] st' I. cbn [fst snd]. unfold bind at 1. rewrite (get_bond_In (mkW st' h) k l Nk I).
    unfold bind at 1, py_div. destruct (feq_dec new 0); [right; unfold raise; eauto|].
    unfold ret. destruct (scale_loc_cases st' h l (o / new)) as [[_ H]|H]; [left; auto|right; exact H].
Qed.

Lemma set_on_site_factor_ok (w w' : world) new :
  NoDup (sites w) -> unshared w -> set_on_site_factor new w = (w', Ret tt) ->
  exists c : F, rescaled w w' (with_of (w_ham w) new) (fun _ m => mscale 1 m) (fun _ m => mscale c m) /\
    (forall o, h_of (w_ham w) = Some o -> (sites w = [] \/ new * c = o)) /\
    (h_of (w_ham w) = None -> c = 1).
Proof.
  destruct w as [st h]; cbn. intros Nk Nu. unfold set_on_site_factor, gets, bind at 1.
  cbn. destruct (h_of h) as [o|] eqn:Eo.
  2:{ intros [= <-]. exists 1. split; [|split; [discriminate|reflexivity]]. apply rescaled_same; reflexivity. }
  destruct (feq_dec o new) as [->|Ne].
  { intros [= <-]. exists 1. split; [|split; [|discriminate]]; [apply rescaled_same; reflexivity|].
    intros ? [= <-]. right. ring. }
  unfold bind at 1. cbn. unfold dkeys. unfold bind at 1. rewrite for_each_map.
  destruct (for_each _ _ _) as [w1 [[]|e]] eqn:L; [|discriminate].
  cbn. intros [= <-].
  apply for_each_success with (P := fun _ => new <> 0) (u := fun kl => (snd kl, mscale (o / new))) in L.
  - destruct L as [-> HP]. exists (o / new). split; [|split; [|discriminate]].
    + unfold rescaled; cbn. splits; auto; [apply length_apply_upds| |]; intros k.
      * rewrite option_map_mscale_1. apply (bond_value_out st h (with_of h new) (fun _ => mscale (o / new))); [exact Nu|reflexivity].
      * apply (onsite_value_upds st h (with_of h new) (fun (_ : bkey) m => m) (fun _ => mscale (o / new)) []); [|reflexivity].
        exact (NoDup_app_r _ _ Nu).
    + intros ? [= <-]. unfold sites; cbn. destruct (h_ons h) as [|kl d]; [left; reflexivity|right].
      inversion HP; subst. field. assumption.
  - intros [k l] st' I. cbn [fst snd]. unfold bind at 1. rewrite (get_onsite_In (mkW st' h) k l Nk I).
    unfold bind at 1, py_div. destruct (feq_dec new 0); [right; unfold raise; eauto|].
    unfold ret. destruct (scale_loc_cases st' h l (o / new)) as [[_ H]|H]; [left; auto|right; exact H].
Qed.

(** ** spin_normalized *)
(** The loops of both directions, with the per-element update as a parameter. *)
Lemma sn_loops (op : loc -> F -> M unit) (act : F -> M3 F -> M3 F) (okc : F -> Prop) (st : list (M3 F)) (h : ham) w' :
  (forall st l c, (okc c /\ op l c (mkW st h) = (mkW (apply_upd st (l, act c)) h, Ret tt)) \/
                  (exists w1 e, op l c (mkW st h) = (w1, Raise e))) ->
  NoDup (dkeys (h_exch h)) -> NoDup (dkeys (h_ons h)) ->
  NoDup (map snd (h_exch h) ++ map snd (h_ons h)) ->
  (d <- gets (@h_exch F) ;;
   for_each (dkeys d) (fun k =>
     l <- get_bond k ;; s1 <- spin (b_from k) ;; s2 <- spin (b_to k) ;; op l (s1 * s2)) ;;;
   e <- gets (@h_ons F) ;;
   for_each (dkeys e) (fun a => l <- get_onsite a ;; s <- spin a ;; op l (s * s))) (mkW st h) = (w', Ret tt) ->
  exists sp : atom -> F,
    rescaled (mkW st h) w' h (fun k => act (sp (b_from k) * sp (b_to k))) (fun a => act (sp a * sp a)) /\
    (forall k, In k (dkeys (h_exch h)) -> dget (h_spins h) (b_from k) = Some (sp (b_from k)) /\
        dget (h_spins h) (b_to k) = Some (sp (b_to k)) /\ okc (sp (b_from k) * sp (b_to k))) /\
    (forall a, In a (dkeys (h_ons h)) -> dget (h_spins h) a = Some (sp a) /\ okc (sp a * sp a)).
Proof.
  intros Hop Nk Ns Nu.
  set (sp := fun a => match dget (h_spins h) a with Some s => s | None => 0 end).
  unfold bind at 1, gets at 1. cbn [w_ham]. unfold bind at 1. unfold dkeys at 1. rewrite for_each_map.
  destruct (for_each _ _ _) as [w1 [[]|e]] eqn:L; [|discriminate].
  apply for_each_success with
    (P := fun kl => dget (h_spins h) (b_from (fst kl)) = Some (sp (b_from (fst kl))) /\
        dget (h_spins h) (b_to (fst kl)) = Some (sp (b_to (fst kl))) /\ okc (sp (b_from (fst kl)) * sp (b_to (fst kl))))
    (u := fun kl => (snd kl, act (sp (b_from (fst kl)) * sp (b_to (fst kl))))) in L.
  2:{ intros [k l] st' I. cbn [fst snd]. rewrite (bind_val _ _ _ _ _ (get_bond_In (mkW st' h) k l Nk I)).
      destruct (dget (h_spins h) (b_from k)) as [s1|] eqn:E1.
      2:{ right. rewrite (bind_exn _ _ _ _ _ (spin_none (mkW st' h) _ E1)). eauto. }
      rewrite (bind_val _ _ _ _ _ (spin_some (mkW st' h) _ _ E1)).
      destruct (dget (h_spins h) (b_to k)) as [s2|] eqn:E2.
      2:{ right. rewrite (bind_exn _ _ _ _ _ (spin_none (mkW st' h) _ E2)). eauto. }
      rewrite (bind_val _ _ _ _ _ (spin_some (mkW st' h) _ _ E2)).
      assert (sp (b_from k) = s1) as -> by (unfold sp; rewrite E1; reflexivity).
      assert (sp (b_to k) = s2) as -> by (unfold sp; rewrite E2; reflexivity).
      destruct (Hop st' l (s1 * s2)) as [[H1 H2]|H]; [left; auto|right; exact H]. }
  destruct L as [-> HP1].
  unfold bind at 1, gets at 1. cbn [w_ham]. unfold dkeys at 1. rewrite for_each_map. intros L.
  apply for_each_success with
    (P := fun kl => dget (h_spins h) (fst kl) = Some (sp (fst kl)) /\ okc (sp (fst kl) * sp (fst kl)))
    (u := fun kl => (snd kl, act (sp (fst kl) * sp (fst kl)))) in L.
  2:{ intros [k l] st' I. cbn [fst snd]. rewrite (bind_val _ _ _ _ _ (get_onsite_In (mkW st' h) k l Ns I)).
      destruct (dget (h_spins h) k) as [s1|] eqn:E1.
      2:{ right. rewrite (bind_exn _ _ _ _ _ (spin_none (mkW st' h) _ E1)). eauto. }
      rewrite (bind_val _ _ _ _ _ (spin_some (mkW st' h) _ _ E1)).
      assert (sp k = s1) as -> by (unfold sp; rewrite E1; reflexivity).
      destruct (Hop st' l (s1 * s1)) as [[H1 H2]|H]; [left; auto|right; exact H]. }
  destruct L as [-> HP2]. exists sp. rewrite <- apply_upds_app. splits.
  - unfold rescaled; cbn. splits; auto; [apply length_apply_upds| |]; intros k.
    + apply (bond_value_upds st h h (fun k => act (sp (b_from k) * sp (b_to k))) (fun a => act (sp a * sp a))); auto.
    + apply (onsite_value_upds st h h (fun k => act (sp (b_from k) * sp (b_to k))) (fun a => act (sp a * sp a))); auto.
  - intros k I. apply in_map_iff in I as ([k' l] & <- & I). rewrite Forall_forall in HP1. apply (HP1 _ I).
  - intros k I. apply in_map_iff in I as ([k' l] & <- & I). rewrite Forall_forall in HP2. apply (HP2 _ I).
Qed.

Lemma mdivs_mscale (m : M3 F) c : c <> 0 -> mdivs m c = mscale (1 / c) m.
Proof. intros H. destruct m; lin3; f_equal; field; exact H. Qed.

(** Length of the vectors under [spin_normalized = sn], at the level of the Hamiltonian record. *)
Definition slen (sn : bool) (h : ham) (a : atom) : option F := if sn then Some 1 else dget (h_spins h) a.

Definition sn_compatible (old new : bool) (h : ham) (ce : bkey -> F) (co : atom -> F) : Prop :=
  (forall k x y, In k (dkeys (h_exch h)) -> slen old h (b_from k) = Some x -> slen old h (b_to k) = Some y ->
     exists x' y', slen new h (b_from k) = Some x' /\ slen new h (b_to k) = Some y' /\ x * y = x' * y' * ce k) /\
  (forall a x, In a (dkeys (h_ons h)) -> slen old h a = Some x ->
     exists x', slen new h a = Some x' /\ x * x = x' * x' * co a).

Lemma sn_compatible_refl sn h : sn_compatible sn sn h (fun _ => 1) (fun _ => 1).
Proof.
  split.
  - intros k x y _ Hx Hy. exists x, y. splits; auto. ring.
  - intros a x _ Hx. exists x. splits; auto. ring.
Qed.

Lemma rescaled_ext (w w' : world) h' fe fe' fo fo' :
  (forall k, In k (bonds w) -> forall m, fe k m = fe' k m) -> (forall a, In a (sites w) -> forall m, fo a m = fo' a m) ->
  rescaled w w' h' fe fo -> rescaled w w' h' fe' fo'.
Proof.
  intros He Ho (H1 & H2 & H3 & H4). unfold rescaled. splits; auto.
  - intros k. rewrite H3. destruct (bond_value w k) eqn:E; cbn; trivial. f_equal. apply He.
    apply dget_key. unfold bond_value in E. destruct (dget _ _); eauto; discriminate.
  - intros k. rewrite H4. destruct (onsite_value w k) eqn:E; cbn; trivial. f_equal. apply Ho.
    apply dget_key. unfold onsite_value in E. destruct (dget _ _); eauto; discriminate.
Qed.

Lemma set_spin_normalized_sym (w w' : world) new :
  NoDup (bonds w) -> NoDup (sites w) -> unshared w -> set_spin_normalized new w = (w', Ret tt) ->
  exists (ce : bkey -> F) (co : atom -> F),
    rescaled w w' (with_sn (w_ham w) new) (fun k m => mscale (ce k) m) (fun a m => mscale (co a) m) /\
    (forall old, h_sn (w_ham w) = Some old -> sn_compatible old new (w_ham w) ce co) /\
    (h_sn (w_ham w) = None -> (forall k, ce k = 1) /\ (forall a, co a = 1)) /\
    (forall k, ce (mirror k) = ce k).
Proof.
  destruct w as [st h]; cbn. intros Nk Ns Nu H. unfold set_spin_normalized in H.
  assert (Hid : (ret tt ;;; put_sn new) (mkW st h) = (w', Ret tt) ->
     rescaled (mkW st h) w' (with_sn h new) (fun _ m => mscale 1 m) (fun _ m => mscale 1 m)).
  { intros [= <-]. apply rescaled_same; reflexivity. }
  assert (Hput : forall st', put_sn new (mkW st' h) = (mkW st' (with_sn h new), Ret tt)) by reflexivity.
  destruct (h_sn h) as [[]|] eqn:Esn.
  - destruct new.
    + exists (fun _ => 1), (fun _ => 1). splits; [exact (Hid H)| |discriminate|reflexivity].
      intros ? [= <-]. apply sn_compatible_refl.
    + apply bind_inv in H as (w1 & [] & L & H).
      apply (sn_loops div_loc (fun c m => mdivs m c) (fun c => c <> 0)) in L; auto using div_loc_cases.
      destruct L as (sp & Hr & Hb & Hs).
      exists (fun k => 1 / (sp (b_from k) * sp (b_to k))), (fun a => 1 / (sp a * sp a)). splits; [| |discriminate|intros k; cbn [mirror b_from b_to]; replace (sp (b_to k) * sp (b_from k)) with (sp (b_from k) * sp (b_to k)) by ring; reflexivity].
      * assert (w1 = mkW (w_store w1) h) as E1. { destruct Hr as (<- & _). destruct w1; reflexivity. }
        rewrite E1, Hput in H. injection H as <-.
        apply rescaled_ext with (fe := fun k m => mdivs m (sp (b_from k) * sp (b_to k))) (fo := fun a m => mdivs m (sp a * sp a)).
        3:{ destruct Hr as (H1 & H2 & H3 & H4). unfold rescaled. cbn. splits; auto.
            - intros k. transitivity (bond_value w1 k); [|apply H3].
              unfold bond_value; cbn. rewrite H1. reflexivity.
            - intros k. transitivity (onsite_value w1 k); [|apply H4].
              unfold onsite_value; cbn. rewrite H1. reflexivity. }
        -- intros k I m. apply mdivs_mscale. apply Hb. exact I.
        -- intros k I m. apply mdivs_mscale. apply Hs. exact I.
      * intros ? [= <-]. split.
        -- intros k x y I [= <-] [= <-]. destruct (Hb k I) as (A & B & C). unfold slen.
           exists (sp (b_from k)), (sp (b_to k)). splits; auto. field.
           split; intros E0; apply C; rewrite E0; ring.
        -- intros a x I [= <-]. destruct (Hs a I) as (A & C). unfold slen.
           exists (sp a). splits; auto. field. intros E0; apply C; rewrite E0; ring.
  - destruct new.
    + apply bind_inv in H as (w1 & [] & L & H).
      apply (sn_loops scale_loc (fun c m => mscale c m) (fun c => True)) in L; auto.
      2:{ intros st' l c. destruct (scale_loc_cases st' h l c) as [[_ X]|X]; [left; auto|right; exact X]. }
      destruct L as (sp & Hr & Hb & Hs).
      exists (fun k => sp (b_from k) * sp (b_to k)), (fun a => sp a * sp a). splits; [| |discriminate|intros k; change (sp (b_to k) * sp (b_from k) = sp (b_from k) * sp (b_to k)); ring].
      * assert (w1 = mkW (w_store w1) h) as E1. { destruct Hr as (<- & _). destruct w1; reflexivity. }
        rewrite E1, Hput in H. injection H as <-.
        destruct Hr as (H1 & H2 & H3 & H4). unfold rescaled. cbn. splits; auto.
        -- intros k. transitivity (bond_value w1 k); [|apply H3].
           unfold bond_value; cbn. rewrite H1. reflexivity.
        -- intros k. transitivity (onsite_value w1 k); [|apply H4].
           unfold onsite_value; cbn. rewrite H1. reflexivity.
      * intros ? [= <-]. split.
        -- intros k x y I Hx Hy. destruct (Hb k I) as (A & B & C). unfold slen in *.
           exists 1, 1. splits; auto. assert (x = sp (b_from k)) by congruence. assert (y = sp (b_to k)) by congruence.
           subst. ring.
        -- intros a x I Hx. destruct (Hs a I) as (A & C). unfold slen in *.
           exists 1. splits; auto. assert (x = sp a) by congruence. subst. ring.
    + exists (fun _ => 1), (fun _ => 1). splits; [exact (Hid H)| |discriminate|reflexivity].
      intros ? [= <-]. apply sn_compatible_refl.
  - exists (fun _ => 1), (fun _ => 1). splits; [|discriminate|auto|reflexivity].
    apply Hid. destruct new; exact H.
Qed.
Lemma set_spin_normalized_ok (w w' : world) new :
  NoDup (bonds w) -> NoDup (sites w) -> unshared w -> set_spin_normalized new w = (w', Ret tt) ->
  exists (ce : bkey -> F) (co : atom -> F),
    rescaled w w' (with_sn (w_ham w) new) (fun k m => mscale (ce k) m) (fun a m => mscale (co a) m) /\
    (forall old, h_sn (w_ham w) = Some old -> sn_compatible old new (w_ham w) ce co) /\
    (h_sn (w_ham w) = None -> (forall k, ce k = 1) /\ (forall a, co a = 1)).
Proof. intros A B C D. destruct (set_spin_normalized_sym w w' new A B C D) as (ce & co & X & Y & Z & _). exists ce, co. auto. Qed.

(** ** Linearity of the pair energy *)
Lemma sum_upto_ext n (g g' : Z -> F) : (forall i, g i = g' i) -> sum_upto n g = sum_upto n g'.
Proof. intros H. induction n; cbn; [reflexivity|]. rewrite IHn, H. reflexivity. Qed.
Lemma sum_upto_scale n c (g : Z -> F) : sum_upto n (fun i => c * g i) = c * sum_upto n g.
Proof. induction n; cbn; [ring|]. rewrite IHn. ring. Qed.
Lemma sum_upto_add n (g g' : Z -> F) : sum_upto n (fun i => g i + g' i) = sum_upto n g + sum_upto n g'.
Proof. induction n; cbn; [ring|]. rewrite IHn. ring. Qed.
Lemma sum_box_ext L (g g' : cell3 -> F) : (forall r, g r = g' r) -> sum_box L g = sum_box L g'.
Proof. destruct L as [[n1 n2] n3]. intros H. cbn. do 3 (apply sum_upto_ext; intro). apply H. Qed.
Lemma sum_box_scale L c (g : cell3 -> F) : sum_box L (fun r => c * g r) = c * sum_box L g.
Proof.
  destruct L as [[n1 n2] n3]. cbn. rewrite <- sum_upto_scale. apply sum_upto_ext; intros i.
  rewrite <- sum_upto_scale. apply sum_upto_ext; intros j. apply sum_upto_scale.
Qed.
Lemma sum_box_add L (g g' : cell3 -> F) : sum_box L (fun r => g r + g' r) = sum_box L g + sum_box L g'.
Proof.
  destruct L as [[n1 n2] n3]. cbn. rewrite <- sum_upto_add. apply sum_upto_ext; intros i.
  rewrite <- sum_upto_add. apply sum_upto_ext; intros j. apply sum_upto_add.
Qed.

Lemma dot_mvec_scale (u v : V3 F) c m : dot u (mvec (mscale c m) v) = c * dot u (mvec m v).
Proof. destruct u, v, m; lin3. ring. Qed.
Lemma pair_energy_scale L (s : config) k c J : pair_energy L s k (mscale c J) = c * pair_energy L s k J.
Proof. unfold pair_energy. rewrite <- sum_box_scale. apply sum_box_ext; intro. apply dot_mvec_scale. Qed.
Lemma site_energy_scale L (s : config) a c A : site_energy L s a (mscale c A) = c * site_energy L s a A.
Proof. unfold site_energy. rewrite <- sum_box_scale. apply sum_box_ext; intro. apply dot_mvec_scale. Qed.

Lemma osum_scaled {A} (t t' : A -> option F) c c' (l : list A) X :
  (forall k v, In k l -> t k = Some v -> exists v', t' k = Some v' /\ c * v = c' * v') ->
  osum (map t l) = Some X -> exists X', osum (map t' l) = Some X' /\ c * X = c' * X'.
Proof.
  revert X; induction l as [|k l IH]; intros X H; cbn.
  - intros [= <-]. exists 0. split; [reflexivity|ring].
  - destruct (t k) as [v|] eqn:E; [|discriminate]. destruct (osum (map t l)) as [Y|] eqn:EY; [|discriminate].
    intros [= <-]. destruct (H k v (or_introl eq_refl) E) as (v' & -> & Ev).
    destruct (IH Y) as (Y' & -> & EY'); auto. { intros; apply H; auto; right; auto. }
    exists (v' + Y'). split; [reflexivity|]. transitivity (c * v + c * Y); [ring|]. rewrite Ev, EY'. ring.
Qed.

(** If every bond and site term keeps its weight, the energy is the same. *)
Lemma energy_rescaled (w w' : world) sn sn' ef ef' of_ of' ce co L s E :
  h_sn (w_ham w) = Some sn -> h_ef (w_ham w) = Some ef -> h_of (w_ham w) = Some of_ ->
  rescaled w w' (mkHam (h_exch (w_ham w)) (h_ons (w_ham w)) (h_atoms (w_ham w)) (h_spins (w_ham w)) (h_dc (w_ham w))
                   (Some sn') (Some ef') (Some of')) (fun k m => mscale (ce k) m) (fun a m => mscale (co a) m) ->
  (forall k x y, In k (bonds w) -> slen sn (w_ham w) (b_from k) = Some x -> slen sn (w_ham w) (b_to k) = Some y ->
     exists x' y', slen sn' (w_ham w) (b_from k) = Some x' /\ slen sn' (w_ham w) (b_to k) = Some y' /\
                   ef * (x * y) = ef' * (x' * y' * ce k)) ->
  (forall a x, In a (sites w) -> slen sn (w_ham w) a = Some x ->
     exists x', slen sn' (w_ham w) a = Some x' /\ of_ * (x * x) = of' * (x' * x' * co a)) ->
  energy w L s = Some E -> energy w' L s = Some E.
Proof.
  intros E1 E2 E3 (Hh & _ & Hb & Ho) Hbt Hst. unfold energy. rewrite E1, E2, E3, Hh. cbn [h_sn h_ef h_of].
  destruct (osum (map (bond_term sn w L s) (bonds w))) as [X|] eqn:EX; [|discriminate].
  destruct (osum (map (site_term sn w L s) (sites w))) as [Y|] eqn:EY; [|discriminate].
  intros [= <-].
  apply osum_scaled with (t' := bond_term sn' w' L s) (c := ef) (c' := ef') in EX.
  2:{ intros k v I. unfold bond_term, spin_length, spin_of. rewrite Hh, Hb. cbn [h_spins].
      fold (slen sn (w_ham w) (b_from k)) (slen sn (w_ham w) (b_to k)) (slen sn' (w_ham w) (b_from k)) (slen sn' (w_ham w) (b_to k)).
      destruct (slen sn (w_ham w) (b_from k)) as [x|] eqn:Ex; [|discriminate].
      destruct (slen sn (w_ham w) (b_to k)) as [y|] eqn:Ey; [|discriminate].
      destruct (bond_value w k) as [J|]; [|discriminate]. intros [= <-].
      destruct (Hbt k x y I Ex Ey) as (x' & y' & -> & -> & Heq). cbn. eexists; split; [reflexivity|].
      rewrite pair_energy_scale. transitivity ((ef * (x * y)) * pair_energy L s k J); [ring|]. rewrite Heq. ring. }
  apply osum_scaled with (t' := site_term sn' w' L s) (c := of_) (c' := of') in EY.
  2:{ intros k v I. unfold site_term, spin_length, spin_of. rewrite Hh, Ho. cbn [h_spins].
      fold (slen sn (w_ham w) k) (slen sn' (w_ham w) k).
      destruct (slen sn (w_ham w) k) as [x|] eqn:Ex; [|discriminate].
      destruct (onsite_value w k) as [J|]; [|discriminate]. intros [= <-].
      destruct (Hst k x I Ex) as (x' & -> & Heq). cbn. eexists; split; [reflexivity|].
      rewrite site_energy_scale. transitivity ((of_ * (x * x)) * site_energy L s k J); [ring|]. rewrite Heq. ring. }
  destruct EX as (X' & EX & ->). destruct EY as (Y' & EY & ->).
  unfold bonds, sites in *. rewrite Hh. cbn [h_exch h_ons]. rewrite EX, EY. reflexivity.
Qed.

(** ** Energy conservation *)
Lemma set_exchange_factor_energy (w w' : world) new o L s E :
  NoDup (bonds w) -> unshared w -> h_ef (w_ham w) = Some o ->
  set_exchange_factor new w = (w', Ret tt) -> energy w L s = Some E -> energy w' L s = Some E.
Proof.
  intros Nk Nu Eo H. destruct (set_exchange_factor_ok _ _ _ Nk Nu H) as (c & Hr & Hc & _).
  intros HE. assert (HE' := HE). unfold energy in HE'.
  destruct (h_sn (w_ham w)) as [sn|] eqn:Esn; [|discriminate]. rewrite Eo in HE'.
  destruct (h_of (w_ham w)) as [of_|] eqn:Eof; [|discriminate]. clear HE'.
  eapply energy_rescaled with (ce := fun _ => c) (co := fun _ => 1); eauto.
  - unfold with_ef in Hr. rewrite Esn, Eof in Hr. exact Hr.
  - intros k x y I Hx Hy. exists x, y. splits; auto. destruct (Hc o Eo) as [Hn|<-]; [|ring].
    rewrite Hn in I; destruct I.
  - intros a x I Hx. exists x. splits; auto. ring.
Qed.

Lemma set_on_site_factor_energy (w w' : world) new o L s E :
  NoDup (sites w) -> unshared w -> h_of (w_ham w) = Some o ->
  set_on_site_factor new w = (w', Ret tt) -> energy w L s = Some E -> energy w' L s = Some E.
Proof.
  intros Nk Nu Eo H. destruct (set_on_site_factor_ok _ _ _ Nk Nu H) as (c & Hr & Hc & _).
  intros HE. assert (HE' := HE). unfold energy in HE'.
  destruct (h_sn (w_ham w)) as [sn|] eqn:Esn; [|discriminate].
  destruct (h_ef (w_ham w)) as [ef|] eqn:Eef; [|discriminate]. clear HE'.
  eapply energy_rescaled with (ce := fun _ => 1) (co := fun _ => c); eauto.
  - unfold with_of in Hr. rewrite Esn, Eef in Hr. exact Hr.
  - intros k x y I Hx Hy. exists x, y. splits; auto. ring.
  - intros a x I Hx. exists x. splits; auto. destruct (Hc o Eo) as [Hn|<-]; [|ring].
    rewrite Hn in I; destruct I.
Qed.

Lemma set_spin_normalized_energy (w w' : world) new o L s E :
  NoDup (bonds w) -> NoDup (sites w) -> unshared w -> h_sn (w_ham w) = Some o ->
  set_spin_normalized new w = (w', Ret tt) -> energy w L s = Some E -> energy w' L s = Some E.
Proof.
  intros Nk Ns Nu Eo H. destruct (set_spin_normalized_ok _ _ _ Nk Ns Nu H) as (ce & co & Hr & Hc & _).
  intros HE. assert (HE' := HE). unfold energy in HE'. rewrite Eo in HE'.
  destruct (h_ef (w_ham w)) as [ef|] eqn:Eef; [|discriminate].
  destruct (h_of (w_ham w)) as [of_|] eqn:Eof; [|discriminate]. clear HE'.
  destruct (Hc o Eo) as [Hcb Hcs].
  eapply energy_rescaled with (ce := ce) (co := co); eauto.
  - unfold with_sn in Hr. rewrite Eef, Eof in Hr. exact Hr.
  - intros k x y I Hx Hy. destruct (Hcb k x y I Hx Hy) as (x' & y' & A & B & ->). exists x', y'. auto.
  - intros a x I Hx. destruct (Hcs a x I Hx) as (x' & A & ->). exists x'. auto.
Qed.
End Setters.
