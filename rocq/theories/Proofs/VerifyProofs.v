(** What the verifier accepts is text of the documented format. *)
From Coq Require Import String Ascii List Bool ZArith Arith Lia Permutation.
From Verif.Base Require Import Scalar Linear3 PyDict PyString PyText.
From Verif.Spec Require Import TxtSpec TxtFormat.
From Verif.Model Require Import MatrixParam Hamiltonian TxtVerify TxtRead.
From Verif.Proofs Require Import DictProofs HamBasics TextBasics SectionProofs TxtReadProofs.
Import ListNotations.
Local Open Scope string_scope.

Ltac orb H := repeat match type of H with (_ || _)%bool = false => let H' := fresh H in apply orb_false_elim in H; destruct H as [H H'] end.

Lemma runs_decompose sep ls : forall cur rest, runs sep ls = (cur, rest) ->
  Forall (fun l => sep l = false) cur /\
  ((ls = cur /\ rest = []) \/ exists l ls', ls = (cur ++ l :: ls')%list /\ sep l = true /\ split_runs sep ls' = rest).
Proof.
  induction ls as [|x ls IH]; simpl; intros cur rest E.
  - inversion E; subst. split; [constructor|left; auto].
  - destruct (runs sep ls) as [c r] eqn:Er. specialize (IH c r eq_refl). destruct IH as [IH1 IH2].
    destruct (sep x) eqn:Es; inversion E; subst.
    + split; [constructor|right]. exists x, ls. split; [reflexivity|]. split; [exact Es|]. unfold split_runs. rewrite Er. reflexivity.
    + split; [constructor; assumption|]. destruct IH2 as [[-> ->]|(l & ls' & -> & Hl & Hr)]; [left; auto|right].
      exists l, ls'. auto.
Qed.

Lemma dget_dset_same {K V} `{EqDec K} (d : dict K V) k v : dget (dset d k v) k = Some v.
Proof. rewrite dget_dset. destruct (eq_dec k k); congruence. Qed.
Lemma dget_dset_other {K V} `{EqDec K} (d : dict K V) k v k' : k' <> k -> dget (dset d k v) k' = dget d k'.
Proof. intros N. rewrite dget_dset. destruct (eq_dec k' k); congruence. Qed.

Section Verify.
Context {F : Type} {SF : Scalar F}.
Variable X : externals F.
Hypothesis Hlow : forall w, x_float X (str_lower w) = x_float X w.

Lemma isfloat_lower w : isfloat X (str_lower w) = isfloat X w.
Proof. unfold isfloat. rewrite Hlow. reflexivity. Qed.

Lemma floats_numbers ws : existsb (fun w => negb (isfloat X w)) (map str_lower ws) = false ->
  exists xs, numbers X ws xs /\ List.length xs = List.length ws.
Proof.
  induction ws as [|w ws IH]; simpl; intros H; [exists []; split; [constructor|reflexivity]|].
  apply orb_false_elim in H. destruct H as [H1 H2]. destruct (IH H2) as (xs & N & L).
  rewrite isfloat_lower in H1. unfold isfloat in H1. destruct (x_float X w) as [x|] eqn:E; [|discriminate].
  exists (x :: xs). split; [constructor; assumption|simpl; congruence].
Qed.
Lemma numbers_ok ws n : verify_numbers (isfloat X) (map str_lower ws) [n] = false ->
  exists xs, numbers X ws xs /\ List.length xs = n /\ List.length ws = n.
Proof.
  unfold verify_numbers. intros H. orb H. destruct (floats_numbers ws H0) as (xs & N & L).
  exists xs. split; [exact N|]. simpl in H. rewrite map_length, orb_false_r in H.
  destruct (Nat.eqb_spec (List.length ws) n); [|discriminate]. lia.
Qed.
Ltac enum xs H := repeat (destruct xs as [|? xs]; try discriminate H).

Lemma data_block_ok l n : verify_data_block (isfloat X) [l] [[n]] = false ->
  exists xs, numbers X (py_split l) xs /\ List.length xs = n /\ List.length (py_split l) = n.
Proof.
  unfold verify_data_block. simpl. intros H. rewrite orb_false_r in H. rewrite py_split_lower in H. apply numbers_ok. exact H.
Qed.
Lemma rows_ok l1 l2 l3 : verify_data_block (isfloat X) [l1; l2; l3] [[3]; [3]; [3]]%nat = false ->
  exists a b c d e f g h i, numbers X (py_split l1) [a; b; c] /\ numbers X (py_split l2) [d; e; f] /\ numbers X (py_split l3) [g; h; i].
Proof.
  unfold verify_data_block. cbn [List.length verify_number_lines Nat.eqb negb orb]. intros H. rewrite !py_split_lower in H.
  apply orb_false_elim in H. destruct H as [H1 H]. apply orb_false_elim in H. destruct H as [H2 H]. apply orb_false_elim in H. destruct H as [H3 _].
  destruct (numbers_ok _ _ H1) as (xs & N1 & L1 & _). destruct (numbers_ok _ _ H2) as (ys & N2 & L2 & _).
  destruct (numbers_ok _ _ H3) as (zs & N3 & L3 & _).
  destruct xs as [|? [|? [|? [|]]]]; try discriminate. destruct ys as [|? [|? [|? [|]]]]; try discriminate.
  destruct zs as [|? [|? [|? [|]]]]; try discriminate. do 9 eexists. eauto.
Qed.

(** ** Bonds *)
Lemma word0_lower l k ws : py_split l = k :: ws -> word0 (py_split (str_lower l)) = str_lower k.
Proof. intros E. rewrite py_split_lower, E. reflexivity. Qed.

Lemma bond_data_tail l t e c : verify_bond_data (isfloat X) (l :: t) = (false, (e, c)) \/ (exists x, verify_bond_data (isfloat X) (l :: t) = (false, x)) ->
  exists c', verify_bond_data (isfloat X) t = (false, c').
Proof.
  intros H. assert (H' : fst (verify_bond_data (isfloat X) (l :: t)) = false) by (destruct H as [->|[x ->]]; reflexivity).
  clear H. cbn [verify_bond_data] in H'. destruct (verify_bond_data (isfloat X) t) as [b [[[? ?] ?] ?]]. cbn [fst] in H'. orb H'. subst. eauto.
Qed.

Lemma bond_data_ok n : forall lines c, (List.length lines <= n)%nat -> verify_bond_data (isfloat X) lines = (false, c) ->
  Forall clean lines -> exists ds, data_text X lines ds.
Proof.
  induction n as [|n IH]; intros lines c Hl V C.
  - destruct lines; [exists []; constructor|simpl in Hl; lia].
  - destruct lines as [|l t]; [exists []; constructor|]. simpl in Hl.
    inversion C as [|? ? [T Hn] C']; subst. destruct (clean_words l T Hn) as (k & ws & E).
    cbn [verify_bond_data] in V.
    destruct (verify_bond_data (isfloat X) t) as [e [[[cm cs] cd] ci]] eqn:Et.
    rewrite (word0_lower l k ws E) in V.
    change (starts_with "i" (str_lower k)) with (initb "i" k) in V. change (starts_with "d" (str_lower k)) with (initb "d" k) in V.
    change (starts_with "s" (str_lower k)) with (initb "s" k) in V. change (starts_with "m" (str_lower k)) with (initb "m" k) in V.
    injection V as V _. orb V. subst e.
    destruct (initb "i" k) eqn:Ei; [|destruct (initb "d" k) eqn:Ed; [|destruct (initb "s" k) eqn:Es; [|destruct (initb "m" k) eqn:Em]]].
    + destruct (IH t _ ltac:(lia) Et C') as [ds D]. cbn [andb] in V.
      unfold verify_keyword_block in V. cbn [List.length Nat.eqb negb orb] in V. rewrite py_split_lower, E in V. cbn [map tl] in V. orb V.
      match goal with Hv : verify_numbers _ _ _ = false |- _ => destruct (numbers_ok _ _ Hv) as (xs & N & L & _) end. destruct xs as [|x [|]]; try discriminate.
      inversion N as [|w ? ws' ? Hx Hr]; subst. inversion Hr; subst. exists (DIso x :: ds). eapply dt_iso; eauto. apply initb_spec. exact Ei.
    + destruct (IH t _ ltac:(lia) Et C') as [ds D]. cbn [andb] in V3.
      unfold verify_keyword_block in V3. cbn [List.length Nat.eqb negb orb] in V3. rewrite py_split_lower, E in V3. cbn [map tl] in V3. orb V3.
      match goal with Hv : verify_numbers _ _ _ = false |- _ => destruct (numbers_ok _ _ Hv) as (xs & N & L & _) end. destruct xs as [|a [|b [|d [|]]]]; try discriminate.
      exists (DDmi (mkV a b d) :: ds). eapply dt_dmi; eauto. apply initb_spec. exact Ed.
    + destruct (IH t _ ltac:(lia) Et C') as [ds D]. cbn [andb] in V2.
      unfold verify_keyword_block in V2. cbn [List.length Nat.eqb negb orb] in V2. rewrite py_split_lower, E in V2. cbn [map tl] in V2. orb V2.
      match goal with Hv : verify_numbers _ _ _ = false |- _ => destruct (numbers_ok _ _ Hv) as (xs & N & L & _) end. destruct xs as [|a [|b [|d [|a' [|b' [|]]]]]]; try discriminate.
      exists (DSymm a b d a' b' :: ds). eapply dt_symm; eauto. apply initb_spec. exact Es.
    + cbn [andb] in V1. unfold verify_keyword_block in V1.
      destruct t as [|r1 [|r2 [|r3 t]]]; cbn [firstn List.length Nat.eqb negb orb] in V1; try discriminate.
      rewrite py_split_lower, E in V1. cbn [map tl] in V1. apply orb_false_elim in V1. destruct V1 as [V1 R]. apply orb_false_elim in V1. destruct V1 as [_ V1].
      destruct (numbers_ok _ _ V1) as (xs & N & L & Lw). destruct ws; [|discriminate Lw].
      assert (R' : verify_data_block (isfloat X) [r1; r2; r3] [[3]; [3]; [3]]%nat = false) by exact R.
      destruct (rows_ok r1 r2 r3 R') as (a & b & d & a' & b' & d' & a2 & b2 & d2 & N1 & N2 & N3).
      assert (T3 : exists c', verify_bond_data (isfloat X) t = (false, c')).
      { destruct (bond_data_tail r1 (r2 :: r3 :: t) (0,0,0)%nat 0%nat) as [c1 E1]; [right; eauto|].
        destruct (bond_data_tail r2 (r3 :: t) (0,0,0)%nat 0%nat) as [c2 E2]; [right; eauto|].
        destruct (bond_data_tail r3 t (0,0,0)%nat 0%nat) as [c3 E3]; [right; eauto|]. eauto. }
      destruct T3 as [c3 E3].
      inversion C' as [|? ? _ C1]; inversion C1 as [|? ? _ C2]; inversion C2 as [|? ? _ C3]; subst.
      destruct (IH t _ ltac:(simpl in Hl; lia) E3 C3) as [ds D].
      exists (DMatrix (mkM a b d a' b' d' a2 b2 d2) :: ds). eapply dt_matrix; eauto. apply initb_spec. exact Em.
    + destruct (IH t _ ltac:(lia) Et C') as [ds D]. exists (DOther :: ds).
      apply initb_false in Ei. apply initb_false in Ed. apply initb_false in Es. apply initb_false in Em. eapply dt_other; eauto.
Qed.

Lemma mem_str_In w l : mem_str w l = true <-> In w l.
Proof. unfold mem_str. destruct (in_dec string_dec w l); split; congruence || tauto. Qed.

Lemma bond_ok allowed s : verify_bond (isfloat X) (isint X) allowed s = false -> Forall clean s ->
  exists b, bond_text X s b /\ In (bn_from b) allowed /\ In (bn_to b) allowed /\ bn_data b <> [].
Proof.
  unfold verify_bond. intros V C. destruct (verify_bond_data (isfloat X) (tl s)) as [e [[[cm cs] cd] ci]] eqn:Ed.
  apply orb_false_elim in V. destruct V as [V V5]. apply orb_false_elim in V. destruct V as [V _].
  apply orb_false_elim in V. destruct V as [V _]. apply orb_false_elim in V. destruct V as [V _]. apply orb_false_elim in V. destruct V as [V _].
  apply orb_false_elim in V. destruct V as [V Ve]. subst e.
  destruct s as [|hdr data]; [simpl in V; discriminate|]. simpl hd in V. simpl tl in Ed.
  destruct (py_split hdr) as [|n1 [|n2 [|wi [|wj [|wk [|? ?]]]]]] eqn:Eh; try discriminate.
  orb V. inversion C as [|? ? _ C']; subst.
  destruct (bond_data_ok (List.length data) data _ (le_n _) Ed C') as [ds D].
  apply negb_false_iff in V0, V1, V2. apply andb_prop in V0. destruct V0 as [I1 Ik]. apply andb_prop in I1. destruct I1 as [Ii Ij].
  unfold isint in Ii, Ij, Ik.
  destruct (x_int X wi) as [i|] eqn:Ei; [|discriminate]. destruct (x_int X wj) as [j|] eqn:Ej; [|discriminate]. destruct (x_int X wk) as [k|] eqn:Ek; [|discriminate].
  exists (mkBond n1 n2 (i, j, k) ds). split; [|split; [|split]].
  - exists hdr, data, wi, wj, wk, i, j, k. simpl. repeat split; auto.
  - apply mem_str_In. exact V2.
  - apply mem_str_In. exact V1.
  - simpl. intros ->. inversion D; subst. simpl in Ed. inversion Ed; subst. discriminate.
Qed.

Lemma exchange_of_runs n : forall lines bs, (List.length lines <= n)%nat ->
  Forall2 (bond_text X) (split_runs is_subsep lines) bs -> exchange_text X lines bs.
Proof.
  induction n as [|n IH]; intros lines bs Hl H.
  - destruct lines; [|simpl in Hl; lia]. inversion H. constructor.
  - unfold split_runs in H. destruct (runs is_subsep lines) as [cur rest] eqn:Er.
    destruct (runs_decompose _ _ _ _ Er) as [Hc [[-> ->]|(l & ls' & -> & Hsl & Hr)]].
    + destruct cur as [|c cur].
      * inversion H; subst. constructor.
      * inversion H as [|? b ? bs' Hb Hn]; subst. inversion Hn; subst. apply et_last; [exact Hb|].
        eapply Forall_impl; [|exact Hc]. intros a Ha. apply is_subsep_false. exact Ha.
    + rewrite app_length in Hl. simpl in Hl. destruct cur as [|c cur].
      * simpl. apply et_sep; [apply is_subsep_spec; exact Hsl|]. apply IH; [simpl in Hl; lia|]. rewrite Hr. exact H.
      * inversion H as [|? b ? bs' Hb Hn]; subst. apply et_cons; [exact Hb| |apply is_subsep_spec; exact Hsl|].
        -- eapply Forall_impl; [|exact Hc]. intros a Ha. apply is_subsep_false. exact Ha.
        -- apply IH; [simpl in Hl; lia|]. exact Hn.
Qed.

Lemma runs_incl sep ls : Forall (fun s => s <> [] /\ incl s ls) (split_runs sep ls).
Proof.
  assert (G : forall n ls, (List.length ls <= n)%nat -> Forall (fun s => s <> [] /\ incl s ls) (split_runs sep ls)).
  { induction n as [|n IH]; intros l Hl.
    - destruct l; [constructor|simpl in Hl; lia].
    - unfold split_runs. destruct (runs sep l) as [cur rest] eqn:Er.
      destruct (runs_decompose _ _ _ _ Er) as [_ [[-> ->]|(x & ls' & -> & _ & Hr)]].
      + destruct cur; constructor; [|constructor]. split; [discriminate|apply incl_refl].
      + rewrite app_length in Hl. simpl in Hl.
        assert (R : Forall (fun s => s <> [] /\ incl s (cur ++ x :: ls')) rest).
        { rewrite <- Hr. eapply Forall_impl; [|apply IH; lia]. intros s [Hs Hi]. split; [exact Hs|].
          intros y Hy. apply in_or_app. right. right. apply Hi. exact Hy. }
        destruct cur; [exact R|]. constructor; [|exact R]. split; [discriminate|]. apply incl_appl, incl_refl. }
  apply (G (List.length ls)). lia.
Qed.

Lemma energy_units_ok hdr : verify_section_header hdr energy_units = false ->
  (exists k, py_split hdr = [k]) \/ (exists k u, py_split hdr = [k; u] /\ (initial "m" u \/ initial "e" u \/ initial "j" u \/ initial "k" u \/ initial "r" u)).
Proof.
  unfold verify_section_header. rewrite py_split_lower. destruct (py_split hdr) as [|k [|u [|]]]; cbn [map]; try discriminate.
  - left. eauto.
  - intros H. right. exists k, u. split; [reflexivity|]. apply negb_false_iff in H. apply existsb_exists in H.
    destruct H as (p & I & H). rewrite str_lower_idem in H.
    repeat destruct I as [<-|I]; try contradiction; apply initb_spec in H; tauto.
Qed.

Lemma exchange_ok allowed hdr lines : verify_exchange (isfloat X) (isint X) allowed (hdr :: lines) = false -> Forall clean lines ->
  exists bs, exchange_text X lines bs /\ bs <> [] /\
    Forall (fun b => In (bn_from b) allowed /\ In (bn_to b) allowed /\ bn_data b <> []) bs.
Proof.
  unfold verify_exchange, exchange_blocks. cbn [hd tl]. intros V C. orb V.
  assert (E : filter nonempty (map (drop_while short_dash) (split_runs is_subsep lines)) = split_runs is_subsep lines).
  { pose proof (runs_incl is_subsep lines) as R. revert R. generalize (split_runs is_subsep lines). intros rs R.
    induction R as [|s rs [Hs Hi] _ IH]; [reflexivity|]. simpl map.
    assert (Ed : drop_while short_dash s = s).
    { destruct s as [|x s]; [congruence|]. simpl. destruct (short_dash x) eqn:Ex; [|reflexivity]. exfalso.
      assert (existsb short_dash lines = true) by (apply existsb_exists; exists x; split; [apply Hi; left; reflexivity|exact Ex]). congruence. }
    rewrite Ed. simpl. destruct s; [congruence|]. simpl. f_equal. exact IH. }
  rewrite E in *.
  assert (Cr : Forall (Forall clean) (split_runs is_subsep lines)).
  { eapply Forall_impl; [|apply runs_incl]. intros s [_ Hi]. rewrite Forall_forall in *. intros x Hx. apply C, Hi, Hx. }
  assert (G : exists bs, Forall2 (bond_text X) (split_runs is_subsep lines) bs /\ Forall (fun b => In (bn_from b) allowed /\ In (bn_to b) allowed /\ bn_data b <> []) bs).
  { clear E. revert V0 Cr. generalize (split_runs is_subsep lines). clear - Hlow. intros rs V Cr. induction Cr as [|s rs Cs _ IH].
    - exists []. split; constructor.
    - simpl in V. orb V. destruct (IH V0) as (bs & B1 & B2). destruct (bond_ok allowed s V Cs) as (b & Hb & I1 & I2 & I3).
      exists (b :: bs). split; constructor; auto. }
  destruct G as (bs & B1 & B2). exists bs. split; [apply (exchange_of_runs (List.length lines)); [lia|exact B1]|]. split; [|exact B2].
  intros ->. inversion B1 as [E0|]. rewrite <- E0 in V1. discriminate.
Qed.

(** ** On-site *)
Lemma on_site_ok allowed n : forall lines c, (List.length lines <= n)%nat ->
  verify_on_site_lines (isfloat X) allowed false lines = (false, c) -> Forall clean lines ->
  exists es, on_site_text X lines es /\ Forall (fun e => In (fst e) allowed) es.
Proof.
  induction n as [|n IH]; intros lines c Hl V C.
  - destruct lines; [exists []; split; constructor|simpl in Hl; lia].
  - destruct lines as [|l t]; [exists []; split; constructor|]. simpl in Hl. cbn [verify_on_site_lines] in V.
    destruct (short_dash l); [discriminate|]. inversion C as [|? ? [T Hn] C']; subst.
    destruct (is_subsep l) eqn:Es.
    + destruct (IH t c ltac:(lia) V C') as (es & E1 & E2). exists es. split; [|exact E2]. apply os_sep; [apply is_subsep_spec; exact Es|exact E1].
    + destruct t as [|l' t]; cbn [verify_on_site_lines] in V.
      * rewrite orb_true_r in V. discriminate.
      * destruct (verify_on_site_lines (isfloat X) allowed false t) as [e m] eqn:Et. injection V as V _.
        apply orb_false_elim in V. destruct V as [V Vd]. apply orb_false_elim in Vd. destruct Vd as [Vd ->].
        apply orb_false_elim in V. destruct V as [V Va]. apply orb_false_elim in V. destruct V as [V _].
        destruct (data_block_ok l' 6 Vd) as (xs & N & L & _).
        destruct xs as [|a [|b [|d [|a' [|b' [|d' [|]]]]]]]; try discriminate.
        destruct (py_split l) as [|n0 [|]] eqn:El; try discriminate. simpl word0 in *.
        inversion C' as [|? ? _ C2]; subst. destruct (IH t m ltac:(simpl in Hl; lia) Et C2) as (es & E1 & E2).
        exists ((n0, mkM a a' b' a' b d' b' d' d) :: es). split.
        -- apply os_entry; auto. apply is_subsep_false. exact Es.
        -- constructor; [|exact E2]. apply mem_str_In. apply negb_false_iff. exact Va.
Qed.

(** ** Notation *)
Definition letter (l : string) : option ascii := char0 (str_lower (hd "" (py_split l))).
Lemma find_ok lines : forall found0 e0 found, find_properties lines found0 e0 = (found, false) ->
  e0 = false /\ (forall c v, dget found0 c = Some v -> dget found c = Some v) /\
  Forall (fun l => exists k v c, py_split l = [k; v] /\ char0 (str_lower k) = Some c /\ dget found c = Some (str_lower v) /\ dget found0 c = None) lines /\
  NoDup (map letter lines) /\
  (forall c v, dget found c = Some v -> dget found0 c = Some v \/ exists l k u, In l lines /\ py_split l = [k; u] /\ char0 (str_lower k) = Some c /\ v = str_lower u).
Proof.
  induction lines as [|l lines IH]; intros found0 e0 found H; cbn [find_properties] in H.
  - inversion H; subst. split; [reflexivity|]. split; [auto|]. split; [constructor|]. split; [constructor|]. auto.
  - rewrite py_split_lower in H. destruct (py_split l) as [|k [|v [|]]] eqn:E; cbn [map] in H;
      try (destruct (IH _ _ _ H) as [H' _]; discriminate H').
    destruct (char0 (str_lower k)) as [c|] eqn:Ec; [|destruct (IH _ _ _ H) as [H' _]; discriminate H'].
    unfold dmem in H. destruct (dget found0 c) as [v0|] eqn:Ef; [destruct (IH _ _ _ H) as [H' _]; discriminate H'|].
    destruct (IH _ _ _ H) as (-> & Hm & Hf & Hnd & Hb). split; [reflexivity|].
    assert (Hc : dget found c = Some (str_lower v)) by (apply Hm, dget_dset_same).
    assert (Hm' : forall c0 v0, dget found0 c0 = Some v0 -> dget found c0 = Some v0).
    { intros c0 v0 H0. apply Hm. rewrite dget_dset_other; [exact H0|]. congruence. }
    assert (Hl : letter l = Some c) by (unfold letter; rewrite E; exact Ec).
    split; [exact Hm'|]. split; [|split].
    + constructor; [exists k, v, c; auto|]. eapply Forall_impl; [|exact Hf].
      intros l' (k' & v' & c' & E1 & E2 & E3 & E4). exists k', v', c'. repeat split; auto.
      destruct (ascii_dec c' c) as [->|Hn]; [exact Ef|]. rewrite dget_dset_other in E4; auto.
    + simpl. constructor; [|exact Hnd]. rewrite Hl. intros I. apply in_map_iff in I. destruct I as (l' & El' & Il').
      rewrite Forall_forall in Hf. destruct (Hf l' Il') as (k' & v' & c' & E1 & E2 & E3 & E4).
      unfold letter in El'. rewrite E1 in El'. simpl in El'. rewrite E2 in El'. inversion El'; subst.
      rewrite dget_dset_same in E4. discriminate.
    + intros c0 v0 H0. destruct (Hb c0 v0 H0) as [H1|(l' & k' & u & I & E1 & E2 & E3)].
      * destruct (ascii_dec c0 c) as [->|Hn].
        -- rewrite dget_dset_same in H1. right. exists l, k, v. split; [left; reflexivity|]. repeat split; auto. congruence.
        -- rewrite dget_dset_other in H1 by auto. left. exact H1.
      * right. exists l', k', u. split; [right; exact I|]. auto.
Qed.

Lemma char0_initial c k : char0 (str_lower k) = Some c <-> initial c k.
Proof.
  unfold initial, char0. destruct (str_lower k) as [|a s]; split; intros H; try discriminate.
  - destruct H; discriminate.
  - inversion H; subst; eauto.
  - destruct H as [w H]. inversion H. reflexivity.
Qed.
Lemma is_bool_says v : is_bool v = true <-> exists b, says v b.
Proof.
  unfold is_bool, says. rewrite mem_str_In. unfold true_keywords, false_keywords. rewrite in_app_iff. split.
  - intros [H|H]; [exists true|exists false]; exact H.
  - intros [[|] H]; [left|right]; exact H.
Qed.
Lemma says_lower v b : says (str_lower v) b <-> says v b.
Proof. unfold says. rewrite str_lower_idem. tauto. Qed.

Lemma notation_ok ex os dc sn hdr lines : verify_notation (isfloat X) ex os dc sn (hdr :: lines) = false ->
  exists ps, Forall2 (property_text X) lines ps /\ NoDup (map letter lines)
    /\ (dc = true -> exists b, In (PDouble b) ps) /\ (sn = true -> exists b, In (PSpin b) ps)
    /\ (ex = true -> exists x, In (PExchange x) ps) /\ (os = true -> exists x, In (POnSite x) ps).
Proof.
  unfold verify_notation. cbn [hd tl]. destruct (find_properties lines [] false) as [found e3] eqn:Ef. intros V.
  apply orb_false_elim in V. destruct V as [V Vo]. apply orb_false_elim in V. destruct V as [V Ve].
  apply orb_false_elim in V. destruct V as [V Vs]. apply orb_false_elim in V. destruct V as [V Vd].
  apply orb_false_elim in V. destruct V as [V ->].
  destruct (find_ok lines [] false found Ef) as (_ & _ & Hf & Hnd & Hb).
  assert (B : forall c e check v, verify_property found c e check = false -> dget found c = Some v -> check v = true).
  { intros c e check v H E. unfold verify_property in H. rewrite E in H. apply negb_false_iff in H. exact H. }
  assert (Q : forall c e check, verify_property found c e check = false -> e = true ->
     exists l k u, In l lines /\ py_split l = [k; u] /\ initial c k /\ check (str_lower u) = true).
  { intros c e check H ->. unfold verify_property in H. destruct (dget found c) as [v|] eqn:E; [|discriminate].
    destruct (Hb c v E) as [H1|(l & k & u & I & E1 & E2 & ->)]; [discriminate|]. exists l, k, u. split; [exact I|]. split; [exact E1|].
    split; [apply char0_initial; exact E2|]. apply negb_false_iff in H. exact H. }
  assert (P : forall l, In l lines -> exists p, property_text X l p).
  { intros l I. rewrite Forall_forall in Hf. destruct (Hf l I) as (k & v & c & E1 & E2 & E3 & _).
    destruct (ascii_dec c "s") as [->|N1].
    { pose proof (B _ _ _ _ Vs E3) as H. apply is_bool_says in H. destruct H as [b H]. exists (PSpin b).
      eapply pt_spin; eauto; [apply char0_initial; exact E2|apply says_lower; exact H]. }
    destruct (ascii_dec c "d") as [->|N2].
    { pose proof (B _ _ _ _ Vd E3) as H. apply is_bool_says in H. destruct H as [b H]. exists (PDouble b).
      eapply pt_double; eauto; [apply char0_initial; exact E2|apply says_lower; exact H]. }
    destruct (ascii_dec c "e") as [->|N3].
    { pose proof (B _ _ _ _ Ve E3) as H. rewrite isfloat_lower in H. unfold isfloat in H. destruct (x_float X v) as [x|] eqn:Ex; [|discriminate].
      exists (PExchange x). eapply pt_exchange; eauto. apply char0_initial; exact E2. }
    destruct (ascii_dec c "o") as [->|N4].
    { pose proof (B _ _ _ _ Vo E3) as H. rewrite isfloat_lower in H. unfold isfloat in H. destruct (x_float X v) as [x|] eqn:Ex; [|discriminate].
      exists (POnSite x). eapply pt_on_site; eauto. apply char0_initial; exact E2. }
    exists POther. apply char0_initial in E2. eapply pt_other; eauto; intros Hi; pose proof (initial_fun _ _ _ E2 Hi); congruence. }
  assert (G : exists ps, Forall2 (property_text X) lines ps).
  { clear - P. induction lines as [|l lines IH]; [exists []; constructor|].
    destruct (P l (or_introl eq_refl)) as [p Hp]. destruct IH as [ps Hps]; [intros x Hx; apply P; right; exact Hx|].
    exists (p :: ps). constructor; assumption. }
  destruct G as [ps Hps]. exists ps. split; [exact Hps|]. split; [exact Hnd|].
  assert (W : forall l, In l lines -> exists p, In p ps /\ property_text X l p).
  { clear - Hps. induction Hps as [|l0 p0 ls ps Hp _ IH]; intros l0' I; [contradiction|].
    destruct I as [->|I]; [exists p0; split; [left; reflexivity|exact Hp]|]. destruct (IH l0' I) as (p & Ip & Hp'). exists p. split; [right; exact Ip|exact Hp']. }
  split; [|split; [|split]]; intros E.
  - destruct (Q _ _ _ Vd E) as (l & k & u & I & E1 & E2 & _). destruct (W l I) as (p & Ip & Hp).
    inversion Hp; subst; rewrite E1 in H; inversion H; subst; try (eexists; exact Ip); exfalso;
      first [match goal with Hx : initial _ _ |- _ => pose proof (initial_fun _ _ _ E2 Hx); discriminate end|contradiction].
  - destruct (Q _ _ _ Vs E) as (l & k & u & I & E1 & E2 & _). destruct (W l I) as (p & Ip & Hp).
    inversion Hp; subst; rewrite E1 in H; inversion H; subst; try (eexists; exact Ip); exfalso;
      first [match goal with Hx : initial _ _ |- _ => pose proof (initial_fun _ _ _ E2 Hx); discriminate end|contradiction].
  - destruct (Q _ _ _ Ve E) as (l & k & u & I & E1 & E2 & _). destruct (W l I) as (p & Ip & Hp).
    inversion Hp; subst; rewrite E1 in H; inversion H; subst; try (eexists; exact Ip); exfalso;
      first [match goal with Hx : initial _ _ |- _ => pose proof (initial_fun _ _ _ E2 Hx); discriminate end|contradiction].
  - destruct (Q _ _ _ Vo E) as (l & k & u & I & E1 & E2 & _). destruct (W l I) as (p & Ip & Hp).
    inversion Hp; subst; rewrite E1 in H; inversion H; subst; try (eexists; exact Ip); exfalso;
      first [match goal with Hx : initial _ _ |- _ => pose proof (initial_fun _ _ _ E2 Hx); discriminate end|contradiction].
Qed.

End Verify.
