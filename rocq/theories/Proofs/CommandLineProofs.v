(** The parsers pass what the command line asks for. *)
From Coq Require Import String Ascii List Bool Arith Lia.
From Verif.Base Require Import PyString PyText PyText2 PyDict.
From Verif.Model Require Import Hamiltonian TxtVerify CommandLine.
From Verif.Spec Require Import CommandLineSpec.
From Verif.Proofs Require Import DictProofs.
Import ListNotations.
Local Open Scope string_scope.

Section Proofs.
Context {F : Type}.
Variable to_float : string -> option F.
Notation cline := (list (string * list string)).

Definition kind_of (t : takes) : expects :=
  match t with Flag => Nothing | One None => Word | One (Some l) => WordOf l | Any None => Words | Any (Some l) => WordsOf l | Floats n => Numbers n end.
Definition agree (o : @opt F) (f : @offer F) : Prop :=
  o_short o = short f /\ o_long o = long f /\ dest o = parameter f /\ kind_of (o_takes o) = kind f /\
  (if o_required o then otherwise f = None else otherwise f = Some (o_default o)).

Lemma floats_spec ws xs : floats to_float ws = Some xs <-> Forall2 (fun s x => to_float s = Some x) ws xs.
Proof.
  revert xs. induction ws as [|s t IH]; intros xs; cbn.
  - split; [intros E; injection E as <-; constructor|intros H; inversion H; reflexivity].
  - destruct (to_float s) as [x|] eqn:E; [|split; [discriminate|intros H; inversion H; congruence]].
    destruct (floats to_float t) as [r|] eqn:E2.
    + split; [intros X; injection X as <-; constructor; [assumption|apply IH; reflexivity]|].
      intros H; inversion H as [|? y ? ys A B]; subst. apply IH in B. congruence.
    + split; [discriminate|]. intros H; inversion H as [|? y ? ys A B]; subst. apply IH in B. discriminate.
Qed.
Lemma mem_str_In s l : mem_str s l = true <-> In s l.
Proof. unfold mem_str. destruct (in_dec string_dec s l); split; intros; auto; discriminate. Qed.

Lemma value_of_means (o : @opt F) args v : value_of to_float o args = Some v <-> means to_float (kind_of (o_takes o)) args v.
Proof.
  unfold value_of, kind_of. destruct (o_takes o) as [|[l|]|[l|]|n].
  - destruct args; split; intros H; try discriminate; inversion H; constructor.
  - destruct args as [|s [|]]; [split; [discriminate|intros H; inversion H] | |split; [discriminate|intros H; inversion H]].
    cbn. destruct (mem_str s l) eqn:E.
    + split; intros H; [injection H as <-; constructor; apply mem_str_In, E|inversion H; reflexivity].
    + split; [discriminate|]. intros H; inversion H; subst. match goal with X : In _ _ |- _ => apply mem_str_In in X; congruence end.
  - destruct args as [|s [|]]; [split; [discriminate|intros H; inversion H] | |split; [discriminate|intros H; inversion H]].
    cbn. split; intros H; [injection H as <-; constructor|inversion H; reflexivity].
  - destruct (forallb (chosen (Some l)) args) eqn:E.
    + split; intros H; [injection H as <-; constructor|inversion H; reflexivity].
      intros s I. rewrite forallb_forall in E. apply mem_str_In, (E s I).
    + split; [discriminate|]. intros H; inversion H; subst. exfalso. assert (X : forallb (chosen (Some l)) args = true).
      { apply forallb_forall. intros s I. apply mem_str_In. auto. } congruence.
  - assert (E : forallb (chosen None) args = true) by (apply forallb_forall; reflexivity). rewrite E.
    split; intros H; [injection H as <-; constructor|inversion H; reflexivity].
  - destruct (Nat.eqb_spec (List.length args) n) as [<-|N].
    + destruct (floats to_float args) as [xs|] eqn:E.
      * split; intros H; [injection H as <-; constructor; apply floats_spec, E|]. inversion H as [| | | | |? ys B]; subst. apply floats_spec in B. congruence.
      * split; [discriminate|]. intros H; inversion H as [| | | | |? ys B]; subst. apply floats_spec in B. congruence.
    + split; [discriminate|]. intros H; inversion H; subst. congruence.
Qed.

Lemma called_names (o : @opt F) f n : agree o f -> (called o n = true <-> names f n).
Proof.
  intros (E1 & E2 & _). unfold called, names. rewrite E1, E2. destruct (string_dec n (short f)); [tauto|]. destruct (string_dec n (long f)); [tauto|].
  split; [discriminate|tauto].
Qed.

(** The words after the last mention. *)
Fixpoint last_args (o : @opt F) (cl : cline) : option (list string) :=
  match cl with
  | [] => None
  | (n, args) :: t => match last_args o t with Some a => Some a | None => if called o n then Some args else None end
  end.
Lemma last_none (o : @opt F) f cl : agree o f -> (last_args o cl = None <-> ~ mentioned f cl).
Proof.
  intros A. induction cl as [|[n args] t IH]; cbn.
  - split; [intros _ (n & a & [] & _)|reflexivity].
  - destruct (last_args o t) as [a|] eqn:E.
    + split; [discriminate|]. intros H. assert (X : ~ mentioned f t) by (intros (m & b & I & Nm); apply H; exists m, b; split; [right|]; assumption). apply IH in X. discriminate.
    + destruct (called o n) eqn:Cn.
      * split; [discriminate|]. intros H. exfalso. apply H. exists n, args. split; [left; reflexivity|apply (called_names o f); assumption].
      * split; [intros _|reflexivity]. intros (m & b & [X|I] & Nm).
        -- injection X as -> ->. apply (called_names o f) in Nm; [congruence|assumption].
        -- apply (proj1 IH eq_refl). exists m, b. auto.
Qed.
Lemma last_some (o : @opt F) f cl args : agree o f -> (last_args o cl = Some args <-> last_mention f cl args).
Proof.
  intros A. revert args. induction cl as [|[n a] t IH]; intros args; cbn.
  - split; [discriminate|]. intros (pre & m & post & E & _). destruct pre; discriminate.
  - destruct (last_args o t) as [b|] eqn:E.
    + split.
      * intros X; injection X as <-. destruct (proj1 (IH b) eq_refl) as (pre & m & post & -> & N1 & N2). exists ((n, a) :: pre), m, post. auto.
      * intros (pre & m & post & Eq & N1 & N2). destruct pre as [|y pre].
        -- injection Eq as -> -> ->. exfalso. assert (X : ~ mentioned f post) by (intros (m' & b' & I & Nm); exact (N2 _ _ I Nm)). apply (last_none o f) in X; [congruence|assumption].
        -- injection Eq as <- ->. apply IH. exists pre, m, post. auto.
    + destruct (called o n) eqn:Cn.
      * split.
        -- intros X; injection X as <-. exists [], n, t. split; [reflexivity|]. split; [apply (called_names o f); assumption|].
           intros m b I Nm. apply (proj1 (last_none o f t A) E). exists m, b. auto.
        -- intros (pre & m & post & Eq & N1 & N2). destruct pre as [|y pre]; [injection Eq as -> -> ->; reflexivity|].
           injection Eq as <- ->. exfalso. apply (proj1 (last_none o f _ A) E). exists m, args. split; [apply in_app_iff; right; left; reflexivity|assumption].
      * split; [discriminate|]. intros (pre & m & post & Eq & N1 & N2). destruct pre as [|y pre].
        -- injection Eq as -> -> ->. apply (called_names o f) in N1; [congruence|assumption].
        -- injection Eq as <- ->. exfalso. apply (proj1 (last_none o f _ A) E). exists m, args. split; [apply in_app_iff; right; left; reflexivity|assumption].
Qed.

Section Table.
Variables (opts : list (@opt F)) (offers : list (@offer F)).
Hypothesis Ag : Forall2 agree opts offers.
Hypothesis Nd : NoDup (map dest opts).
Hypothesis Un : forall o o' n, In o opts -> In o' opts -> called o n = true -> called o' n = true -> o = o'.

Lemma dest_inj o o' : In o opts -> In o' opts -> dest o = dest o' -> o = o'.
Proof.
  clear Un Ag. revert Nd. induction opts as [|x l IH]; intros N I I' E; [destruct I|]. inversion N as [|? ? N1 N2]; subst.
  destruct I as [->|I], I' as [->|I']; auto; exfalso; apply N1; [rewrite E|rewrite <- E]; apply in_map; assumption.
Qed.
Lemma find_called n o : In o opts -> called o n = true -> find (fun o => called o n) opts = Some o.
Proof.
  intros I Cn. destruct (find (fun o => called o n) opts) as [o'|] eqn:E.
  - apply find_some in E as [I' C']. f_equal. eapply Un; eauto.
  - exfalso. assert (X := find_none _ _ E o I). cbn in X. congruence.
Qed.

Lemma given_spec cl ns ns' : given to_float opts cl ns = Some ns' -> (forall o, In o opts -> In (dest o) (dkeys ns)) ->
  dkeys ns' = dkeys ns /\
  (forall o, In o opts -> match last_args o cl with Some a => exists v, value_of to_float o a = Some v /\ dget ns' (dest o) = Some v | None => dget ns' (dest o) = dget ns (dest o) end) /\
  (forall n args, In (n, args) cl -> exists o v, In o opts /\ called o n = true /\ value_of to_float o args = Some v).
Proof.
  revert ns. induction cl as [|[n args] t IH]; intros ns H K.
  - cbn in H. injection H as <-. split; [reflexivity|]. split; [reflexivity|intros ? ? []].
  - cbn [given] in H. destruct (find _ opts) as [o|] eqn:Ef; [|discriminate]. destruct (value_of to_float o args) as [v|] eqn:Ev; [|discriminate].
    assert (Fo := find_some _ _ Ef). cbn in Fo. destruct Fo as [Io Co].
    assert (Ks : dkeys (dset ns (dest o) v) = dkeys ns).
    { rewrite dkeys_dset. rewrite (proj2 (dmem_key ns (dest o)) (K o Io)). reflexivity. }
    destruct (IH _ H) as (I1 & I2 & I3). { rewrite Ks. exact K. }
    split; [congruence|]. split.
    + intros o' Io'. specialize (I2 o' Io'). cbn [last_args]. destruct (last_args o' t) as [a|] eqn:El; [exact I2|].
      rewrite dget_dset in I2. destruct (called o' n) eqn:Co'.
      * assert (o' = o) by (eapply Un; eauto). subst o'. exists v. split; [assumption|]. rewrite I2. destruct (eq_dec (dest o) (dest o)); [reflexivity|congruence].
      * rewrite I2. destruct (eq_dec (dest o') (dest o)) as [E|]; [|reflexivity]. apply dest_inj in E; [congruence|assumption|assumption].
    + intros n' args' [X|X]; [|exact (I3 _ _ X)]. injection X as <- <-. exists o, v. auto.
Qed.
Lemma given_some cl ns : (forall n args, In (n, args) cl -> exists o v, In o opts /\ called o n = true /\ value_of to_float o args = Some v) ->
  exists ns', given to_float opts cl ns = Some ns'.
Proof.
  revert ns. induction cl as [|[n args] t IH]; intros ns H; [eexists; reflexivity|].
  destruct (H n args (or_introl eq_refl)) as (o & v & Io & Co & Ev). cbn [given]. rewrite (find_called n o Io Co), Ev. apply IH. intros; apply H; right; assumption.
Qed.

Lemma agree_In f : In f offers -> exists o, In o opts /\ agree o f.
Proof. clear Nd Un. induction Ag as [|x y l l' A B IH]; intros I; [destruct I|]. destruct I as [->|I]; [exists x; split; [left; reflexivity|assumption]|]. destruct (IH B I) as (o & X & Y). exists o. split; [right|]; assumption. Qed.
Lemma agree_In' o : In o opts -> exists f, In f offers /\ agree o f.
Proof. clear Nd Un. induction Ag as [|x y l l' A B IH]; intros I; [destruct I|]. destruct I as [->|I]; [exists y; split; [left; reflexivity|assumption]|]. destruct (IH B I) as (f & X & Y). exists f. split; [right|]; assumption. Qed.

Lemma required_spec cl : forallb (fun o : @opt F => if o_required o then existsb (fun x => called o (fst x)) cl else true) opts = true <->
  forall f, In f offers -> otherwise f = None -> mentioned f cl.
Proof.
  rewrite forallb_forall. split.
  - intros H f If Ef. destruct (agree_In f If) as (o & Io & A). specialize (H o Io). assert (A' := A). destruct A as (_ & _ & _ & _ & A5).
    destruct (o_required o); [|congruence]. apply existsb_exists in H as ([n args] & I & Cn). exists n, args. split; [assumption|].
    apply (called_names o f); [exact A'|exact Cn].
  - intros H o Io. destruct (o_required o) eqn:Er; [|reflexivity]. destruct (agree_In' o Io) as (f & If & A).
    assert (A' := A). destruct A as (_ & _ & _ & _ & A5). rewrite Er in A5. destruct (H f If A5) as (n & args & I & Nm).
    apply existsb_exists. exists (n, args). split; [assumption|]. apply (called_names o f); assumption.
Qed.

Lemma defaults_keys : dkeys (defaults opts) = map dest opts.
Proof. clear. unfold defaults, dkeys. rewrite map_map. reflexivity. Qed.
Lemma defaults_get o : In o opts -> dget (defaults opts) (dest o) = Some (o_default o).
Proof. intros I. apply In_dget; [rewrite defaults_keys; exact Nd|]. unfold defaults. apply in_map_iff. exists o. auto. Qed.

Lemma parse_spec cl ns : parse_args to_float opts cl = Some ns -> correct to_float offers cl /\ dkeys ns = map dest opts /\
  forall o, In o opts -> exists v, dget ns (dest o) = Some v /\ match last_args o cl with Some a => value_of to_float o a = Some v | None => v = o_default o end.
Proof.
  unfold parse_args. destruct (forallb _ opts) eqn:R; [|discriminate]. intros G. assert (R' := proj1 (required_spec cl) R). clear R. rename R' into R.
  destruct (given_spec cl _ ns G) as (K & V & Ok). { intros o I. rewrite defaults_keys. apply in_map, I. }
  split; [split; [|exact R]|split].
  - intros n args I. destruct (Ok n args I) as (o & v & Io & Co & Ev). destruct (agree_In' o Io) as (f & If & A). exists f, v. split; [assumption|].
    split; [apply (called_names o f); assumption|]. apply value_of_means in Ev. destruct A as (_ & _ & _ & <- & _). exact Ev.
  - rewrite K. apply defaults_keys.
  - intros o Io. specialize (V o Io). destruct (last_args o cl) as [a|].
    + destruct V as (v & V1 & V2). exists v. auto.
    + exists (o_default o). rewrite V, defaults_get by assumption. auto.
Qed.
Lemma parse_correct cl : correct to_float offers cl -> exists ns, parse_args to_float opts cl = Some ns.
Proof.
  intros [C1 C2]. unfold parse_args. rewrite (proj2 (required_spec cl) C2). apply given_some. intros n args I.
  destruct (C1 n args I) as (f & v & If & Nm & Mv). destruct (agree_In f If) as (o & Io & A). exists o, v. split; [assumption|].
  split; [apply (called_names o f); assumption|]. apply value_of_means. destruct A as (_ & _ & _ & -> & _). exact Mv.
Qed.

(** ** The call *)
Lemma call_spec (sig : @signature F) kw (get : string -> option value) l : (forall p, dget kw p = get p) -> (forall x, In x kw -> In (fst x) (dkeys sig)) ->
  Forall2 (fun p v => match get (fst p), snd p with Some v', _ | None, Some v' => v = v' | None, None => False end) sig l -> call sig kw = Ret l.
Proof.
  intros G K H. unfold call. replace (forallb _ kw) with true.
  2:{ symmetry. apply forallb_forall. intros x I. apply dmem_key, K, I. }
  clear K. induction H as [|p v s l X Y IH]; [reflexivity|]. cbn [fold_right]. rewrite IH, G. destruct (get (fst p)), (snd p); subst; try reflexivity. destruct X.
Qed.
Variable sig : @signature F.
Hypothesis Sg : map fst sig = map dest opts.

Lemma keys_sig (ns : @namespace F) : dkeys ns = map dest opts -> forall x, In x ns -> In (fst x) (dkeys sig).
Proof. intros K x I. unfold dkeys in *. rewrite Sg, <- K. apply in_map, I. Qed.
Lemma Forall2_map_l {A B C} (f : A -> B) (P : B -> C -> Prop) l l' : Forall2 P (map f l) l' <-> Forall2 (fun a c => P (f a) c) l l'.
Proof.
  revert l'. induction l as [|a l IH]; intros l'; cbn; split; intros H; inversion H; subst; constructor; auto; apply IH; assumption.
Qed.
Lemma Forall2_weaken {A B} (P Q : A -> B -> Prop) l l' : (forall a b, In a l -> P a b -> Q a b) -> Forall2 P l l' -> Forall2 Q l l'.
Proof. intros H X. induction X as [|a b l l' Y Z IH]; constructor; [apply H; [left; reflexivity|assumption]|apply IH; intros; apply H; [right|]; assumption]. Qed.
(** The parameters that [manager] receives. *)
Lemma received cl : correct to_float offers cl -> exists ns l, parse_args to_float opts cl = Some ns /\ call sig ns = Ret l /\ Forall2 (fun f v => asked to_float f cl v) offers l.
Proof.
  intros Hc. destruct (parse_correct cl Hc) as (ns & E). destruct (parse_spec cl ns E) as (_ & K & V).
  assert (X : exists l, Forall2 (fun o v => dget ns (dest o) = Some v) opts l).
  { clear - V. induction opts as [|o t IH]; [exists []; constructor|]. destruct IH as (l & H). { intros o' I. apply V. right. assumption. }
    destruct (V o (or_introl eq_refl)) as (v & Ev & _). exists (v :: l). constructor; assumption. }
  destruct X as (l & X). exists ns, l. split; [exact E|]. split.
  - apply (call_spec sig ns (dget ns)); [reflexivity|apply keys_sig, K|].
    assert (Y : Forall2 (fun p v => dget ns p = Some v) (map fst sig) l) by (rewrite Sg; apply Forall2_map_l; exact X).
    rewrite Forall2_map_l in Y. clear - Y. induction Y as [|p v s l A B IH]; constructor; [|assumption]. rewrite A. reflexivity.
  - clear - X V Ag Hc. assert (R := proj2 Hc). clear Hc. revert l X V R. induction Ag as [|o f t t' A B IH]; intros l X V R; inversion X as [|? v ? l' X1 X2]; subst; constructor.
    + destruct (V o (or_introl eq_refl)) as (v' & E1 & E2). assert (v' = v) by congruence. subst v'. unfold asked. destruct (last_args o cl) as [a|] eqn:El.
      * left. exists a. split; [apply (last_some o f); assumption|]. apply value_of_means in E2. destruct A as (_ & _ & _ & <- & _). exact E2.
      * right. assert (Nm := proj1 (last_none o f cl A) El). split; [exact Nm|]. assert (A' := A). destruct A as (_ & _ & _ & _ & A5).
        destruct (o_required o); [|congruence]. exfalso. apply Nm, R; [left; reflexivity|assumption].
    + apply IH; [assumption|assumption|intros; apply V; right; assumption|intros; apply R; [right|]; assumption].
Qed.
Lemma refused cl : ~ correct to_float offers cl -> parse_args to_float opts cl = None.
Proof. intros N. destruct (parse_args to_float opts cl) as [ns|] eqn:E; [|reflexivity]. exfalso. apply N. apply (parse_spec cl ns E). Qed.

(** The same parameters as in a call from Python, where the two have the same defaults. *)
Lemma same_call cl kw ns : parse_args to_float opts cl = Some ns -> keywords to_float offers cl kw ->
  (forall o, In o opts -> last_args o cl = None -> dget sig (dest o) = Some (Some (o_default o))) -> call sig kw = call sig ns.
Proof.
  intros E (K1 & K2) Df. destruct (parse_spec cl ns E) as (Hc & K & V). destruct (received cl Hc) as (ns' & l & E' & Hl & _). assert (ns' = ns) by congruence. subst ns'. rewrite Hl.
  assert (Nds : NoDup (map fst sig)) by (rewrite Sg; exact Nd).
  assert (Got : forall o v, In o opts -> last_args o cl <> None -> (In (dest o, v) kw <-> dget ns (dest o) = Some v)).
  { intros o v Io Hn. destruct (last_args o cl) as [a|] eqn:El; [|congruence]. destruct (V o Io) as (v' & E1 & E2). rewrite El in E2.
    destruct (agree_In' o Io) as (f & If & A). rewrite K2. split.
    - intros (f' & args & If' & Ep & Lm & Mv). destruct (agree_In f' If') as (o' & Io' & A'). assert (o' = o).
      { apply dest_inj; try assumption. destruct A' as (_ & _ & -> & _). exact Ep. } subst o'.
      apply (last_some o f' _ _ A') in Lm. assert (args = a) by congruence. subst args. assert (A4 := A'). destruct A4 as (_ & _ & _ & A4 & _). rewrite <- A4 in Mv. apply value_of_means in Mv. congruence.
    - intros Ev. assert (v' = v) by congruence. subst v'. exists f, a. split; [assumption|]. split; [destruct A as (_ & _ & <- & _); reflexivity|].
      split; [apply (last_some o f); assumption|]. apply value_of_means in E2. destruct A as (_ & _ & _ & <- & _). exact E2. }
  assert (Not : forall o v, In o opts -> last_args o cl = None -> ~ In (dest o, v) kw).
  { intros o v Io Hn I. apply K2 in I as (f' & args & If' & Ep & Lm & _). destruct (agree_In f' If') as (o' & Io' & A'). assert (o' = o).
    { apply dest_inj; try assumption. destruct A' as (_ & _ & -> & _). exact Ep. } subst o'. apply (last_some o f' _ _ A') in Lm. congruence. }
  apply (call_spec sig kw (dget kw)); [reflexivity| |].
  - intros [p v] I. cbn [fst]. apply K2 in I as (f & args & If & <- & _). destruct (agree_In f If) as (o & Io & A). unfold dkeys. rewrite Sg. destruct A as (_ & _ & <- & _). apply in_map, Io.
  - assert (X : Forall2 (fun o v => dget ns (dest o) = Some v) opts l).
    { assert (Y : Forall2 (fun p v => dget ns (fst p) = Some v) sig l).
      { revert Hl. unfold call. destruct (forallb _ ns); [|discriminate]. assert (Z : forall p, In p sig -> exists v, dget ns (fst p) = Some v).
        { intros p I. apply dget_key. rewrite K, <- Sg. apply in_map, I. } clear - Z. revert l. induction sig as [|p s IH]; intros l H; [cbn in H; injection H as <-; constructor|].
        cbn [fold_right] in H. destruct (fold_right _ _ s) as [l0|]; [|discriminate]. destruct (Z p (or_introl eq_refl)) as (v & Ev). rewrite Ev in H. injection H as <-.
        constructor; [assumption|]. apply IH; [intros; apply Z; right; assumption|reflexivity]. }
      apply (Forall2_map_l dest (fun p v => dget ns p = Some v)). rewrite <- Sg. apply Forall2_map_l. exact Y. }
    assert (Y : Forall2 (fun p v => match dget kw p, (match dget sig p with Some d => d | None => None end) with Some v', _ | None, Some v' => v = v' | None, None => False end) (map dest opts) l).
    { apply Forall2_map_l. revert X. apply Forall2_weaken. intros o v Io A. destruct (last_args o cl) as [a|] eqn:El.
      - assert (I : In (dest o, v) kw) by (apply Got; [assumption|congruence|assumption]). rewrite (In_dget kw _ v K1 I). reflexivity.
      - assert (N : dget kw (dest o) = None).
        { apply dget_None. intros I. apply in_map_iff in I as ([p w] & Ep & I). cbn in Ep. subst p. exact (Not o w Io El I). }
        rewrite N, (Df o Io El). destruct (V o Io) as (v' & E1 & E2). rewrite El in E2. congruence. }
    rewrite <- Sg in Y. apply Forall2_map_l in Y. revert Y. apply Forall2_weaken. intros [p d] v I A. cbn [fst snd] in *. rewrite (In_dget sig p d Nds I) in A. exact A.
Qed.
End Table.
End Proofs.
