(** The three scripts and the command magnopy. *)
From Coq Require Import String Ascii List Bool Arith Lia.
From Verif.Base Require Import PyString PyText PyText2 PyDict.
From Verif.Model Require Import Hamiltonian TxtVerify CommandLine.
From Verif.Spec Require Import CommandLineSpec.
From Verif.Proofs Require Import DictProofs CommandLineProofs.
Import ListNotations.
Local Open Scope string_scope.

Ltac table := repeat (constructor; [unfold agree; repeat split; reflexivity|]); constructor.
Ltac nodup := vm_compute; repeat (constructor; [cbn; intuition discriminate|]); constructor.
Lemma called_or {F} (o : @opt F) n : called o n = true -> n = o_short o \/ n = o_long o.
Proof. unfold called. destruct (string_dec n (o_short o)); [auto|]. destruct (string_dec n (o_long o)); [auto|discriminate]. Qed.
(** All names of a table are different. *)
Lemma unique_names {F} (opts : list (@opt F)) : NoDup (flat_map (fun o => [o_short o; o_long o]) opts) ->
  forall o o' n, In o opts -> In o' opts -> called o n = true -> called o' n = true -> o = o'.
Proof.
  intros Nd o o' n I I' Cn Cn'. apply called_or in Cn. apply called_or in Cn'.
  assert (X : forall o : @opt F, (n = o_short o \/ n = o_long o) -> In n [o_short o; o_long o]) by (intros y [E|E]; rewrite E; cbn; auto).
  apply X in Cn. apply X in Cn'. clear X. revert I I'. induction opts as [|x l IH]; [intros []|]. cbn [flat_map] in Nd.
  assert (Later : forall y, In y l -> In n [o_short y; o_long y] -> In n (flat_map (fun o => [o_short o; o_long o]) l)) by (intros y J K; apply in_flat_map; eauto).
  assert (Dis : In n [o_short x; o_long x] -> ~ In n (flat_map (fun o => [o_short o; o_long o]) l)).
  { intros A B. cbn [app] in Nd. inversion Nd as [|? ? N1 N2]; subst. inversion N2 as [|? ? N3 N4]; subst. destruct A as [<-|[<-|[]]]; [apply N1; right; exact B|exact (N3 B)]. }
  assert (Nd' : NoDup (flat_map (fun o => [o_short o; o_long o]) l)) by (inversion Nd as [|? ? N1 N2]; inversion N2; assumption).
  intros [->|I] [->|I']; auto; exfalso; eapply Dis; eauto.
Qed.

Section Scripts.
Context {F A : Type}.
Variable to_float : string -> option F.
Variables (run : list (@value F) -> A) (failed : exn -> A).
Notation script := (script to_float).

Lemma convert_agree : Forall2 agree (@convert_options F) convert_offers. Proof. table. Qed.
Lemma dispersion_agree : Forall2 agree (@dispersion_options F) dispersion_offers. Proof. table. Qed.
Lemma minimize_agree : Forall2 agree (@minimize_options F) minimize_offers. Proof. table. Qed.

Lemma script_spec opts offers sig : Forall2 agree opts offers -> NoDup (map dest opts) -> NoDup (flat_map (fun o => [o_short o; o_long o]) opts) -> map fst sig = map dest opts ->
  forall cl, (correct to_float offers cl -> exists l, Forall2 (fun o v => asked to_float o cl v) offers l /\ script opts sig run failed cl = Some (run l)) /\
  (~ correct to_float offers cl -> script opts sig run failed cl = None).
Proof.
  intros Ag Nd Un Sg cl. assert (Un' := unique_names opts Un). split.
  - intros Hc. destruct (received to_float opts offers Ag Nd Un' sig Sg cl Hc) as (ns & l & E & El & X). exists l. split; [exact X|]. unfold CommandLine.script. rewrite E, El. reflexivity.
  - intros Hn. unfold CommandLine.script. rewrite (refused to_float opts offers Ag Nd Un' cl Hn). reflexivity.
Qed.
Lemma script_call opts offers sig : Forall2 agree opts offers -> NoDup (map dest opts) -> NoDup (flat_map (fun o => [o_short o; o_long o]) opts) -> map fst sig = map dest opts ->
  forall cl kw, correct to_float offers cl -> keywords to_float offers cl kw ->
  (forall o, In o opts -> last_args o cl = None -> dget sig (dest o) = Some (Some (o_default o))) ->
  script opts sig run failed cl = Some (match call sig kw with Ret l => run l | Raise e => failed e end).
Proof.
  intros Ag Nd Un Sg cl kw Hc Hk Hd. assert (Un' := unique_names opts Un). destruct (parse_correct to_float opts offers Ag Un' cl Hc) as (ns & E).
  unfold CommandLine.script. rewrite E. rewrite (same_call to_float opts offers Ag Nd Un' sig Sg cl kw ns E Hk Hd). reflexivity.
Qed.

Lemma convert_spec : forall cl, (correct to_float convert_offers cl -> exists l, Forall2 (fun o v => asked to_float o cl v) convert_offers l /\ script convert_options convert_signature run failed cl = Some (run l)) /\
  (~ correct to_float convert_offers cl -> script convert_options convert_signature run failed cl = None).
Proof. apply script_spec; [exact convert_agree|nodup|nodup|reflexivity]. Qed.
Lemma dispersion_spec : forall cl, (correct to_float dispersion_offers cl -> exists l, Forall2 (fun o v => asked to_float o cl v) dispersion_offers l /\ script dispersion_options dispersion_signature run failed cl = Some (run l)) /\
  (~ correct to_float dispersion_offers cl -> script dispersion_options dispersion_signature run failed cl = None).
Proof. apply script_spec; [exact dispersion_agree|nodup|nodup|reflexivity]. Qed.
Lemma minimize_spec : forall cl, (correct to_float minimize_offers cl -> exists l, Forall2 (fun o v => asked to_float o cl v) minimize_offers l /\ script minimize_options minimize_signature run failed cl = Some (run l)) /\
  (~ correct to_float minimize_offers cl -> script minimize_options minimize_signature run failed cl = None).
Proof. apply script_spec; [exact minimize_agree|nodup|nodup|reflexivity]. Qed.

Lemma missing opts offers cl o f : Forall2 agree opts offers -> agree o f -> In f offers -> otherwise f = None -> correct to_float offers cl -> @last_args F o cl = None -> False.
Proof. intros _ Af If Ef [_ C] El. apply (proj1 (last_none to_float o f cl Af) El), C; assumption. Qed.
Lemma convert_call : forall cl kw, correct to_float convert_offers cl -> keywords to_float convert_offers cl kw ->
  script convert_options convert_signature run failed cl = Some (match call convert_signature kw with Ret l => run l | Raise e => failed e end).
Proof.
  intros cl kw Hc Hk. apply (script_call convert_options convert_offers); try assumption; [exact convert_agree|nodup|nodup|reflexivity|].
  intros o I El. destruct I as [<-|I].
  - exfalso. eapply (missing convert_options convert_offers cl _ (mkOffer "-if" "--input-filename" "input_filename" Word None)); [exact convert_agree| |left; reflexivity|reflexivity|assumption|exact El]. unfold agree; repeat split; reflexivity.
  - repeat (destruct I as [<-|I]; [reflexivity|]). destruct I.
Qed.
Lemma dispersion_call : forall cl kw, correct to_float dispersion_offers cl -> keywords to_float dispersion_offers cl kw ->
  script dispersion_options dispersion_signature run failed cl = Some (match call dispersion_signature kw with Ret l => run l | Raise e => failed e end).
Proof.
  intros cl kw Hc Hk. apply (script_call dispersion_options dispersion_offers); try assumption; [exact dispersion_agree|nodup|nodup|reflexivity|].
  intros o I El. destruct I as [<-|I].
  - exfalso. eapply (missing dispersion_options dispersion_offers cl _ (mkOffer "-sh" "--spinham" "spinham" Word None)); [exact dispersion_agree| |left; reflexivity|reflexivity|assumption|exact El]. unfold agree; repeat split; reflexivity.
  - repeat (destruct I as [<-|I]; [reflexivity|]). destruct I.
Qed.
Lemma minimize_call : forall cl kw n args, In (n, args) cl -> n = "-gst" \/ n = "--ground-state-type" -> correct to_float minimize_offers cl -> keywords to_float minimize_offers cl kw ->
  script minimize_options minimize_signature run failed cl = Some (match call minimize_signature kw with Ret l => run l | Raise e => failed e end).
Proof.
  intros cl kw n args In_ Hn Hc Hk. apply (script_call minimize_options minimize_offers); try assumption; [exact minimize_agree|nodup|nodup|reflexivity|].
  intros o I El. destruct I as [<-|I].
  { exfalso. eapply (missing minimize_options minimize_offers cl _ (mkOffer "-sh" "--spinham" "spinham" Word None)); [exact minimize_agree| |left; reflexivity|reflexivity|assumption|exact El]. unfold agree; repeat split; reflexivity. }
  destruct I as [<-|I]; [reflexivity|]. destruct I as [<-|I].
  { exfalso. set (f := @mkOffer F "-gst" "--ground-state-type" "ground_state_type" (WordsOf ["all"; "ferro"; "antiferro"; "spiral"]) (Some (VStr "all"))).
    refine (proj1 (last_none to_float _ f cl _) El _); [unfold agree; repeat split; reflexivity|]. exists n, args. split; [assumption|exact Hn]. }
  repeat (destruct I as [<-|I]; [reflexivity|]). destruct I.
Qed.
End Scripts.

Lemma mention_only {F} (o : @offer F) n args : names o n -> last_mention o [(n, args)] args.
Proof. intros H. exists [], n, []. split; [reflexivity|]. split; [exact H|intros ? ? []]. Qed.

Lemma minimize_call_refuted : exists (to_float : string -> option nat) cl kw, correct to_float minimize_offers cl /\ keywords to_float minimize_offers cl kw /\
  script to_float minimize_options minimize_signature selection_of (fun e => Raise e) cl = Some (Ret ["ferro"; "antiferro"; "spiral"]) /\
  (match call minimize_signature kw with Ret l => selection_of l | Raise e => Raise e end) = Raise TypeError.
Proof.
  exists (fun _ => None), [("-sh", ["a.txt"])], [("spinham", VStr "a.txt")].
  assert (O : forall o, In o (@minimize_offers nat) -> names o "-sh" -> o = mkOffer "-sh" "--spinham" "spinham" Word None).
  { intros o I N. repeat (destruct I as [<-|I]; [destruct N as [N|N]; cbn in N; try discriminate; reflexivity|]). destruct I. }
  split; [|split; [|split; reflexivity]].
  - split.
    + intros n args [E|[]]. injection E as <- <-. exists (mkOffer "-sh" "--spinham" "spinham" Word None), (VStr "a.txt"). split; [left; reflexivity|]. split; [left; reflexivity|constructor].
    + intros o I E. repeat (destruct I as [<-|I]; [try discriminate|]); [|destruct I]. exists "-sh", ["a.txt"]. split; [left; reflexivity|left; reflexivity].
  - split; [cbn; constructor; [intros []|constructor]|]. intros p v. split.
    + intros [E|[]]. injection E as <- <-. exists (mkOffer "-sh" "--spinham" "spinham" Word None), ["a.txt"]. split; [left; reflexivity|]. split; [reflexivity|].
      split; [apply mention_only; left; reflexivity|constructor].
    + intros (o & args & I & <- & (pre & n & post & E & Nm & _) & M). destruct pre as [|y [|]]; [|discriminate|discriminate].
      injection E as <- <- <-. rewrite (O o I Nm) in *. cbn in M. inversion M; subst. left. reflexivity.
Qed.

Lemma selection_list {F} l : (In "all" l -> selection (@VList F l) = Ret ["ferro"; "antiferro"; "spiral"]) /\ (~ In "all" l -> selection (@VList F l) = Ret l).
Proof. unfold selection, mem_str. destruct (in_dec string_dec "all" l); split; intros; tauto || reflexivity. Qed.
Lemma letters_single s x : In x (letters s) -> exists c, x = String c EmptyString.
Proof. induction s as [|c t IH]; cbn; [intros []|]. intros [<-|I]; [exists c; reflexivity|auto]. Qed.
Lemma selection_word {F} s sel : has_sub "all" s = false -> selection (@VStr F s) = Ret sel -> ~ In "ferro" sel /\ ~ In "antiferro" sel /\ ~ In "spiral" sel.
Proof. cbn. intros ->. intros E; injection E as <-. repeat split; intros I; apply letters_single in I as (c & E); discriminate. Qed.

Section Manager.
Context {F H E : Type}.
Variables (logo : string) (load : string -> @value F -> files -> out H) (make_energy : H -> out E) (set_field : E -> @value F -> out E)
  (minimize : H -> E -> string -> list string -> string * option exn).
Let manager := minimize_manager logo load make_energy set_field minimize.

Lemma no_type fs spinham fmt field seedname : exists e, manager fs [VStr spinham; fmt; VNone; field; VStr seedname] = (put fs (seedname ++ "-results") (logo ++ String "010" EmptyString), Some e).
Proof.
  unfold manager, minimize_manager. destruct (load spinham fmt _); [|eexists; reflexivity]. destruct (make_energy _); [|eexists; reflexivity].
  destruct (match field with VNone => _ | _ => _ end); eexists; reflexivity.
Qed.
Lemma load_fails fs spinham fmt gst field seedname e : load spinham fmt (put fs (seedname ++ "-results") (logo ++ String "010" EmptyString)) = Raise e ->
  manager fs [VStr spinham; fmt; gst; field; VStr seedname] = (put fs (seedname ++ "-results") (logo ++ String "010" EmptyString), Some e).
Proof. intros L. unfold manager, minimize_manager. rewrite L. reflexivity. Qed.
Lemma put_other fs a c n : n <> a -> put fs a c n = fs n.
Proof. unfold put. destruct (string_dec n a); congruence. Qed.
Lemma elsewhere fs args n : (forall spinham fmt gst field seedname, args = [VStr spinham; fmt; gst; field; VStr seedname] -> n <> seedname ++ "-results") ->
  fst (manager fs args) n = fs n.
Proof.
  intros N. unfold manager, minimize_manager. destruct args as [|[| |spinham| |] [|fmt [|gst [|field [|[| |seedname| |] [|? ?]]]]]]; try reflexivity.
  specialize (N _ _ _ _ _ eq_refl). destruct (load spinham fmt _) as [h|]; [|apply put_other, N]. destruct (make_energy h) as [en|]; [|apply put_other, N].
  destruct (match field with VNone => Ret en | v => set_field en v end) as [en'|]; [|apply put_other, N]. destruct (selection gst) as [sel|]; [|apply put_other, N].
  destruct (minimize h en' seedname sel) as [text x]. cbn [fst]. rewrite !put_other by assumption. reflexivity.
Qed.
Lemma runs fs spinham fmt gst field seedname h en en' sel : load spinham fmt (put fs (seedname ++ "-results") (logo ++ String "010" EmptyString)) = Ret h -> make_energy h = Ret en ->
  (field = VNone /\ en' = en \/ field <> VNone /\ set_field en field = Ret en') -> selection gst = Ret sel ->
  fst (manager fs [VStr spinham; fmt; gst; field; VStr seedname]) (seedname ++ "-results") = Some (logo ++ String "010" EmptyString ++ fst (minimize h en' seedname sel)) /\
  snd (manager fs [VStr spinham; fmt; gst; field; VStr seedname]) = snd (minimize h en' seedname sel).
Proof.
  intros L M Fi Se. unfold manager, minimize_manager. rewrite L, M.
  assert (X : match field with VNone => Ret en | v => set_field en v end = Ret en') by (destruct Fi as [[-> ->]|[N E1]]; [reflexivity|destruct field; congruence]).
  rewrite X, Se. destruct (minimize h en' seedname sel) as [text x]. cbn [fst snd]. split; [|reflexivity]. unfold put. destruct (string_dec _ _); [|congruence].
  f_equal. clear. induction logo as [|c l IH]; [reflexivity|]. cbn. f_equal. exact IH.
Qed.
End Manager.
Lemma results_refuted : exists (load : string -> @value nat -> files -> out nat) fs, let run := minimize_manager "logo" load (fun h => Ret h) (fun e _ => Ret e) (fun _ _ _ _ => ("", None)) fs
    [VStr "a.txt"; VNone; VStr "all"; VNone; VStr "minim"] in
  snd run = Some ValueError /\ fs "minim-results" = Some "results of the last run" /\ fst run "minim-results" <> fs "minim-results".
Proof. exists (fun _ _ _ => Raise ValueError), (fun _ => Some "results of the last run"). cbn. split; [reflexivity|]. split; [reflexivity|discriminate]. Qed.

Lemma main_spec : forall command version git_commit,
  (forall c, command = Some c -> ~ In c ["logo"; "warranty"; "conditions"; "version"] -> main_prints command version git_commit = None) /\
  main_prints (Some "logo") version git_commit = Some PLogo /\ main_prints (Some "warranty") version git_commit = Some PWarranty /\
  main_prints (Some "conditions") version git_commit = Some PConditions /\ main_prints (Some "version") version git_commit = Some PVersion /\
  main_prints None true git_commit = Some PVersion /\ main_prints None false true = Some PCommit /\ main_prints None false false = Some PHelp.
Proof.
  intros command version git_commit. split; [|repeat split; destruct version; reflexivity].
  intros c -> N. unfold main_prints, mem_str. destruct (in_dec string_dec c main_choices); [tauto|reflexivity].
Qed.

Definition ex_line : list (string * list string) := [("--output-seedname", ["one"]); ("-sh", ["a.txt"]); ("-os", ["two"]); ("-mf", ["0"; "0"; "5"]); ("-gst", ["spiral"; "ferro"])].
Definition ex_float (s : string) : option nat := if string_dec s "5" then Some 5 else if string_dec s "0" then Some 0 else None.
Lemma line_case : correct ex_float minimize_offers ex_line /\
  keywords ex_float minimize_offers ex_line [("spinham", VStr "a.txt"); ("ground_state_type", VList ["spiral"; "ferro"]); ("magnetic_field", VFloats [0; 0; 5]); ("output_seedname", VStr "two")] /\
  script ex_float minimize_options minimize_signature (fun l => Ret l) (fun e => Raise e) ex_line =
    Some (Ret [VStr "a.txt"; VNone; VList ["spiral"; "ferro"]; VFloats [0; 0; 5]; VStr "two"]).
Proof.
  assert (X : correct ex_float minimize_offers ex_line).
  { split.
    - intros n args I. unfold ex_line in I. cbn [In] in I.
      destruct I as [E|[E|[E|[E|[E|[]]]]]]; injection E as <- <-.
      + eexists (mkOffer "-os" "--output-seedname" "output_seedname" Word (Some (VStr "minim"))), _. split; [cbn; tauto|]. split; [right; reflexivity|constructor].
      + eexists (mkOffer "-sh" "--spinham" "spinham" Word None), _. split; [cbn; tauto|]. split; [left; reflexivity|constructor].
      + eexists (mkOffer "-os" "--output-seedname" "output_seedname" Word (Some (VStr "minim"))), _. split; [cbn; tauto|]. split; [left; reflexivity|constructor].
      + exists (mkOffer "-mf" "--magnetic_field" "magnetic_field" (Numbers 3) (Some VNone)), (VFloats [0; 0; 5]). split; [cbn; tauto|]. split; [left; reflexivity|].
        change 3 with (List.length ["0"; "0"; "5"]). constructor. repeat constructor.
      + eexists (mkOffer "-gst" "--ground-state-type" "ground_state_type" (WordsOf ["all"; "ferro"; "antiferro"; "spiral"]) (Some (VStr "all"))), _. split; [cbn; tauto|]. split; [left; reflexivity|].
        constructor. cbn. intros s [<-|[<-|[]]]; tauto.
    - intros o I E. repeat (destruct I as [<-|I]; [try discriminate|]); [|destruct I]. exists "-sh", ["a.txt"]. split; [cbn; tauto|left; reflexivity]. }
  split; [exact X|]. split; [|reflexivity].
  split; [cbn; repeat (constructor; [cbn; intuition discriminate|]); constructor|].
  assert (L : forall o args, Forall2 agree (@minimize_options nat) minimize_offers -> In o (@minimize_offers nat) -> (last_mention o ex_line args <->
     match short o with "-sh" => args = ["a.txt"] | "-gst" => args = ["spiral"; "ferro"] | "-mf" => args = ["0"; "0"; "5"] | "-os" => args = ["two"] | _ => False end)).
  { intros o args Ag I. destruct (agree_In _ _ Ag o I) as (p & Ip & A). rewrite <- (last_some ex_float p o ex_line args A).
    destruct A as (<- & _). repeat (destruct Ip as [<-|Ip]; [vm_compute; split; intros Q; first [congruence|contradiction]|]). destruct Ip. }
  intros p v. split.
  - intros I. cbn [In] in I. destruct I as [E|[E|[E|[E|[]]]]]; injection E as <- <-.
    + eexists (mkOffer "-sh" "--spinham" "spinham" Word None), _. split; [cbn; tauto|]. split; [reflexivity|]. split; [apply L; [exact minimize_agree|cbn; tauto|reflexivity]|constructor].
    + eexists (mkOffer "-gst" "--ground-state-type" "ground_state_type" (WordsOf ["all"; "ferro"; "antiferro"; "spiral"]) (Some (VStr "all"))), _. split; [cbn; tauto|]. split; [reflexivity|]. split; [apply L; [exact minimize_agree|cbn; tauto|reflexivity]|].
      constructor. cbn. intros s [<-|[<-|[]]]; tauto.
    + exists (mkOffer "-mf" "--magnetic_field" "magnetic_field" (Numbers 3) (Some VNone)), ["0"; "0"; "5"]. split; [cbn; tauto|]. split; [reflexivity|]. split; [apply L; [exact minimize_agree|cbn; tauto|reflexivity]|].
      change 3 with (List.length ["0"; "0"; "5"]). constructor. repeat constructor.
    + eexists (mkOffer "-os" "--output-seedname" "output_seedname" Word (Some (VStr "minim"))), _. split; [cbn; tauto|]. split; [reflexivity|]. split; [apply L; [exact minimize_agree|cbn; tauto|reflexivity]|constructor].
  - intros (o & args & I & <- & Lm & M). apply L in Lm; [|exact minimize_agree|exact I].
    destruct I as [<-|[<-|[<-|[<-|[<-|[]]]]]]; cbn in Lm, M |- *; try contradiction; subst args; inversion M; subst; try tauto.
    match goal with X : Forall2 _ _ _ |- _ => inversion X as [|? ? ? ? A1 X2]; subst; inversion X2 as [|? ? ? ? A2 X3]; subst; inversion X3 as [|? ? ? ? A3 X4]; subst; inversion X4; subst end.
    cbn in A1, A2, A3. injection A1 as <-. injection A2 as <-. injection A3 as <-. tauto.
Qed.
