(** The real numbers of the standard library as a real closed field of the Mathematical Components library, so that their
    complex numbers are a [numClosedFieldType].  Uses the description operator of Coq.Logic.Epsilon. *)
From Coq Require Import Reals Epsilon Lra.
From mathcomp Require Import all_ssreflect all_algebra.
Set Implicit Arguments.
Unset Strict Implicit.
Unset Printing Implicit Defensive.
Import GRing.Theory Num.Theory Order.TTheory.
Local Open Scope R_scope.

Definition eqr (r1 r2 : R) : bool := if Req_EM_T r1 r2 is left _ then true else false.
Lemma eqrP : Equality.axiom eqr.
Proof. by move=> r1 r2; rewrite /eqr; case: Req_EM_T => H; constructor. Qed.
Canonical R_eqMixin := EqMixin eqrP.
Canonical R_eqType := Eval hnf in EqType R R_eqMixin.

Definition pickR (P : pred R) (n : nat) : option R := let x := epsilon (inhabits 0) (fun x => P x) in if P x then Some x else None.
Fact pickR_some P n x : pickR P n = Some x -> P x.
Proof. by rewrite /pickR; case E: (P _) => // -[<-]. Qed.
Fact pickR_ex (P : pred R) : (exists x : R, P x) -> exists n, pickR P n.
Proof. rewrite /pickR => H. have X := @epsilon_spec R (inhabits 0) (fun x => P x) H. exists 0%nat. by rewrite X. Qed.
Fact pickR_ext (P Q : pred R) : P =1 Q -> pickR P =1 pickR Q.
Proof.
  move=> H n. rewrite /pickR. have -> : (fun x => P x : Prop) = (fun x => Q x : Prop).
    apply: FunctionalExtensionality.functional_extensionality => x. by rewrite H.
  by rewrite H.
Qed.
Definition R_choiceMixin : choiceMixin R := Choice.Mixin pickR_some pickR_ex pickR_ext.
Canonical R_choiceType := Eval hnf in ChoiceType R R_choiceMixin.

Fact RplusA : associative Rplus. Proof. by move=> x y z; rewrite Rplus_assoc. Qed.
Definition R_zmodMixin := ZmodMixin RplusA Rplus_comm Rplus_0_l Rplus_opp_l.
Canonical R_zmodType := Eval hnf in ZmodType R R_zmodMixin.
Fact RmultA : associative Rmult. Proof. by move=> x y z; rewrite Rmult_assoc. Qed.
Fact R1_neq_0' : R1 != R0. Proof. by apply/eqP/R1_neq_R0. Qed.
Definition R_ringMixin := RingMixin RmultA Rmult_1_l Rmult_1_r Rmult_plus_distr_r Rmult_plus_distr_l R1_neq_0'.
Canonical R_ringType := Eval hnf in RingType R R_ringMixin.
Canonical R_comRingType := Eval hnf in ComRingType R Rmult_comm.

Definition Rinvx (r : R) : R := if r != 0 then / r else r.
Definition unit_R (r : R) : bool := r != 0.
Lemma RmultRinvx : {in unit_R, left_inverse 1 Rinvx Rmult}.
Proof. move=> r; rewrite -topredE /unit_R /Rinvx => /= H. rewrite H. apply: Rinv_l. by apply/eqP. Qed.
Lemma RinvxRmult : {in unit_R, right_inverse 1 Rinvx Rmult}.
Proof. move=> r H. rewrite Rmult_comm. exact: RmultRinvx. Qed.
Lemma intro_unit_R x y : y * x = 1 /\ x * y = 1 -> unit_R x.
Proof. move=> [H _]. apply/eqP => X. move: H; rewrite X Rmult_0_r => /esym. exact: R1_neq_R0. Qed.
Lemma Rinvx_out : {in predC unit_R, Rinvx =1 id}.
Proof. by move=> x; rewrite inE /= /Rinvx -if_neg => ->. Qed.
Definition R_unitRingMixin := UnitRingMixin RmultRinvx RinvxRmult intro_unit_R Rinvx_out.
Canonical R_unitRingType := Eval hnf in UnitRingType R R_unitRingMixin.
Canonical R_comUnitRingType := Eval hnf in [comUnitRingType of R].
Lemma R_idomainMixin x y : x * y = 0 -> (x == 0) || (y == 0).
Proof. by move=> /Rmult_integral [->|->]; rewrite eqxx // orbT. Qed.
Canonical R_idomainType := Eval hnf in IdomainType R R_idomainMixin.
Lemma R_fieldMixin : GRing.Field.mixin_of [unitRingType of R]. Proof. by []. Qed.
Canonical R_fieldType := Eval hnf in FieldType R R_fieldMixin.

Definition Rleb (x y : R) : bool := if Rle_dec x y is left _ then true else false.
Lemma RlebP x y : reflect (x <= y) (Rleb x y).
Proof. by rewrite /Rleb; case: Rle_dec => H; constructor. Qed.
Definition Rltb (x y : R) : bool := if Rlt_dec x y is left _ then true else false.
Lemma RltbP x y : reflect (x < y) (Rltb x y).
Proof. by rewrite /Rltb; case: Rlt_dec => H; constructor. Qed.
Fact Rleb_norm_add x y : Rleb (Rabs (x + y)) (Rabs x + Rabs y).
Proof. by apply/RlebP/Rabs_triang. Qed.
Fact addr_Rgtb0 x y : Rltb 0 x -> Rltb 0 y -> Rltb 0 (x + y).
Proof. by move=> /RltbP H /RltbP H'; apply/RltbP/Rplus_lt_0_compat. Qed.
Fact Rnorm0_eq0 x : Rabs x = 0 -> x = 0.
Proof. move=> H. case: (Req_dec x 0) => // /Rabs_no_R0. by rewrite H. Qed.
Fact Rleb_leVge x y : Rleb 0 x -> Rleb 0 y -> (Rleb x y) || (Rleb y x).
Proof. move=> _ _. case: (Rle_dec x y) => H; first by move/RlebP: H => ->. apply/orP; right. apply/RlebP. lra. Qed.
Fact RnormM : {morph Rabs : x y / x * y}. Proof. exact: Rabs_mult. Qed.
Fact Rleb_def x y : Rleb x y = (Rabs (y - x) == y - x).
Proof.
  apply/RlebP/eqP => H.
  - apply: Rabs_pos_eq. lra.
  - have := Rabs_pos (y - x). rewrite H. lra.
Qed.
Fact Rltb_def x y : Rltb x y = (y != x) && Rleb x y.
Proof.
  apply/RltbP/andP => [H|[/eqP H /RlebP H']].
  - split; [apply/eqP|apply/RlebP]; lra.
  - lra.
Qed.
Definition R_numMixin := NumMixin Rleb_norm_add addr_Rgtb0 Rnorm0_eq0 Rleb_leVge RnormM Rleb_def Rltb_def.
Canonical R_porderType := Eval hnf in POrderType ring_display R R_numMixin.
Canonical R_numDomainType := Eval hnf in NumDomainType R R_numMixin.
Canonical R_normedZmodType := Eval hnf in NormedZmodType R R R_numMixin.
Lemma R_total : totalPOrderMixin [porderType of R].
Proof. move=> x y. case: (Rle_dec x y) => H; first by move/RlebP: H => H; apply/orP; left. apply/orP; right. apply/RlebP. lra. Qed.
Canonical R_latticeType := Eval hnf in LatticeType R R_total.
Canonical R_distrLatticeType := Eval hnf in DistrLatticeType R R_total.
Canonical R_orderType := Eval hnf in OrderType R R_total.
Canonical R_numFieldType := Eval hnf in [numFieldType of R].
Canonical R_realDomainType := Eval hnf in [realDomainType of R].
Canonical R_realFieldType := Eval hnf in [realFieldType of R].

Lemma continuity_horner (p : {poly R}) : continuity (fun x => horner p x).
Proof.
  elim/poly_ind: p => [|p c IH].
  - have -> : (fun x => horner (0%R : {poly R}) x) = fct_cte 0 by apply: FunctionalExtensionality.functional_extensionality => x; rewrite horner0.
    by apply: continuity_const.
  - have -> : (fun x => horner (p * 'X + c%:P)%R x) = plus_fct (mult_fct (fun x => horner p x) id) (fct_cte c).
      by apply: FunctionalExtensionality.functional_extensionality => x; rewrite hornerMXaddC.
    apply: continuity_plus; last by apply: continuity_const.
    apply: continuity_mult => //. exact: derivable_continuous derivable_id.
Qed.
Lemma Rreal_closed_axiom : Num.real_closed_axiom [numDomainType of R].
Proof.
  move=> p a b /RlebP Hab /andP [/RlebP Ha /RlebP Hb].
  have [|z [[H1 H2] H3]] := @IVT_cor _ a b (continuity_horner p) Hab.
  - change (horner p a <= 0) in Ha. change (0 <= horner p b) in Hb.
    change (Rmult (horner p a) (horner p b) <= 0). move: Ha Hb. generalize (horner p a : R), (horner p b : R) => x y Ha Hb. nra.
  - exists z; last by apply/eqP.
    apply/andP; split; by apply/RlebP.
Qed.
Canonical R_rcfType := Eval hnf in RcfType R Rreal_closed_axiom.
