(** A printer of rational numbers that the reader of [TextWitness] understands: the trusted properties hold of it. *)
From Coq Require Import String Ascii List Bool ZArith NArith QArith Qcanon Qabs Qround Lia Lqa DecimalString DecimalZ.
From Coq Require Import Ring Field.
From Verif.Base Require Import Scalar Linear3 QcLit PyDict PyString PyText.
From Verif.Spec Require Import TxtSpec TxtFormat Hdf5Spec TxtDumpSpec.
From Verif.Model Require Import MatrixParam Hamiltonian TxtVerify TxtRead Hdf5 TxtDump.
From Verif.Proofs Require Import HamWitness TextBasics TextWitness TextSane DumpText DumpWords.
Import ListNotations.
Local Open Scope string_scope.

(** ** Reading: decimal numbers and fractions *)
Fixpoint cut (s : string) : option (string * string) :=
  match s with
  | EmptyString => None
  | String c t => if Ascii.eqb c "/" then Some ("", t) else match cut t with Some (a, b) => Some (String c a, b) | None => None end
  end.
Definition int_of (s : string) : option Z := option_map Z.of_int (NilZero.int_of_string s).
Definition fraction (s : string) : option Qc :=
  match cut (str_lower s) with
  | Some (a, b) => match int_of a, int_of b with Some n, Some (Zpos d) => Some (Q2Qc (n # d)) | _, _ => None end
  | None => None
  end.
Definition read_rational (s : string) : option Qc := match fraction s with Some x => Some x | None => decimal s end.
Definition QY : externals Qc := {|
  x_float := read_rational; x_int := int_of; x_sin := qsin; x_cos := qcos; x_norm := qnorm; x_close0 := qclose0;
  x_abs_to_rel := qabs_to_rel; x_reciprocal := qreciprocal;
  c_electron_volt := c_electron_volt QX; c_angstrom := c_angstrom QX; c_k_boltzmann := c_k_boltzmann QX;
  c_bohr_radius := c_bohr_radius QX; c_rydberg_energy := c_rydberg_energy QX; c_milli := c_milli QX |}.

(** ** Writing *)
Definition dig (d : Z) : ascii := ascii_of_N (48 + Z.to_N d).
(** [k] digits *)
Fixpoint tail_digits (k : nat) (n : Z) : string :=
  match k with O => "" | S k' => tail_digits k' (n / 10) ++ String (dig (n mod 10)) "" end.
Fixpoint show (fuel : nat) (n : Z) : string :=
  match fuel with
  | O => String (dig (n mod 10)) ""
  | S f => if (n <? 10)%Z then String (dig n) "" else show f (n / 10) ++ String (dig (n mod 10)) ""
  end.
Definition show_nat (n : Z) : string := show (Z.to_nat (Z.log2 n)) n.
Definition ten (p : nat) : Z := 10 ^ Z.of_nat p.
Definition units (p : nat) (x : Qc) : Z := Qfloor (x * inject_Z (ten p) + (1 # 2)).
Definition show_units (p : nat) (n : Z) : string := show_nat (n / ten p) ++ "." ++ tail_digits p (n mod ten p).
Definition show_fixed (p : nat) (x : Qc) : string :=
  let z := units p x in if (z <? 0)%Z then String "-" (show_units p (- z)) else show_units p z.
Definition show_rational (x : Qc) : string := str_int (Qnum x) ++ "/" ++ str_int (Zpos (Qden x)).
Definition qround (p : nat) (x : Qc) : Qc := Q2Qc (units p x # Z.to_pos (ten p)).
Definition QP : printer Qc := {| pr_fixed := show_fixed; pr_str := show_rational; pr_distance := fun _ _ _ => f0; pr_logo := ["# magnopy"; "# "] |}.

(** ** Digits *)
Lemma digit_cases (Q : Z -> Prop) : Q 0%Z -> Q 1%Z -> Q 2%Z -> Q 3%Z -> Q 4%Z -> Q 5%Z -> Q 6%Z -> Q 7%Z -> Q 8%Z -> Q 9%Z -> forall d, (0 <= d < 10)%Z -> Q d.
Proof.
  intros. assert (D : (d = 0 \/ d = 1 \/ d = 2 \/ d = 3 \/ d = 4 \/ d = 5 \/ d = 6 \/ d = 7 \/ d = 8 \/ d = 9)%Z) by lia.
  repeat (destruct D as [-> |D]; [assumption|]). subst. assumption.
Qed.
Lemma digit_dig d : (0 <= d < 10)%Z -> digit (dig d) = Some d.
Proof. revert d. apply digit_cases; reflexivity. Qed.
Lemma digit_dig_char d : (0 <= d < 10)%Z -> digit_char (dig d).
Proof. revert d. apply digit_cases; unfold digit_char; cbn; lia. Qed.
Lemma digits_app s : forall r acc sc dot seen n sc' seen', (forall r, digits (s ++ r) acc sc dot seen = digits r n sc' dot seen') -> digits (s ++ r) acc sc dot seen = digits r n sc' dot seen'.
Proof. intros. auto. Qed.
Lemma ten_S p : ten (S p) = (10 * ten p)%Z.
Proof. unfold ten. rewrite Nat2Z.inj_succ, Z.pow_succ_r; [reflexivity|lia]. Qed.
Lemma ten_pos p : (0 < ten p)%Z.
Proof. unfold ten. apply Z.pow_pos_nonneg; lia. Qed.
Lemma app_assoc_s (a b c : string) : ((a ++ b) ++ c) = (a ++ (b ++ c)).
Proof. induction a; cbn; congruence. Qed.
Fixpoint scaled (p : nat) (sc : positive) : positive := match p with O => sc | S p' => (scaled p' sc * 10)%positive end.
Lemma read_tail k : forall n r acc sc seen, (0 <= n < ten k)%Z ->
  digits (tail_digits k n ++ r) acc sc true seen = digits r (acc * ten k + n)%Z (scaled k sc) true (match k with O => seen | _ => true end).
Proof.
  induction k as [|k IH]; intros n r acc sc seen H.
  - change (ten 0) with 1%Z in *. cbn [tail_digits append scaled]. f_equal. lia.
  - cbn [tail_digits]. rewrite app_assoc_s. rewrite ten_S in H. rewrite IH.
    + cbn [append digits]. rewrite digit_dig by (apply Z.mod_pos_bound; lia). cbn [scaled]. f_equal.
      rewrite ten_S. pose proof (Z.div_mod n 10 ltac:(lia)). lia.
    + split; [apply Z.div_pos; lia|apply Z.div_lt_upper_bound; lia].
Qed.
Lemma read_show f : forall n r sc seen, (0 <= n < 2 ^ Z.of_nat (S f))%Z -> digits (show f n ++ r) 0 sc false seen = digits r n sc false true.
Proof.
  induction f as [|f IH]; intros n r sc seen H; cbn [show].
  - cbn [append digits]. change (2 ^ Z.of_nat 1)%Z with 2%Z in H. rewrite Z.mod_small, digit_dig by lia. f_equal.
  - destruct (Z.ltb_spec n 10).
    + cbn [append digits]. rewrite digit_dig by lia. f_equal.
    + rewrite app_assoc_s, IH.
      * cbn [append digits]. rewrite digit_dig by (apply Z.mod_pos_bound; lia). f_equal. pose proof (Z.div_mod n 10 ltac:(lia)). lia.
      * rewrite Nat2Z.inj_succ, Z.pow_succ_r in H by lia. split; [apply Z.div_pos; lia|apply Z.div_lt_upper_bound; lia].
Qed.
Lemma read_show_nat n r sc seen : (0 <= n)%Z -> digits (show_nat n ++ r) 0 sc false seen = digits r n sc false true.
Proof.
  intros H. unfold show_nat. apply read_show. split; [exact H|]. rewrite Nat2Z.inj_succ, Z2Nat.id by apply Z.log2_nonneg.
  destruct (Z.eq_dec n 0) as [-> |]; [reflexivity|]. apply Z.log2_spec. lia.
Qed.
Lemma scaled_ten p : Zpos (scaled p 1) = ten p.
Proof. induction p as [|p IH]; [reflexivity|]. cbn [scaled]. rewrite Pos2Z.inj_mul, IH, ten_S. lia. Qed.
Lemma read_units p n : (0 <= n)%Z -> unsigned (show_units p n) = Some (n # Z.to_pos (ten p)).
Proof.
  intros H. pose proof (ten_pos p) as T. unfold unsigned, show_units. rewrite <- (app_assoc_s _ "." _), app_assoc_s, read_show_nat by (apply Z.div_pos; lia).
  change ("." ++ tail_digits p (n mod ten p)) with (String "." (tail_digits p (n mod ten p))). 
  assert (Dot : forall t acc sc seen, digits (String "." t) acc sc false seen = digits t acc sc true seen) by reflexivity. rewrite Dot.
  assert (E : forall s, (s ++ "") = s) by (induction s as [|c s IH]; cbn; congruence). rewrite <- (E (tail_digits p (n mod ten p))).
  rewrite read_tail by (apply Z.mod_pos_bound; lia). cbn [digits]. replace (match p with O => true | _ => true end) with true by (destruct p; reflexivity). cbv iota. f_equal. f_equal.
  - pose proof (Z.div_mod n (ten p) ltac:(lia)). lia.
  - pose proof (scaled_ten p) as S. rewrite <- S. reflexivity.
Qed.

(** ** Words *)
Lemma show_chars f : forall n, (0 <= n)%Z -> exists c t, show f n = String c t /\ digit_char c /\ all_chars (fun d => digit_char d \/ d = "."%char) t.
Proof.
  induction f as [|f IH]; intros n H; cbn [show].
  - exists (dig (n mod 10)), "". split; [reflexivity|]. split; [apply digit_dig_char, Z.mod_pos_bound; lia|exact I].
  - destruct (Z.ltb_spec n 10); [exists (dig n), ""; split; [reflexivity|]; split; [apply digit_dig_char; lia|exact I]|].
    destruct (IH (n / 10)%Z) as (c & t & E & D & A); [apply Z.div_pos; lia|]. exists c, (t ++ String (dig (n mod 10)) ""). rewrite E. split; [reflexivity|]. split; [exact D|].
    apply all_app. split; [exact A|]. split; [left; apply digit_dig_char, Z.mod_pos_bound; lia|exact I].
Qed.
Lemma tail_chars k : forall n, all_chars (fun d => digit_char d \/ d = "."%char) (tail_digits k n).
Proof.
  induction k as [|k IH]; intros n; [exact I|]. cbn [tail_digits]. apply all_app. split; [apply IH|]. split; [left; apply digit_dig_char, Z.mod_pos_bound; lia|exact I].
Qed.
Lemma units_chars p n : (0 <= n)%Z -> exists c t, show_units p n = String c t /\ digit_char c /\ all_chars (fun d => digit_char d \/ d = "."%char) t.
Proof.
  intros H. pose proof (ten_pos p). unfold show_units, show_nat. destruct (show_chars (Z.to_nat (Z.log2 (n / ten p))) (n / ten p)) as (c & t & E & D & A); [apply Z.div_pos; lia|].
  rewrite E. exists c, (t ++ "." ++ tail_digits p (n mod ten p)). split; [reflexivity|]. split; [exact D|]. apply all_app. split; [exact A|]. split; [right; reflexivity|apply tail_chars].
Qed.
Lemma fixed_plain p x : plain_number (show_fixed p x).
Proof.
  unfold show_fixed. cbv zeta. destruct (Z.ltb_spec (units p x) 0); [destruct (units_chars p (- units p x)) as (c & t & E & D & A)|destruct (units_chars p (units p x)) as (c & t & E & D & A)]; try lia;
    exists c, t; rewrite E; auto.
Qed.
Lemma lower_plain_char c : digit_char c \/ c = "."%char -> ascii_lower c = c /\ c <> "/"%char.
Proof. unfold digit_char. destruct c as [[] [] [] [] [] [] [] []]; cbn; intros [H|H]; try lia; try discriminate H; split; try reflexivity; discriminate. Qed.
Lemma lower_plain_chars t : all_chars (fun d => digit_char d \/ d = "."%char) t -> str_lower t = t /\ all_chars (fun c => c <> "/"%char) t.
Proof.
  induction t as [|c t IH]; intros H; [split; [reflexivity|exact I]|]. destruct H as [Hc H]. destruct (lower_plain_char c Hc) as [E N]. destruct (IH H) as [E' N'].
  cbn [str_lower all_chars]. rewrite E, E'. auto.
Qed.
Lemma lower_plain w : plain_number w -> str_lower w = w /\ all_chars (fun c => c <> "/"%char) w.
Proof.
  intros (c & t & W & D & A). destruct (lower_plain_chars t A) as [E N]. destruct (lower_plain_char c (or_introl D)) as [Ec Nc].
  destruct W as [-> | ->]; cbn [str_lower all_chars]; rewrite Ec, E; repeat split; auto; discriminate.
Qed.
Lemma cut_none w : all_chars (fun c => c <> "/"%char) w -> cut w = None.
Proof.
  induction w as [|c w IH]; intros H; [reflexivity|]. destruct H as [Hc H]. cbn [cut]. destruct (Ascii.eqb_spec c "/"); [contradiction|]. rewrite (IH H). reflexivity.
Qed.
Lemma cut_some a b : all_chars (fun c => c <> "/"%char) a -> cut (a ++ String "/" b) = Some (a, b).
Proof.
  induction a as [|c a IH]; intros H; [reflexivity|]. destruct H as [Hc H]. cbn [cut append]. destruct (Ascii.eqb_spec c "/"); [contradiction|]. rewrite (IH H). reflexivity.
Qed.
Lemma lower_app a b : str_lower (a ++ b) = str_lower a ++ str_lower b.
Proof. induction a; cbn; congruence. Qed.

(** ** The trusted properties *)
Lemma fixed_read p x : read_rational (show_fixed p x) = Some (qround p x).
Proof.
  pose proof (fixed_plain p x) as Pl. destruct (lower_plain _ Pl) as [E N]. unfold read_rational, fraction. rewrite E, (cut_none _ N).
  unfold show_fixed, qround. cbv zeta. destruct (Z.ltb_spec (units p x) 0).
  - unfold decimal. rewrite read_units by lia. cbn [option_map]. f_equal. apply Qc_is_canon. rewrite !this_q. unfold Qopp. cbn. rewrite Z.opp_involutive. reflexivity.
  - destruct (units_chars p (units p x)) as (c & t & Eu & D & A); [lia|]. pose proof (read_units p (units p x) ltac:(lia)) as R. rewrite Eu in *. rewrite decimal_minus.
    destruct (Ascii.eqb_spec c "-") as [-> |]; [exfalso; unfold digit_char in D; cbn in D; lia|]. rewrite R. reflexivity.
Qed.
Lemma int_read z : int_of (str_int z) = Some z.
Proof.
  unfold int_of, str_int. rewrite NilZero.isi.
  - cbn [option_map]. f_equal. apply DecimalZ.of_to.
  - destruct z; cbn; try discriminate. intros H. injection H as H. exact (DecimalPos.Unsigned.to_uint_nonnil _ H).
  - destruct z; cbn; try discriminate. intros H. injection H as H. exact (DecimalPos.Unsigned.to_uint_nonnil _ H).
Qed.
Lemma rational_read x : read_rational (show_rational x) = Some x.
Proof.
  destruct (lower_plain _ (int_plain (Qnum x))) as [E1 N1]. destruct (lower_plain _ (int_plain (Zpos (Qden x)))) as [E2 _].
  unfold read_rational, fraction, show_rational. rewrite !lower_app, E1, E2. change (str_lower "/" ++ str_int (Zpos (Qden x))) with (String "/" (str_int (Zpos (Qden x)))).
  rewrite (cut_some _ _ N1), !int_read. f_equal. apply Qc_is_canon. rewrite this_q. destruct x as [[n d] C]. reflexivity.
Qed.
Lemma rational_word x : one_word (show_rational x).
Proof.
  destruct (plain_one_word _ (int_plain (Qnum x))) as [N A]. destruct (plain_one_word _ (int_plain (Zpos (Qden x)))) as [_ B]. split.
  - unfold show_rational. destruct (str_int (Qnum x)); [congruence|discriminate].
  - unfold show_rational. apply all_app. split; [exact A|]. split; [split; [reflexivity|discriminate]|exact B].
Qed.
Lemma pow10_this p : this (pow10 (F := Qc) p) == inject_Z (ten p).
Proof.
  induction p as [|p IH]; [reflexivity|]. cbn [pow10]. rewrite ten_S, inject_Z_mult, <- IH. change (this (Qcmult (1 + 1 + 1 + 1 + 1 + 1 + 1 + 1 + 1 + 1)%Qc (pow10 p)) == inject_Z 10 * this (pow10 p)). rewrite this_mul. reflexivity.
Qed.
Lemma round_near p x : near p x (qround p x).
Proof.
  pose proof (ten_pos p) as T. pose proof (Qfloor_le (x * inject_Z (ten p) + (1 # 2))) as H1. pose proof (Qlt_floor (x * inject_Z (ten p) + (1 # 2))) as H2.
  fold (units p x) in H1, H2. rewrite inject_Z_plus in H2.
  assert (E : this (qround p x) * inject_Z (ten p) == inject_Z (units p x)).
  { unfold qround. rewrite this_q. unfold Qeq, Qmult, inject_Z. cbn [Qnum Qden]. rewrite Pos.mul_1_r, Z2Pos.id by exact T. lia. }
  assert (K : forall a b : Qc, this ((1 + 1) * pow10 p * (a - b))%fld == 2 * (this a * inject_Z (ten p) - this b * inject_Z (ten p))).
  { intros a b. change ((1 + 1) * pow10 p * (a - b))%fld with ((1 + 1) * pow10 p * (a + - b))%Qc. rewrite (this_mul ((1 + 1) * pow10 p)%Qc (a + - b)%Qc), (this_mul (1 + 1)%Qc (pow10 p)), (this_add a (- b)%Qc), (this_opp b), pow10_this. change (this (1 + 1)%Qc) with (2 # 1). ring. }
  change (inject_Z 1) with (1 # 1) in H2.
  split; apply ltb_this_false; rewrite K, E; change (this f1) with (1 # 1); lra.
Qed.
Lemma unit_norm v : v <> mkV f0 f0 f0 -> qnorm (vscale (fdiv f1 (qnorm v)) v) = f1.
Proof.
  intros Hv. assert (Hn : qnorm v <> f0) by (intros E; apply Hv, qnorm_zero, E). set (k := fdiv f1 (qnorm v)).
  assert (Ek : this k * this (qnorm v) == 1).
  { rewrite <- this_mul. assert (E : (k * qnorm v)%Qc = 1%Qc) by (unfold k; cbn; field; exact Hn). rewrite E. reflexivity. }
  apply Qc_is_canon. change (this f1) with (1 # 1). rewrite qnorm_this in *. destruct v as [a b c]. cbn [vscale vmap vx vy vz] in *.
  change (fmul k a) with (k * a)%Qc. change (fmul k b) with (k * b)%Qc. change (fmul k c) with (k * c)%Qc. rewrite !this_mul, !Qabs_Qmult.
  pose proof (Qabs_nonneg (this a)). pose proof (Qabs_nonneg (this b)). pose proof (Qabs_nonneg (this c)).
  assert (0 <= this k).
  { destruct (Qlt_le_dec (this k) 0) as [N|N]; [|exact N]. exfalso. set (S := Qabs (this a) + Qabs (this b) + Qabs (this c)) in *. assert (0 <= S) by (unfold S; lra). nra. }
  rewrite (Qabs_pos (this k)) by assumption. rewrite <- Ek. ring.
Qed.
Lemma QY_prints : prints QY QP qround.
Proof.
  split; cbn [QY QP x_float x_int x_norm pr_fixed pr_str pr_logo].
  - exact fixed_read.
  - exact fixed_plain.
  - exact round_near.
  - exact rational_read.
  - exact rational_word.
  - exact int_read.
  - repeat constructor; eexists; (split; [reflexivity|]); cbn; repeat split; discriminate.
  - discriminate.
  - exact unit_norm.
Qed.
Lemma lower_idem s : str_lower (str_lower s) = str_lower s.
Proof. induction s as [|c s IH]; [reflexivity|]. cbn [str_lower]. rewrite IH. f_equal. destruct c as [[] [] [] [] [] [] [] []]; reflexivity. Qed.
Lemma QY_sane : sane QY.
Proof.
  pose proof QX_sane as H. split; cbn [QY x_float x_norm x_close0 x_cos x_sin x_abs_to_rel x_reciprocal c_angstrom c_bohr_radius].
  - intros w. unfold read_rational, fraction. rewrite lower_idem, decimal_lower. reflexivity.
  - apply H.
  - apply H.
  - apply H.
  - apply H.
  - apply H.
  - apply H.
  - apply H.
Qed.
Lemma QY_units : units_defined QY.
Proof. split; qne. Qed.
