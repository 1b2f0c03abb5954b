(** The primitive floating-point operations of the target ([+ - * /], comparisons, [as]
    conversions) on bit patterns.  They are IEEE 754 operations in the default rounding mode
    (nearest, ties to even), taken from Flocq.  A NaN produced by an operation is the canonical
    quiet NaN; Rust leaves the payload and sign of such a NaN unspecified, so theorems only say
    that the result is some NaN. *)
From Coq Require Import ZArith Reals Lia Lra Bool.
From Flocq Require Import Core Binary Bits.
From Flocq Require Import BinarySingleNaN.
From Verif Require Import Base Spec Format P_format.
Open Scope Z_scope.

Definition prec (F : fmt) : Z := mw F + 1.
Definition emax (F : fmt) : Z := 2 ^ (ew F - 1).

Lemma fmt_Hmw F : 0 < mw F. Proof. pose proof (fmt_facts F); lia. Qed.
Lemma fmt_Hew F : 0 < ew F. Proof. pose proof (fmt_facts F); lia. Qed.
Lemma fmt_Hmax F : mw F + 1 < 2 ^ (ew F - 1). Proof. pose proof (fmt_facts F); lia. Qed.
Lemma fmt_prec F : Prec_gt_0 (prec F).
Proof. unfold Prec_gt_0, prec. pose proof (fmt_facts F); lia. Qed.
Lemma fmt_emax F : Prec_lt_emax (prec F) (emax F).
Proof. unfold Prec_lt_emax. apply fmt_Hmax. Qed.
#[global] Existing Instance fmt_prec.
#[global] Existing Instance fmt_emax.

Notation bfloat F := (Binary.binary_float (prec F) (emax F)).

Definition dec (F : fmt) (x : Z) : bfloat F :=
  binary_float_of_bits (mw F) (ew F) (fmt_Hmw F) (fmt_Hew F) (fmt_Hmax F) x.
Definition enc (F : fmt) (b : bfloat F) : Z := bits_of_binary_float (mw F) (ew F) b.

(** The canonical quiet NaN. *)
Lemma qnan_pl F : Binary.nan_pl (prec F) (Z.to_pos (2 ^ (mw F - 1))) = true.
Proof.
  pose proof (fmt_facts F) as HF. unfold Binary.nan_pl, prec.
  apply Z.ltb_lt. rewrite Zpos_digits2_pos.
  rewrite Z2Pos.id by (apply pow2_pos; lia).
  assert (H : Zdigits radix2 (2 ^ (mw F - 1)) <= mw F); [|lia].
  apply Zdigits_le_Zpower.
  rewrite Z.abs_eq by (apply Z.pow_nonneg; lia).
  change (2 ^ (mw F - 1) < 2 ^ mw F). apply Z.pow_lt_mono_r; lia.
Qed.
Definition qnan (F : fmt) : { b : bfloat F | Binary.is_nan _ _ b = true } :=
  exist _ (Binary.B754_nan _ _ false (Z.to_pos (2 ^ (mw F - 1))) (qnan_pl F)) eq_refl.

(** Arithmetic *)
Definition fadd F (x y : Z) : Z :=
  enc F (Binary.Bplus _ _ (fmt_prec F) (fmt_emax F) (fun _ _ => qnan F) mode_NE (dec F x) (dec F y)).
Definition fsub F (x y : Z) : Z :=
  enc F (Binary.Bminus _ _ (fmt_prec F) (fmt_emax F) (fun _ _ => qnan F) mode_NE (dec F x) (dec F y)).
Definition fmul F (x y : Z) : Z :=
  enc F (Binary.Bmult _ _ (fmt_prec F) (fmt_emax F) (fun _ _ => qnan F) mode_NE (dec F x) (dec F y)).
Definition fdiv F (x y : Z) : Z :=
  enc F (Binary.Bdiv _ _ (fmt_prec F) (fmt_emax F) (fun _ _ => qnan F) mode_NE (dec F x) (dec F y)).

(** Comparisons: unordered when a NaN is involved. *)
Definition fcmp F (x y : Z) : option comparison := Binary.Bcompare _ _ (dec F x) (dec F y).
Definition flt F x y := match fcmp F x y with Some Lt => true | _ => false end.
Definition fle F x y := match fcmp F x y with Some Lt | Some Eq => true | _ => false end.
Definition fgt F x y := match fcmp F x y with Some Gt => true | _ => false end.
Definition fge F x y := match fcmp F x y with Some Gt | Some Eq => true | _ => false end.
Definition feq F x y := match fcmp F x y with Some Eq => true | _ => false end.
Definition fne F x y := negb (feq F x y).

(** [n as f..] for an integer [n] (no negative zero). *)
Definition of_int F (n : Z) : Z :=
  enc F (Binary.binary_normalize _ _ (fmt_prec F) (fmt_emax F) mode_NE n 0 false).

(** [x as f..] between formats (widening or narrowing, rounding to nearest even). *)
Definition fcvt F G (x : Z) : Z :=
  match dec F x with
  | Binary.B754_zero _ _ s => enc G (Binary.B754_zero _ _ s)
  | Binary.B754_infinity _ _ s => enc G (Binary.B754_infinity _ _ s)
  | Binary.B754_nan _ _ _ _ _ => enc G (proj1_sig (qnan G))
  | Binary.B754_finite _ _ s m e _ =>
      enc G (Binary.binary_normalize _ _ (fmt_prec G) (fmt_emax G) mode_NE (cond_Zopp s (Zpos m)) e s)
  end.

(** [x as iN]/[x as uN]: truncation toward zero, saturating, NaN to 0. *)
Definition clampZ (lo hi n : Z) : Z := if n <? lo then lo else if hi <? n then hi else n.
Definition to_intZ F (lo hi x : Z) : Z :=
  match dec F x with
  | Binary.B754_zero _ _ _ => 0
  | Binary.B754_infinity _ _ s => if s then lo else hi
  | Binary.B754_nan _ _ _ _ _ => 0
  | Binary.B754_finite _ _ s m e _ =>
      let a := if 0 <=? e then Zpos m * 2 ^ e else Zpos m / 2 ^ (- e) in
      clampZ lo hi (if s then - a else a)
  end.
Definition to_i32 F x := to_intZ F (- 2 ^ 31) (2 ^ 31 - 1) x.
Definition to_u32 F x := to_intZ F 0 (2 ^ 32 - 1) x.
Definition to_i64 F x := to_intZ F (- 2 ^ 63) (2 ^ 63 - 1) x.

(** ** Decoding agrees with the specification *)
Lemma dec_enc F b : dec F (enc F b) = b.
Proof. apply binary_float_of_bits_of_binary_float. Qed.
Lemma enc_dec F x : isbits F x -> enc F (dec F x) = x.
Proof. intros H. apply bits_of_binary_float_of_bits. exact H. Qed.
Lemma enc_range F b : isbits F (enc F b).
Proof.
  apply bits_of_binary_float_range; [apply fmt_Hmw|apply fmt_Hew].
Qed.

Lemma B2FF_dec F x : Binary.B2FF _ _ (dec F x) = binary_float_of_bits_aux (mw F) (ew F) x.
Proof. unfold dec, binary_float_of_bits. apply Binary.B2FF_FF2B. Qed.

Lemma aux_eq F x : binary_float_of_bits_aux (mw F) (ew F) x =
  let s := signbit F x in
  if expf F x =? 0 then
    (if sigf F x =? 0 then Binary.F754_zero s
     else Binary.F754_finite s (Z.to_pos (sigf F x)) (1 - bias F - mw F))
  else if expf F x =? 2 ^ ew F - 1 then
    (if sigf F x =? 0 then Binary.F754_infinity s else Binary.F754_nan s (Z.to_pos (sigf F x)))
  else Binary.F754_finite s (Z.to_pos (2 ^ mw F + sigf F x)) (expf F x - bias F - mw F).
Proof.
  unfold binary_float_of_bits_aux, split_bits. cbv zeta.
  fold (sigf F x). fold (expf F x).
  pose proof (fields_range F x) as [Hm He]. pose proof (pow_mw_ge F).
  pose proof (bias_facts F).
  assert (Em : SpecFloat.emin (mw F + 1) (2 ^ (ew F - 1)) = 1 - bias F - mw F).
  { unfold SpecFloat.emin, bias. lia. }
  rewrite Em. unfold signbit. rewrite pow_mwew.
  unfold Zeq_bool. 
  destruct (Z.eqb_spec (expf F x) 0) as [E|E].
  - rewrite E. simpl Z.compare.
    destruct (sigf F x) as [|p|p] eqn:Es; try lia; reflexivity.
  - destruct (Z.compare_spec (expf F x) 0); try lia.
    destruct (Z.eqb_spec (expf F x) (2 ^ ew F - 1)) as [E2|E2].
    + rewrite E2 at 1. rewrite Z.compare_refl.
      destruct (sigf F x) as [|p|p] eqn:Es; try lia; reflexivity.
    + destruct (Z.compare_spec (expf F x) (2 ^ ew F - 1)); try lia.
      replace (sigf F x + 2 ^ mw F) with (2 ^ mw F + sigf F x) by lia.
      destruct (2 ^ mw F + sigf F x) as [|p|p] eqn:Es; try lia.
      simpl Z.to_pos. f_equal. lia.
Qed.

Lemma finite_dec F x : Binary.is_finite _ _ (dec F x) = finite F x.
Proof.
  rewrite <- Binary.is_finite_B2FF, B2FF_dec, aux_eq. cbv zeta. unfold finite.
  pose proof (fields_range F x). pose proof (bias_facts F).
  destruct (Z.eqb_spec (expf F x) 0) as [E|E].
  - rewrite E. rewrite (proj2 (Z.ltb_lt _ _)) by lia. destruct (sigf F x =? 0); reflexivity.
  - destruct (Z.eqb_spec (expf F x) (2 ^ ew F - 1)) as [E2|E2].
    + rewrite E2, Z.ltb_irrefl. destruct (sigf F x =? 0); reflexivity.
    + rewrite (proj2 (Z.ltb_lt _ _)) by lia. reflexivity.
Qed.

Lemma nan_dec F x : Binary.is_nan _ _ (dec F x) = isnan F x.
Proof.
  rewrite <- Binary.is_nan_B2FF, B2FF_dec, aux_eq. cbv zeta. unfold isnan.
  pose proof (fields_range F x). pose proof (bias_facts F).
  destruct (Z.eqb_spec (expf F x) 0) as [E|E].
  - rewrite E. rewrite (proj2 (Z.eqb_neq 0 (2 ^ ew F - 1))) by lia. destruct (sigf F x =? 0); reflexivity.
  - destruct (Z.eqb_spec (expf F x) (2 ^ ew F - 1)) as [E2|E2].
    + destruct (sigf F x =? 0); reflexivity.
    + reflexivity.
Qed.

Lemma sign_dec F x : Binary.Bsign _ _ (dec F x) = signbit F x.
Proof.
  assert (H : forall b : bfloat F, Binary.Bsign _ _ b = Binary.sign_FF (Binary.B2FF _ _ b)) by (now intros []).
  rewrite H, B2FF_dec, aux_eq. cbv zeta.
  destruct (expf F x =? 0); [destruct (sigf F x =? 0); reflexivity|].
  destruct (expf F x =? 2 ^ ew F - 1); [destruct (sigf F x =? 0); reflexivity|reflexivity].
Qed.

Lemma F2R_cond s m e : F2R (Float radix2 (cond_Zopp s m) e) = sval s (IZR m * bpow radix2 e).
Proof.
  unfold F2R; simpl. destruct s; simpl; [|reflexivity]. rewrite opp_IZR. ring.
Qed.

Lemma B2R_dec F x : finite F x = true -> Binary.B2R _ _ (dec F x) = val F x.
Proof.
  intros Hf. apply finite_iff in Hf.
  rewrite <- Binary.FF2R_B2FF, B2FF_dec, aux_eq. cbv zeta. unfold val, mag_of.
  pose proof (fields_range F x). pose proof (pow_mw_ge F).
  destruct (Z.eqb_spec (expf F x) 0) as [E|E].
  - destruct (Z.eqb_spec (sigf F x) 0) as [E2|E2].
    + rewrite E2. simpl. rewrite Rmult_0_l. destruct (signbit F x); simpl; lra.
    + unfold Binary.FF2R. rewrite F2R_cond. rewrite Z2Pos.id by lia. reflexivity.
  - rewrite (proj2 (Z.eqb_neq _ _)) by lia.
    unfold Binary.FF2R. rewrite F2R_cond. rewrite Z2Pos.id by lia. reflexivity.
Qed.

Lemma finite_enc F b : finite F (enc F b) = Binary.is_finite _ _ b.
Proof. now rewrite <- finite_dec, dec_enc. Qed.
Lemma nan_enc F b : isnan F (enc F b) = Binary.is_nan _ _ b.
Proof. now rewrite <- nan_dec, dec_enc. Qed.
Lemma sign_enc F b : signbit F (enc F b) = Binary.Bsign _ _ b.
Proof. now rewrite <- sign_dec, dec_enc. Qed.
Lemma val_enc F b : Binary.is_finite _ _ b = true -> val F (enc F b) = Binary.B2R _ _ b.
Proof. intros H. rewrite <- B2R_dec; [now rewrite dec_enc|]. now rewrite finite_enc. Qed.
Lemma enc_inf F s : enc F (Binary.B754_infinity _ _ s) = infinity F s.
Proof.
  unfold enc, bits_of_binary_float, join_bits, infinity, mkbits.
  pose proof (fmt_facts F).
  rewrite Z.shiftl_mul_pow2 by lia. rewrite pow_mwew. destruct s; simpl; ring.
Qed.
Lemma enc_zero F s : enc F (Binary.B754_zero _ _ s) = zero F s.
Proof.
  unfold enc, bits_of_binary_float, join_bits, zero, mkbits.
  pose proof (fmt_facts F).
  rewrite Z.shiftl_mul_pow2 by lia. rewrite pow_mwew. destruct s; simpl; ring.
Qed.
Lemma dec_zero F s : dec F (zero F s) = Binary.B754_zero _ _ s.
Proof. now rewrite <- enc_zero, dec_enc. Qed.
Lemma dec_inf F s : dec F (infinity F s) = Binary.B754_infinity _ _ s.
Proof. now rewrite <- enc_inf, dec_enc. Qed.

Lemma isinf_enc F b : isinf F (enc F b) = match b with Binary.B754_infinity _ _ _ => true | _ => false end.
Proof.
  destruct (class_cases F (enc F b)) as [(H1&H2&H3)|[(H1&H2&H3)|(H1&H2&H3)]]; rewrite H2;
  rewrite finite_enc in H1; rewrite nan_enc in H3; destruct b; simpl in *; congruence.
Qed.

(** The exponent function of Flocq is the one of the specification. *)
Lemma fexp_eq F e : SpecFloat.fexp (prec F) (emax F) e = FLT_exp (1 - bias F - mw F) (mw F + 1) e.
Proof.
  unfold SpecFloat.fexp, FLT_exp, SpecFloat.emin, prec, emax, bias. f_equal. lia.
Qed.
Lemma round_eq F r :
  round radix2 (SpecFloat.fexp (prec F) (emax F)) (round_mode mode_NE) r = rnd F r.
Proof.
  unfold rnd. simpl round_mode. unfold round, scaled_mantissa, cexp. now rewrite fexp_eq.
Qed.
Lemma emax_eq F : emax F = bias F + 1.
Proof. unfold emax, bias. lia. Qed.

Lemma generic_val F x : finite F x = true ->
  generic_format radix2 (FLT_exp (1 - bias F - mw F) (mw F + 1)) (val F x).
Proof.
  intros H. rewrite <- B2R_dec by assumption.
  pose proof (Binary.generic_format_B2R (prec F) (emax F) (dec F x)) as G.
  unfold generic_format, scaled_mantissa, cexp in *. now rewrite fexp_eq in G.
Qed.
#[global] Instance fmt_valid_exp F : Valid_exp (FLT_exp (1 - bias F - mw F) (mw F + 1)).
Proof. apply FLT_exp_valid. exact (fmt_prec F). Qed.
#[global] Instance fmt_monotone_exp F : Monotone_exp (FLT_exp (1 - bias F - mw F) (mw F + 1)).
Proof. apply FLT_exp_monotone. Qed.

Lemma rnd_val F x : finite F x = true -> rnd F (val F x) = val F x.
Proof. intros H. unfold rnd. apply round_generic; [apply valid_rnd_N|]. now apply generic_val. Qed.

Lemma val_lt_emax F x : finite F x = true -> (Rabs (val F x) < bpow radix2 (bias F + 1))%R.
Proof.
  intros H. rewrite <- B2R_dec by assumption. rewrite <- emax_eq.
  apply Binary.abs_B2R_lt_emax.
Qed.

Lemma overflow_inf F b s : Binary.B2FF _ _ b = Binary.binary_overflow (prec F) (emax F) mode_NE s ->
  enc F b = infinity F s.
Proof.
  intros H. destruct b; try discriminate H. inversion H. apply enc_inf.
Qed.

Lemma fin2 F x y : finite F x = true -> finite F y = true ->
  Binary.B2R _ _ (dec F x) = val F x /\ Binary.B2R _ _ (dec F y) = val F y /\
  Binary.is_finite _ _ (dec F x) = true /\ Binary.is_finite _ _ (dec F y) = true.
Proof. intros Hx Hy. rewrite !finite_dec. rewrite !B2R_dec by assumption. tauto. Qed.

(** Correctness of the operations in terms of the specification. *)
Lemma fadd_spec F x y : finite F x = true -> finite F y = true ->
  rounds_to F (val F x + val F y) (signbit F x && signbit F y) (fadd F x y).
Proof.
  intros Hx Hy. destruct (fin2 F x y Hx Hy) as (Vx & Vy & Fx & Fy).
  split; [apply enc_range|].
  pose proof (Binary.Bplus_correct (prec F) (emax F) (fmt_prec F) (fmt_emax F) (fun _ _ => qnan F) mode_NE _ _ Fx Fy) as H.
  rewrite Vx, Vy, round_eq, !sign_dec in H. rewrite <- emax_eq.
  unfold fadd. destruct (Rlt_bool (Rabs (rnd F (val F x + val F y))) (bpow radix2 (emax F))) eqn:E.
  - destruct H as (H1 & H2 & H3).
    rewrite finite_enc, val_enc, sign_enc by assumption.
    rewrite H3. split; [assumption|]. split; [assumption|]. destruct (Rcompare _ 0); reflexivity.
  - destruct H as [H1 H2]. rewrite (overflow_inf _ _ _ H1). f_equal.
    (* the sum has the sign of both operands *)
    destruct (signbit F x) eqn:Sx.
    + symmetry. apply Rlt_bool_true.
      assert (val F x <= 0)%R.
      { unfold val. rewrite Sx. simpl. pose proof (mag_of_nonneg F (expf F x) (sigf F x)).
        pose proof (fields_range F x). assert (0 <= mag_of F (expf F x) (sigf F x))%R by (apply H; lia). lra. }
      assert (val F y <= 0)%R.
      { unfold val. rewrite <- H2. simpl. pose proof (mag_of_nonneg F (expf F y) (sigf F y)).
        pose proof (fields_range F y). assert (0 <= mag_of F (expf F y) (sigf F y))%R by (apply H0; lia). lra. }
      destruct (Req_dec (val F x + val F y) 0) as [E0|E0]; [|lra].
      rewrite E0 in E. unfold rnd in E. rewrite round_0, Rabs_R0, Rlt_bool_true in E; [discriminate| |apply valid_rnd_N].
      apply bpow_gt_0.
    + symmetry. apply Rlt_bool_false.
      assert (0 <= val F x)%R.
      { unfold val. rewrite Sx. simpl. apply mag_of_nonneg. apply fields_range. }
      assert (0 <= val F y)%R.
      { unfold val. rewrite <- H2. simpl. apply mag_of_nonneg. apply fields_range. }
      lra.
Qed.
