(** Arithmetic facts about bit patterns and about the trait constants. *)
From Coq Require Import ZArith Reals Lia Lra Bool.
From Flocq Require Import Core.
From Verif Require Import Base Spec Format.
Open Scope Z_scope.

Lemma fmt_facts (F : fmt) :
  2 <= mw F /\ 3 <= ew F <= 15 /\ mw F + ew F + 1 <= 128 /\ mw F + 2 < 2 ^ (ew F - 1).
Proof.
  destruct F as [m e H]; cbn [mw ew].
  repeat rewrite andb_true_iff in H. rewrite !Z.leb_le, Z.ltb_lt in H. lia.
Qed.

Lemma pow_ew (F : fmt) : 2 ^ ew F = 2 * 2 ^ (ew F - 1).
Proof.
  pose proof (fmt_facts F). rewrite <- Z.pow_succ_r by lia. f_equal; lia.
Qed.
Lemma pow_ew1_le (F : fmt) : 4 <= 2 ^ (ew F - 1) <= 2 ^ 14.
Proof.
  pose proof (fmt_facts F).
  split; [change 4 with (2 ^ 2)|]; apply Z.pow_le_mono_r; lia.
Qed.
Lemma pow_mw_ge (F : fmt) : 4 <= 2 ^ mw F.
Proof. pose proof (fmt_facts F). change 4 with (2 ^ 2). apply Z.pow_le_mono_r; lia. Qed.
Lemma pow_mwew (F : fmt) : 2 ^ (mw F + ew F) = 2 ^ mw F * 2 ^ ew F.
Proof. pose proof (fmt_facts F). rewrite Z.pow_add_r; lia. Qed.
Lemma pow_width (F : fmt) : 2 ^ width F = 2 * (2 ^ mw F * 2 ^ ew F).
Proof.
  pose proof (fmt_facts F). unfold width. rewrite Z.pow_add_r by lia. rewrite pow_mwew. lia.
Qed.
Lemma pow_width1 (F : fmt) : 2 ^ (width F - 1) = 2 ^ mw F * 2 ^ ew F.
Proof. unfold width. rewrite Z.add_simpl_r. apply pow_mwew. Qed.
Lemma bias_facts (F : fmt) : 2 ^ ew F = 2 * bias F + 2 /\ mw F + 1 < bias F /\ 3 <= bias F < 2 ^ 14.
Proof.
  pose proof (fmt_facts F). pose proof (pow_ew F). pose proof (pow_ew1_le F).
  unfold bias. lia.
Qed.

(** ** Fields *)
Definition signz (F : fmt) (x : Z) : Z := if signbit F x then 1 else 0.

Lemma fields_range (F : fmt) x :
  0 <= sigf F x < 2 ^ mw F /\ 0 <= expf F x < 2 ^ ew F.
Proof.
  pose proof (fmt_facts F).
  split; apply Z.mod_pos_bound; apply pow2_pos; lia.
Qed.

Lemma fields_split (F : fmt) x : isbits F x ->
  x = mkbits F (signbit F x) (expf F x) (sigf F x).
Proof.
  intros H. pose proof (fmt_facts F) as HF.
  pose proof (pow2_pos (mw F)) as Hm. pose proof (pow2_pos (ew F)) as He.
  unfold isbits in H. rewrite pow_width in H.
  unfold mkbits, signbit, expf, sigf. rewrite pow_mwew.
  pose proof (Z.div_mod x (2 ^ mw F)) as D1.
  pose proof (Z.div_mod (x / 2 ^ mw F) (2 ^ ew F)) as D2.
  rewrite Zdiv.Zdiv_Zdiv in D2 by lia.
  assert (Hq : x / (2 ^ mw F * 2 ^ ew F) = if 2 ^ mw F * 2 ^ ew F <=? x then 1 else 0).
  { destruct (Z.leb_spec (2 ^ mw F * 2 ^ ew F) x).
    - symmetry. apply Z.div_unique with (x - 2 ^ mw F * 2 ^ ew F); lia.
    - apply Z.div_small; lia. }
  rewrite Hq in D2.
  destruct (2 ^ mw F * 2 ^ ew F <=? x); nia.
Qed.

Lemma mkbits_range (F : fmt) s e m : 0 <= e < 2 ^ ew F -> 0 <= m < 2 ^ mw F ->
  isbits F (mkbits F s e m).
Proof.
  intros He Hm. unfold isbits, mkbits. rewrite pow_width, pow_mwew.
  destruct s; nia.
Qed.

Lemma mkbits_fields (F : fmt) s e m : 0 <= e < 2 ^ ew F -> 0 <= m < 2 ^ mw F ->
  signbit F (mkbits F s e m) = s /\ expf F (mkbits F s e m) = e /\ sigf F (mkbits F s e m) = m.
Proof.
  intros He Hm. pose proof (fmt_facts F) as HF.
  assert (E : mkbits F s e m = ((if s then 2 ^ ew F else 0) + e) * 2 ^ mw F + m).
  { unfold mkbits. rewrite pow_mwew. destruct s; ring. }
  split; [|split].
  - unfold signbit. rewrite E, pow_mwew.
    destruct s; [apply Z.leb_le|apply Z.leb_gt]; nia.
  - unfold expf. rewrite E.
    rewrite Z.div_add_l by lia. rewrite (Z.div_small m) by lia. rewrite Z.add_0_r.
    destruct s.
    + rewrite <- (Z.mul_1_l (2 ^ ew F)) at 1. rewrite Z.add_comm, Z.mod_add by lia.
      apply Z.mod_small; lia.
    + apply Z.mod_small; lia.
  - unfold sigf. rewrite E. rewrite Z.add_comm, Z.mod_add by lia. apply Z.mod_small; lia.
Qed.

Lemma mkbits_inj (F : fmt) x y : isbits F x -> isbits F y ->
  signbit F x = signbit F y -> expf F x = expf F y -> sigf F x = sigf F y -> x = y.
Proof.
  intros Hx Hy H1 H2 H3.
  rewrite (fields_split F x Hx), (fields_split F y Hy). now rewrite H1, H2, H3.
Qed.

(** ** Constants *)
Lemma BITS_eq F : BITS F = mw F + ew F + 1. Proof. reflexivity. Qed.
Lemma EXP_BITS_eq F : EXP_BITS F = ew F.
Proof. unfold EXP_BITS, BITS, SIG_BITS, width. lia. Qed.
Lemma EXP_SAT_eq F : EXP_SAT F = 2 ^ ew F - 1.
Proof.
  pose proof (fmt_facts F). unfold EXP_SAT. rewrite EXP_BITS_eq, Z.shiftl_mul_pow2 by lia. lia.
Qed.
Lemma EXP_BIAS_eq F : EXP_BIAS F = bias F.
Proof.
  pose proof (bias_facts F). unfold EXP_BIAS. rewrite EXP_SAT_eq, Z.shiftr_div_pow2 by lia.
  symmetry. apply Z.div_unique with 1; lia.
Qed.
Lemma EXP_MAX_eq F : EXP_MAX F = bias F.
Proof. apply EXP_BIAS_eq. Qed.
Lemma EXP_MIN_eq F : EXP_MIN F = 1 - bias F.
Proof. unfold EXP_MIN. rewrite EXP_MAX_eq. lia. Qed.
Lemma SIGN_MASK_eq F : SIGN_MASK F = 2 ^ mw F * 2 ^ ew F.
Proof.
  pose proof (fmt_facts F). unfold SIGN_MASK, BITS. rewrite Z.shiftl_mul_pow2 by (unfold width; lia).
  rewrite pow_width1. lia.
Qed.
Lemma SIG_MASK_eq F : SIG_MASK F = 2 ^ mw F - 1.
Proof.
  pose proof (fmt_facts F). unfold SIG_MASK, SIG_BITS. rewrite Z.shiftl_mul_pow2 by lia. lia.
Qed.
Lemma IMPLICIT_BIT_eq F : IMPLICIT_BIT F = 2 ^ mw F.
Proof.
  pose proof (fmt_facts F). unfold IMPLICIT_BIT, SIG_BITS. rewrite Z.shiftl_mul_pow2 by lia. lia.
Qed.
Lemma EXP_MASK_eq F : EXP_MASK F = (2 ^ ew F - 1) * 2 ^ mw F.
Proof.
  pose proof (fmt_facts F). pose proof (pow_mw_ge F). pose proof (pow_ew1_le F).
  pose proof (pow_ew F).
  unfold EXP_MASK. rewrite SIGN_MASK_eq, SIG_MASK_eq.
  rewrite (Z.mul_comm (2 ^ mw F)), lor_disjoint by lia.
  unfold unot, BITS. rewrite pow_width. ring.
Qed.
Lemma ONE_eq F : ONE F = mkbits F false (bias F) 0.
Proof.
  pose proof (fmt_facts F). unfold ONE, SIG_BITS, mkbits. rewrite EXP_BIAS_eq.
  rewrite Z.shiftl_mul_pow2 by lia. lia.
Qed.
Lemma NEG_ONE_eq F : NEG_ONE F = mkbits F true (bias F) 0.
Proof.
  pose proof (fmt_facts F). pose proof (bias_facts F). pose proof (pow_mw_ge F).
  unfold NEG_ONE. rewrite ONE_eq, SIGN_MASK_eq.
  unfold mkbits. rewrite <- pow_mwew. rewrite <- (Z.mul_1_l (2 ^ (mw F + ew F))).
  rewrite lor_disjoint; [lia|lia|]. rewrite pow_mwew. nia.
Qed.
Lemma INFINITY_eq F : INFINITY F = infinity F false.
Proof. unfold INFINITY, infinity, mkbits. rewrite EXP_MASK_eq. lia. Qed.
Lemma NEG_INFINITY_eq F : NEG_INFINITY F = infinity F true.
Proof.
  pose proof (fmt_facts F). pose proof (bias_facts F). pose proof (pow_mw_ge F).
  unfold NEG_INFINITY. rewrite EXP_MASK_eq, SIGN_MASK_eq.
  unfold infinity, mkbits. rewrite <- pow_mwew. rewrite <- (Z.mul_1_l (2 ^ (mw F + ew F))).
  rewrite lor_disjoint; [lia|lia|]. rewrite pow_mwew. nia.
Qed.
Lemma NEG_ZERO_eq F : NEG_ZERO F = zero F true.
Proof. unfold NEG_ZERO, zero, mkbits. rewrite SIGN_MASK_eq, pow_mwew. lia. Qed.
Lemma ZERO_eq F : ZERO = zero F false.
Proof. unfold ZERO, zero, mkbits. lia. Qed.

(** ** Accessors *)
Lemma to_i32_small a : 0 <= a < 2 ^ 31 -> to_i 32 a = a.
Proof. intros H. apply to_i_small; lia. Qed.

Lemma ex_ok F x : isbits F x -> ex F x = Some (expf F x).
Proof.
  intros H. pose proof (fmt_facts F) as HF. pose proof (pow_mw_ge F). pose proof (bias_facts F).
  unfold ex, SIG_BITS. rewrite ushr_ok by (rewrite BITS_eq; lia). cbn [bind].
  rewrite ucast_ok.
  - cbn [bind]. rewrite EXP_SAT_eq. rewrite land_pow2m1 by lia. reflexivity.
  - unfold isbits in H. rewrite pow_width in H. split.
    + apply Z.div_pos; lia.
    + apply Z.div_lt_upper_bound; [lia|].
      assert (2 ^ mw F * 2 ^ ew F <= 2 ^ mw F * 2 ^ 15) by (apply Z.mul_le_mono_nonneg_l; lia).
      lia.
Qed.

Lemma exp_unbiased_ok F x : isbits F x -> exp_unbiased F x = Some (expf F x - bias F).
Proof.
  intros H. unfold exp_unbiased. rewrite ex_ok by assumption. cbn [bind].
  pose proof (bias_facts F). pose proof (fields_range F x).
  rewrite EXP_BIAS_eq, !to_i32_small by lia.
  unfold ssub. rewrite chk_ok by lia. reflexivity.
Qed.

Lemma frac_eq F x : frac F x = sigf F x.
Proof.
  pose proof (fmt_facts F). unfold frac. rewrite SIG_MASK_eq. apply land_pow2m1; lia.
Qed.

Lemma land_sign F x : isbits F x ->
  Z.land x (SIGN_MASK F) = if signbit F x then 2 ^ mw F * 2 ^ ew F else 0.
Proof.
  intros H. pose proof (fmt_facts F) as HF.
  rewrite SIGN_MASK_eq, <- pow_width1.
  rewrite land_top by (unfold isbits in H; rewrite ?pow_width in *; unfold width; try lia).
  unfold signbit. rewrite pow_mwew, pow_width1.
  unfold isbits in H. rewrite pow_width in H.
  destruct (Z.leb_spec (2 ^ mw F * 2 ^ ew F) x).
  - rewrite <- (Z.div_unique x _ 1 (x - 2 ^ mw F * 2 ^ ew F)); lia.
  - rewrite Z.div_small; lia.
Qed.

Lemma is_sign_negative_eq F x : isbits F x -> is_sign_negative F x = signbit F x.
Proof.
  intros H. unfold is_sign_negative. rewrite land_sign by assumption.
  pose proof (pow_mw_ge F). pose proof (bias_facts F).
  destruct (signbit F x); [|reflexivity].
  rewrite (proj2 (Z.eqb_neq _ _)) by nia. reflexivity.
Qed.
Lemma is_sign_positive_eq F x : isbits F x -> is_sign_positive F x = negb (signbit F x).
Proof. intros H. unfold is_sign_positive. now rewrite is_sign_negative_eq. Qed.

Lemma abs_bits F x : isbits F x ->
  Z.land x (unot (BITS F) (SIGN_MASK F)) = expf F x * 2 ^ mw F + sigf F x.
Proof.
  intros H. pose proof (fmt_facts F) as HF.
  rewrite SIGN_MASK_eq, <- pow_width1. unfold BITS.
  rewrite land_unot_top by (unfold width in *; try assumption; lia).
  rewrite pow_width1.
  pose proof (fields_range F x).
  rewrite (fields_split F x H) at 1. unfold mkbits. rewrite pow_mwew.
  destruct (signbit F x).
  - symmetry. apply Z.mod_unique with 1; [left; nia|ring].
  - symmetry. apply Z.mod_unique with 0; [left; nia|ring].
Qed.

Lemma is_nan_eq F x : isbits F x -> is_nan F x = isnan F x.
Proof.
  intros H. unfold is_nan, isnan. rewrite abs_bits by assumption. rewrite EXP_MASK_eq.
  pose proof (fields_range F x). pose proof (pow_mw_ge F). pose proof (bias_facts F).
  destruct (Z.eqb_spec (expf F x) (2 ^ ew F - 1)) as [E|E]; cbn [andb].
  - rewrite E. destruct (Z.eqb_spec (sigf F x) 0) as [E2|E2].
    + rewrite E2. apply Z.ltb_ge. lia.
    + apply Z.ltb_lt. lia.
  - apply Z.ltb_ge. nia.
Qed.

Lemma is_infinite_eq F x : isbits F x -> is_infinite F x = isinf F x.
Proof.
  intros H. unfold is_infinite, isinf. rewrite abs_bits by assumption. rewrite EXP_MASK_eq.
  pose proof (fields_range F x). pose proof (pow_mw_ge F). pose proof (bias_facts F).
  destruct (Z.eqb_spec (expf F x) (2 ^ ew F - 1)) as [E|E]; cbn [andb].
  - rewrite E. destruct (Z.eqb_spec (sigf F x) 0) as [E2|E2].
    + rewrite E2. apply Z.eqb_eq. lia.
    + apply Z.eqb_neq. lia.
  - apply Z.eqb_neq. nia.
Qed.

Lemma from_parts_ok F s e m : 0 <= e < 2 ^ ew F -> 0 <= m < 2 ^ mw F ->
  from_parts F s e m = Some (mkbits F s e m).
Proof.
  intros He Hm. pose proof (fmt_facts F) as HF.
  unfold from_parts, SIG_BITS. pose proof (bias_facts F). pose proof (pow_mw_ge F).
  assert (HB : 2 ^ BITS F = 2 * (2 ^ mw F * 2 ^ ew F)) by (unfold BITS; apply pow_width).
  rewrite ushl_ok by (rewrite BITS_eq; lia). cbn [bind].
  rewrite EXP_SAT_eq, land_pow2m1 by lia. rewrite (Z.mod_small e) by lia.
  rewrite ucast_ok by nia. cbn [bind].
  rewrite ushl_ok by (rewrite BITS_eq; lia). cbn [bind].
  rewrite SIG_MASK_eq, land_pow2m1 by lia. rewrite (Z.mod_small m) by lia.
  rewrite (Z.mod_small (e * _)) by nia.
  unfold BITS at 1. rewrite pow_width1.
  rewrite (Z.mod_small ((if s then 1 else 0) * _)) by (destruct s; nia).
  rewrite <- pow_mwew.
  rewrite (lor_disjoint _ (e * 2 ^ mw F)) by (rewrite ?pow_mwew; nia).
  replace ((if s then 1 else 0) * 2 ^ (mw F + ew F) + e * 2 ^ mw F)
    with (((if s then 1 else 0) * 2 ^ ew F + e) * 2 ^ mw F) by (rewrite pow_mwew; ring).
  rewrite lor_disjoint by lia.
  unfold mkbits. rewrite pow_mwew. f_equal. destruct s; ring.
Qed.

(** ** Values *)
Lemma sval_neg s r : sval (negb s) r = (- sval s r)%R.
Proof. destruct s; simpl; ring. Qed.
Lemma sval_abs s r : (0 <= r)%R -> Rabs (sval s r) = r.
Proof.
  intros H; destruct s; simpl; rewrite ?Rabs_Ropp; now apply Rabs_pos_eq.
Qed.

Lemma mag_of_nonneg F e m : 0 <= m -> (0 <= mag_of F e m)%R.
Proof.
  intros Hm. unfold mag_of. pose proof (pow_mw_ge F).
  destruct (e =? 0); apply Rmult_le_pos; try apply bpow_ge_0; apply IZR_le; lia.
Qed.

Lemma val_mkbits F s e m : 0 <= e < 2 ^ ew F -> 0 <= m < 2 ^ mw F ->
  val F (mkbits F s e m) = sval s (mag_of F e m).
Proof.
  intros He Hm. unfold val. destruct (mkbits_fields F s e m He Hm) as (-> & -> & ->). reflexivity.
Qed.

Lemma val_zero F s : val F (zero F s) = 0%R.
Proof.
  pose proof (bias_facts F). pose proof (pow_mw_ge F).
  unfold zero. rewrite val_mkbits by lia. unfold mag_of; simpl. rewrite Rmult_0_l. destruct s; simpl; lra.
Qed.

Lemma finite_iff F x : finite F x = true <-> expf F x < 2 ^ ew F - 1.
Proof. unfold finite. apply Z.ltb_lt. Qed.

Lemma class_cases F x :
  (finite F x = true /\ isinf F x = false /\ isnan F x = false) \/
  (finite F x = false /\ isinf F x = true /\ isnan F x = false) \/
  (finite F x = false /\ isinf F x = false /\ isnan F x = true).
Proof.
  unfold finite, isinf, isnan. pose proof (fields_range F x).
  destruct (Z.eqb_spec (expf F x) (2 ^ ew F - 1)) as [E|E]; cbn [andb].
  - rewrite E. rewrite Z.ltb_irrefl. destruct (sigf F x =? 0); cbn [negb]; tauto.
  - rewrite (proj2 (Z.ltb_lt _ _)) by lia. tauto.
Qed.

Lemma finite_not_nan F x : finite F x = true -> isnan F x = false.
Proof. destruct (class_cases F x) as [H|[H|H]]; intuition congruence. Qed.
Lemma finite_not_inf F x : finite F x = true -> isinf F x = false.
Proof. destruct (class_cases F x) as [H|[H|H]]; intuition congruence. Qed.

Lemma isinf_eq F x : isbits F x -> isinf F x = true -> x = infinity F (signbit F x).
Proof.
  intros Hx H. unfold isinf in H. rewrite andb_true_iff, !Z.eqb_eq in H.
  rewrite (fields_split F x Hx) at 1. unfold infinity. destruct H as [-> ->]. reflexivity.
Qed.

Lemma infinity_fields F s : isbits F (infinity F s) /\ isinf F (infinity F s) = true /\
  signbit F (infinity F s) = s /\ finite F (infinity F s) = false /\ isnan F (infinity F s) = false.
Proof.
  pose proof (bias_facts F). pose proof (pow_mw_ge F).
  assert (isinf F (infinity F s) = true).
  { unfold isinf, infinity. destruct (mkbits_fields F s (2 ^ ew F - 1) 0) as (_ & -> & ->); try lia. }
  split; [apply mkbits_range; lia|]. split; [assumption|].
  split; [apply mkbits_fields; lia|].
  destruct (class_cases F (infinity F s)) as [K|[K|K]]; intuition congruence.
Qed.

Lemma zero_fields F s : isbits F (zero F s) /\ iszero F (zero F s) = true /\
  signbit F (zero F s) = s /\ finite F (zero F s) = true.
Proof.
  pose proof (bias_facts F). pose proof (pow_mw_ge F).
  destruct (mkbits_fields F s 0 0) as (E1 & E2 & E3); try lia.
  split; [apply mkbits_range; lia|]. unfold iszero, finite, zero.
  rewrite E1, E2, E3. repeat split; try reflexivity. apply Z.ltb_lt; lia.
Qed.

Lemma iszero_eq F x : isbits F x -> iszero F x = true -> x = zero F (signbit F x).
Proof.
  intros Hx H. unfold iszero in H. rewrite andb_true_iff, !Z.eqb_eq in H.
  rewrite (fields_split F x Hx) at 1. unfold zero. destruct H as [-> ->]. reflexivity.
Qed.

Lemma val_eq_0 F x : isbits F x -> finite F x = true -> (val F x = 0)%R -> iszero F x = true.
Proof.
  intros Hx Hf H. unfold val in H.
  pose proof (fields_range F x) as Hr. pose proof (pow_mw_ge F) as Hge.
  assert (H0 : mag_of F (expf F x) (sigf F x) = 0%R) by (destruct (signbit F x); simpl in H; lra).
  unfold mag_of in H0. unfold iszero.
  destruct (Z.eqb_spec (expf F x) 0) as [E|E]; cbn [andb].
  - apply Rmult_integral in H0. destruct H0 as [H0|H0].
    + apply eq_IZR in H0. now apply Z.eqb_eq.
    + pose proof (bpow_gt_0 radix2 (1 - bias F - mw F)). lra.
  - apply Rmult_integral in H0. destruct H0 as [H0|H0].
    + apply eq_IZR in H0. lia.
    + pose proof (bpow_gt_0 radix2 (expf F x - bias F - mw F)). lra.
Qed.
