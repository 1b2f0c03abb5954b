(** The [Float] trait: decomposition, predicates, constants, normalize. *)
From Coq Require Import ZArith Reals Lia Lra Bool.
From Flocq Require Import Core.
From Verif Require Import Base Spec SpecFun Format P_format Ieee P_ieee P_real M_basic P_round P_round2 P_minmax
  P_key P_bits.
Open Scope Z_scope.

Lemma from_parts_any F s e m : 0 <= e < 2 ^ 32 -> 0 <= m < 2 ^ width F ->
  from_parts F s e m = Some (mkbits F s (e mod 2 ^ ew F) (m mod 2 ^ mw F)).
Proof.
  intros He Hm. pose proof (fmt_facts F) as HF. pose proof (bias_facts F). pose proof (pow_mw_ge F).
  assert (E : from_parts F s e m = from_parts F s (e mod 2 ^ ew F) (m mod 2 ^ mw F)).
  { unfold from_parts. rewrite EXP_SAT_eq, SIG_MASK_eq, !land_pow2m1 by lia.
    rewrite !Z.mod_mod by lia. reflexivity. }
  rewrite E. apply from_parts_ok; apply Z.mod_pos_bound; lia.
Qed.
Lemma from_parts_back F x : isbits F x ->
  exists e, ex F x = Some e /\ from_parts F (is_sign_negative F x) e (frac F x) = Some x.
Proof.
  intros Hx. exists (expf F x). split; [now apply ex_ok|].
  rewrite is_sign_negative_eq, frac_eq by assumption. pose proof (fields_range F x).
  rewrite from_parts_ok by lia. f_equal. symmetry. now apply fields_split.
Qed.
Lemma land_exp F x : isbits F x -> Z.land x (EXP_MASK F) = expf F x * 2 ^ mw F.
Proof.
  intros H. pose proof (fmt_facts F) as HF. pose proof (bias_facts F). pose proof (pow_mw_ge F).
  rewrite EXP_MASK_eq. rewrite <- !Z.shiftl_mul_pow2 by lia.
  apply Z.bits_inj'; intros i Hi. rewrite Z.land_spec.
  rewrite !Z.shiftl_spec by lia.
  destruct (Z.ltb_spec i (mw F)) as [L|L].
  - rewrite !(Z.testbit_neg_r _ (i - mw F)) by lia. apply andb_false_r.
  - unfold expf. rewrite <- Z.land_ones, Z.land_spec by lia. rewrite Z.ones_equiv.
    replace (Z.pred (2 ^ ew F)) with (2 ^ ew F - 1) by lia. f_equal.
    rewrite <- Z.shiftr_div_pow2, Z.shiftr_spec by lia. f_equal. lia.
Qed.
Lemma is_subnormal_eq F x : isbits F x -> is_subnormal F x = (expf F x =? 0).
Proof.
  intros H. unfold is_subnormal. rewrite land_exp by assumption. pose proof (pow_mw_ge F).
  pose proof (fields_range F x).
  destruct (Z.eqb_spec (expf F x) 0); [apply Z.eqb_eq|apply Z.eqb_neq]; nia.
Qed.

Lemma normalize_ok F m : 0 < m < 2 ^ mw F ->
  exists e s, normalize F m = Some (e, s) /\ 2 ^ mw F <= s < 2 ^ (mw F + 1) /\
    (IZR s * bpow radix2 (e - bias F - mw F))%R = mag_of F 0 m.
Proof.
  intros Hm. pose proof (fmt_facts F) as HF. pose proof (pow_mw_ge F).
  pose proof (Z.log2_spec m) as HL. set (k := Z.log2 m) in *.
  assert (K0 : 0 <= k) by apply Z.log2_nonneg.
  assert (K1 : k < mw F) by (apply Z.log2_lt_pow2; lia).
  rewrite <- Z.add_1_r in HL.
  unfold normalize. rewrite (lzcnt_spec _ _ k) by lia. rewrite EXP_BITS_eq.
  replace (BITS F - 1 - k) with (ew F + (mw F - k)) by (rewrite BITS_eq; lia).
  unfold wsub. replace (ew F + (mw F - k) - ew F) with (mw F - k) by lia.
  assert (S32 : mw F - k < 2 ^ 31) by (apply Z.le_lt_trans with 128; [lia|reflexivity]).
  rewrite (Z.mod_small (mw F - k)) by lia.
  rewrite to_u_small.
  2:{ split; [lia|]. apply Z.lt_trans with (BITS F); [rewrite BITS_eq; lia|].
      apply Z.pow_gt_lin_r; [lia|rewrite BITS_eq; lia]. }
  rewrite ushl_ok by (rewrite BITS_eq; lia). cbn [bind].
  assert (R : 2 ^ mw F <= m * 2 ^ (mw F - k) < 2 ^ (mw F + 1)).
  { replace (2 ^ mw F) with (2 ^ k * 2 ^ (mw F - k)) by (rewrite <- pow2_split by lia; f_equal; lia).
    replace (2 ^ (mw F + 1)) with (2 ^ (k + 1) * 2 ^ (mw F - k)) by (rewrite <- pow2_split by lia; f_equal; lia).
    pose proof (pow2_pos (mw F - k)). nia. }
  assert (2 ^ (mw F + 1) <= 2 ^ BITS F) by (apply Z.pow_le_mono_r; [lia|rewrite BITS_eq; lia]).
  rewrite (to_i32_small (mw F - k)) by lia.
  rewrite Z.mod_small by lia.
  exists (1 - (mw F - k)), (m * 2 ^ (mw F - k)). split; [|split; [assumption|]].
  - f_equal. f_equal. unfold to_i. change (2 ^ (32 - 1)) with (2 ^ 31).
    destruct (Z.eq_dec (mw F - k) 1) as [->|]; [reflexivity|].
    replace ((1 - (mw F - k)) mod 2 ^ 32) with (1 - (mw F - k) + 2 ^ 32).
    2:{ apply Z.mod_unique with (-1); [left|]; lia. }
    cbv zeta. rewrite (proj2 (Z.ltb_ge _ _)) by lia. lia.
  - unfold mag_of. cbn [Z.eqb]. rewrite mult_IZR, IZR_pow2 by lia. rewrite Rmult_assoc, <- bpow_plus.
    do 2 f_equal. lia.
Qed.

Lemma MAX_eq F : MAX_FLOAT F = mkbits F false (2 ^ ew F - 2) (2 ^ mw F - 1).
Proof.
  pose proof (fmt_facts F) as HF. pose proof (bias_facts F) as HB. pose proof (pow_mw_ge F).
  assert (E : MIN_FLOAT F = mkbits F true (2 ^ ew F - 2) (2 ^ mw F - 1)).
  { unfold MIN_FLOAT, INT_MAX.
    replace (unot (BITS F) (Z.shiftl 1 (SIG_BITS F))) with (Z.ldiff (2 ^ BITS F - 1) (2 ^ mw F)).
    2:{ rewrite <- Z.sub_nocarry_ldiff.
        - unfold unot, SIG_BITS. rewrite Z.shiftl_mul_pow2 by lia. lia.
        - apply Z.bits_inj'; intros i Hi. rewrite Z.ldiff_spec, Z.bits_0.
          rewrite Z.pow2_bits_eqb by lia. destruct (Z.eqb_spec (mw F) i) as [<-|]; [|reflexivity].
          replace (2 ^ BITS F - 1) with (Z.ones (BITS F)) by (rewrite Z.ones_equiv; lia).
          rewrite Z.ones_spec_low by (rewrite BITS_eq; lia). reflexivity. }
    assert (Z.land (2 ^ BITS F - 1) (Z.ldiff (2 ^ BITS F - 1) (2 ^ mw F)) = 2 ^ BITS F - 1 - 2 ^ mw F) as ->.
    { rewrite Z.land_comm. rewrite land_pow2m1 by (rewrite BITS_eq; lia).
      assert (Z.ldiff (2 ^ BITS F - 1) (2 ^ mw F) = 2 ^ BITS F - 1 - 2 ^ mw F) as ->.
      { symmetry. apply Z.sub_nocarry_ldiff.
        apply Z.bits_inj'; intros i Hi. rewrite Z.ldiff_spec, Z.bits_0.
        rewrite Z.pow2_bits_eqb by lia. destruct (Z.eqb_spec (mw F) i) as [<-|]; [|reflexivity].
        replace (2 ^ BITS F - 1) with (Z.ones (BITS F)) by (rewrite Z.ones_equiv; lia).
        rewrite Z.ones_spec_low by (rewrite BITS_eq; lia). reflexivity. }
      assert (2 ^ mw F < 2 ^ BITS F) by (apply Z.pow_lt_mono_r; [lia| |]; rewrite BITS_eq; lia).
      apply Z.mod_small. lia. }
    unfold BITS. rewrite pow_width. unfold mkbits. rewrite pow_mwew. ring. }
  unfold MAX_FLOAT. rewrite E.
  assert (E2 : mkbits F true (2 ^ ew F - 2) (2 ^ mw F - 1)
    = Z.lor (SIGN_MASK F) (mkbits F false (2 ^ ew F - 2) (2 ^ mw F - 1))).
  { rewrite SIGN_MASK_eq, <- pow_mwew. rewrite <- (Z.mul_1_l (2 ^ (mw F + ew F))).
    rewrite lor_disjoint; [unfold mkbits; ring|lia|]. unfold mkbits. rewrite pow_mwew. nia. }
  rewrite E2.
  assert (D : Z.land (SIGN_MASK F) (mkbits F false (2 ^ ew F - 2) (2 ^ mw F - 1)) = 0).
  { rewrite SIGN_MASK_eq, <- pow_mwew. rewrite <- (Z.mul_1_l (2 ^ (mw F + ew F))).
    apply land_disjoint; [lia|]. unfold mkbits. rewrite pow_mwew. nia. }
  rewrite <- Z.lxor_lor by exact D.
  rewrite Z.lxor_comm, <- Z.lxor_assoc, Z.lxor_nilpotent. apply Z.lxor_0_l.
Qed.
Lemma MIN_eq F : MIN_FLOAT F = mkbits F true (2 ^ ew F - 2) (2 ^ mw F - 1).
Proof.
  pose proof (fmt_facts F) as HF. pose proof (bias_facts F) as HB. pose proof (pow_mw_ge F).
  assert (E : MIN_FLOAT F = Z.lxor (MAX_FLOAT F) (SIGN_MASK F)).
  { unfold MAX_FLOAT. rewrite Z.lxor_assoc, Z.lxor_nilpotent, Z.lxor_0_r. reflexivity. }
  rewrite E, MAX_eq.
  assert (D : Z.land (SIGN_MASK F) (mkbits F false (2 ^ ew F - 2) (2 ^ mw F - 1)) = 0).
  { rewrite SIGN_MASK_eq, <- pow_mwew. rewrite <- (Z.mul_1_l (2 ^ (mw F + ew F))).
    apply land_disjoint; [lia|]. unfold mkbits. rewrite pow_mwew. nia. }
  rewrite Z.lxor_comm, Z.lxor_lor by exact D.
  rewrite SIGN_MASK_eq, <- pow_mwew. rewrite <- (Z.mul_1_l (2 ^ (mw F + ew F))).
  rewrite lor_disjoint; [unfold mkbits; ring|lia|]. unfold mkbits. rewrite pow_mwew. nia.
Qed.

Lemma magz_mk F s e m : 0 <= e < 2 ^ ew F -> 0 <= m < 2 ^ mw F -> magz F (mkbits F s e m) = e * 2 ^ mw F + m.
Proof. intros He Hm. unfold magz. destruct (mkbits_fields F s e m He Hm) as (_ & -> & ->). reflexivity. Qed.
Lemma key_mk F s e m : 0 <= e < 2 ^ ew F -> 0 <= m < 2 ^ mw F ->
  key F (mkbits F s e m) = if s then - (e * 2 ^ mw F + m) else e * 2 ^ mw F + m.
Proof.
  intros He Hm. unfold key. rewrite magz_mk by assumption.
  now destruct (mkbits_fields F s e m He Hm) as (-> & _ & _).
Qed.

Lemma MAX_largest F x : finite F x = true ->
  finite F (MAX_FLOAT F) = true /\ finite F (MIN_FLOAT F) = true /\
  (val F (MIN_FLOAT F) <= val F x <= val F (MAX_FLOAT F))%R.
Proof.
  intros Hx. pose proof (bias_facts F). pose proof (pow_mw_ge F).
  rewrite MAX_eq, MIN_eq.
  destruct (mkbits_fields F false (2 ^ ew F - 2) (2 ^ mw F - 1)) as (A1 & A2 & A3); try lia.
  destruct (mkbits_fields F true (2 ^ ew F - 2) (2 ^ mw F - 1)) as (B1 & B2 & B3); try lia.
  split; [apply finite_iff; lia|]. split; [apply finite_iff; lia|].
  apply finite_magz in Hx. pose proof (magz_range F x).
  split; apply Rnot_lt_le; intros C; apply key_val_lt in C; rewrite key_mk in C by lia;
    unfold key in C; destruct (signbit F x); nia.
Qed.

Lemma MPN_eq F : MIN_POSITIVE_NORMAL F = mkbits F false 1 0.
Proof.
  pose proof (fmt_facts F). unfold MIN_POSITIVE_NORMAL, SIG_BITS, mkbits.
  rewrite Z.shiftl_mul_pow2 by lia. lia.
Qed.
Lemma MPN_least F :
  val F (MIN_POSITIVE_NORMAL F) = bpow radix2 (1 - bias F) /\
  (forall x, signbit F x = false -> expf F x <> 0 -> finite F x = true ->
     (val F (MIN_POSITIVE_NORMAL F) <= val F x)%R).
Proof.
  pose proof (bias_facts F). pose proof (pow_mw_ge F). pose proof (fmt_facts F).
  rewrite MPN_eq. split.
  - rewrite val_mkbits by lia. unfold mag_of. cbn [Z.eqb sval].
    rewrite Z.add_0_r, IZR_pow2, <- bpow_plus by lia. f_equal. lia.
  - intros x Hs He Hf. apply Rnot_lt_le; intros C; apply key_val_lt in C. rewrite key_mk in C by lia.
    unfold key, magz in C. rewrite Hs in C. pose proof (fields_range F x). nia.
Qed.
Lemma EPSILON_gap F z : isnan F z = false -> (1 < val F z)%R -> finite F z = true ->
  (1 + val F (EPSILON F) <= val F z)%R.
Proof.
  intros _ H Hf. destruct (EPSILON_fields F) as (B1 & B2 & B3 & B4). rewrite B3.
  pose proof (repr_val F z Hf) as Rz.
  destruct (repr_grid F (val F z) 0 Rz) as (n & Hn).
  { intros _. rewrite Rabs_pos_eq by lra. simpl. lra. }
  rewrite Z.sub_0_l in Hn. rewrite Hn.
  pose proof (fmt_facts F).
  assert (E1 : 1%R = (IZR (2 ^ mw F) * bpow radix2 (- mw F))%R).
  { rewrite IZR_pow2, <- bpow_plus by lia. rewrite Z.add_opp_diag_r. reflexivity. }
  assert (G : (IZR (2 ^ mw F) * bpow radix2 (- mw F) < IZR n * bpow radix2 (- mw F))%R) by (rewrite <- E1, <- Hn; exact H).
  apply mult_lt_gap in G; [|apply bpow_gt_0]. lra.
Qed.

Lemma ONE_spec F : isbits F (ONE F) /\ finite F (ONE F) = true /\ val F (ONE F) = 1%R.
Proof. destruct (ONE_fields F) as (A & B & C & D). auto. Qed.

Lemma signum_ok F x : isbits F x -> isbits F (signum F x) /\
  (isnan F x = true -> signum F x = x) /\
  (isnan F x = false -> finite F (signum F x) = true /\ val F (signum F x) = sval (signbit F x) 1).
Proof.
  intros Hx. unfold signum. rewrite is_nan_eq by assumption.
  destruct (isnan F x) eqn:N; [split; [assumption|split; [auto|discriminate]]|].
  destruct (ONE_fields F) as (A & B & C & D).
  rewrite copysign_eq by assumption.
  destruct (with_sign_fields F (signbit F x) (ONE F)) as (H1 & H2 & _ & _).
  split; [assumption|]. split; [discriminate|]. intros _.
  rewrite with_sign_finite, with_sign_val, C. split; [assumption|]. rewrite Rabs_R1. reflexivity.
Qed.
Lemma eq_repr_ok F x y : isbits F x -> isbits F y ->
  (eq_repr F x y = true <-> x = y \/ (isnan F x = true /\ isnan F y = true)).
Proof.
  intros Hx Hy. unfold eq_repr, biteq. rewrite !is_nan_eq by assumption.
  destruct (isnan F x) eqn:Nx; destruct (isnan F y) eqn:Ny; cbn [andb]; rewrite ?Z.eqb_eq;
    intuition (try congruence).
Qed.
Lemma NAN_isnan F : isbits F (NAN F) /\ isnan F (NAN F) = true.
Proof.
  pose proof (fmt_facts F) as HF. pose proof (bias_facts F). pose proof (pow_mw_ge F).
  assert (P : 0 < 2 ^ (mw F - 1) < 2 ^ mw F).
  { split; [apply pow2_pos; lia|apply Z.pow_lt_mono_r; lia]. }
  assert (E : NAN F = mkbits F false (2 ^ ew F - 1) (2 ^ (mw F - 1))).
  { unfold NAN, SIG_BITS. rewrite EXP_MASK_eq, Z.shiftl_mul_pow2, Z.mul_1_l by lia.
    rewrite lor_disjoint by lia. unfold mkbits. lia. }
  rewrite E. split; [apply mkbits_range; lia|].
  destruct (mkbits_fields F false (2 ^ ew F - 1) (2 ^ (mw F - 1))) as (A1 & A2 & A3); try lia.
  unfold isnan. rewrite A2, A3, Z.eqb_refl. cbn [andb]. apply negb_true_iff, Z.eqb_neq. lia.
Qed.
