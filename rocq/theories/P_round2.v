(** round (ties away) and rint / roundeven (ties to even). *)
From Coq Require Import ZArith Reals Lia Lra Bool.
From Flocq Require Import Core.
From Verif Require Import Base Spec Format P_format Ieee P_ieee P_real SpecFun M_basic P_round.
Open Scope Z_scope.

(** ** fabs, copysign *)
Lemma fabs_eq F x : isbits F x -> fabs F x = with_sign F false x.
Proof. intros H. unfold fabs. rewrite abs_bits by assumption. unfold with_sign, mkbits. lia. Qed.

Lemma copysign_eq F x y : isbits F x -> isbits F y -> copysign F x y = with_sign F (signbit F y) x.
Proof.
  intros Hx Hy. unfold copysign. rewrite abs_bits, land_sign by assumption.
  unfold with_sign, mkbits. rewrite <- pow_mwew.
  pose proof (fields_range F x) as Hr. pose proof (fmt_facts F).
  assert (0 <= expf F x * 2 ^ mw F + sigf F x < 2 ^ (mw F + ew F)) by (rewrite pow_mwew; nia).
  destruct (signbit F y).
  - rewrite Z.lor_comm. rewrite <- (Z.mul_1_l (2 ^ (mw F + ew F))).
    rewrite lor_disjoint by lia. lia.
  - rewrite Z.lor_0_r. lia.
Qed.

Lemma with_sign_fields F s x : isbits F (with_sign F s x) /\ signbit F (with_sign F s x) = s /\
  expf F (with_sign F s x) = expf F x /\ sigf F (with_sign F s x) = sigf F x.
Proof.
  pose proof (fields_range F x). unfold with_sign. split; [apply mkbits_range; lia|].
  apply mkbits_fields; lia.
Qed.
Lemma with_sign_finite F s x : finite F (with_sign F s x) = finite F x.
Proof. unfold finite. now destruct (with_sign_fields F s x) as (_ & _ & -> & _). Qed.
Lemma with_sign_nan F s x : isnan F (with_sign F s x) = isnan F x.
Proof. unfold isnan. now destruct (with_sign_fields F s x) as (_ & _ & -> & ->). Qed.
Lemma with_sign_val F s x : val F (with_sign F s x) = sval s (Rabs (val F x)).
Proof.
  unfold val. destruct (with_sign_fields F s x) as (_ & -> & -> & ->).
  rewrite sval_abs; [reflexivity|]. apply mag_of_nonneg. apply fields_range.
Qed.

(** ** Rounding of reals to integers *)
Lemma ZnearestE_opp r : ZnearestE (- r) = - ZnearestE r.
Proof.
  rewrite Znearest_opp. f_equal. unfold Znearest. destruct (Rcompare _ _); try reflexivity.
  replace (negb (negb (Z.even (- (Zfloor r + 1))))) with (negb (Z.even (Zfloor r))); [reflexivity|].
  rewrite Z.even_opp, Z.even_add. simpl. destruct (Z.even (Zfloor r)); reflexivity.
Qed.
Lemma ZnearestA_opp r : ZnearestA (- r) = - ZnearestA r.
Proof.
  unfold ZnearestA. rewrite Znearest_opp. f_equal. unfold Znearest. destruct (Rcompare _ _); try reflexivity.
  replace (negb (0 <=? - (Zfloor r + 1))) with (0 <=? Zfloor r); [reflexivity|].
  destruct (Z.leb_spec 0 (Zfloor r)); destruct (Z.leb_spec 0 (- (Zfloor r + 1))); try reflexivity; lia.
Qed.
Lemma ZnearestA_sval s r : ZnearestA (sval s r) = sgz s (ZnearestA r).
Proof. destruct s; simpl; [apply ZnearestA_opp|reflexivity]. Qed.
Lemma ZnearestE_sval s r : ZnearestE (sval s r) = sgz s (ZnearestE r).
Proof. destruct s; simpl; [apply ZnearestE_opp|reflexivity]. Qed.
Lemma Ztrunc_sval s r : Ztrunc (sval s r) = sgz s (Ztrunc r).
Proof. destruct s; simpl; [apply Ztrunc_opp|reflexivity]. Qed.

(** For nonnegative reals ties-away is the floor of [r + 1/2]. *)
Lemma ZnearestA_floor r : (0 <= r)%R -> ZnearestA r = Zfloor (r + 1 / 2).
Proof.
  intros Hr. unfold ZnearestA, Znearest.
  pose proof (Zfloor_lb r). pose proof (Zfloor_ub r).
  assert (0 <= Zfloor r) by (apply Zfloor_lub; simpl; lra).
  symmetry.
  destruct (Rcompare_spec (r - IZR (Zfloor r)) (/ 2)) as [L|E|G].
  - apply Zfloor_imp. rewrite plus_IZR. lra.
  - rewrite (proj2 (Z.leb_le _ _)) by lia.
    rewrite (Zceil_floor_neq r) by lra.
    apply Zfloor_imp. rewrite !plus_IZR. lra.
  - rewrite (Zceil_floor_neq r) by lra.
    apply Zfloor_imp. rewrite !plus_IZR. lra.
Qed.

Lemma ZnearestE_shift r n : Z.even n = true -> ZnearestE (r + IZR n) = ZnearestE r + n.
Proof.
  intros Hn. unfold Znearest.
  assert (Ef : Zfloor (r + IZR n) = Zfloor r + n).
  { apply Zfloor_imp. pose proof (Zfloor_lb r). pose proof (Zfloor_ub r). rewrite !plus_IZR. lra. }
  assert (Ec : Zceil (r + IZR n) = Zceil r + n).
  { apply Zceil_imp. pose proof (Zceil_ub r). pose proof (Zceil_lb r).
    rewrite !minus_IZR, !plus_IZR. lra. }
  rewrite Ef, Ec, plus_IZR.
  replace (r + IZR n - (IZR (Zfloor r) + IZR n))%R with (r - IZR (Zfloor r))%R by ring.
  rewrite Z.even_add, Hn. destruct (Rcompare _ _); destruct (Z.even (Zfloor r)); simpl; lia.
Qed.

(** ** rint *)
Lemma EPSILON_fields F : isbits F (EPSILON F) /\ finite F (EPSILON F) = true /\
  val F (EPSILON F) = bpow radix2 (- mw F) /\ signbit F (EPSILON F) = false.
Proof.
  pose proof (bias_facts F). pose proof (pow_mw_ge F). pose proof (fmt_facts F).
  assert (E : EPSILON F = mkbits F false (bias F - mw F) 0).
  { unfold EPSILON, SIG_BITS, mkbits. rewrite EXP_BIAS_eq, Z.shiftl_mul_pow2 by lia. lia. }
  rewrite E. destruct (mkbits_fields F false (bias F - mw F) 0) as (E1 & E2 & E3); try lia.
  split; [apply mkbits_range; lia|]. split; [unfold finite; rewrite E2; apply Z.ltb_lt; lia|].
  split; [|tauto]. rewrite val_mkbits by lia. unfold mag_of.
  rewrite (proj2 (Z.eqb_neq (bias F - mw F) 0)) by lia. simpl sval.
  rewrite Z.add_0_r. rewrite IZR_pow2, <- bpow_plus by lia. f_equal; lia.
Qed.

Lemma pow_lt_max F e : e <= bias F -> (bpow radix2 e < bpow radix2 (bias F + 1))%R.
Proof. intros. apply bpow_lt. lia. Qed.

Lemma toint_ok F : let t := fdiv F (ONE F) (EPSILON F) in
  isbits F t /\ finite F t = true /\ val F t = bpow radix2 (mw F) /\ signbit F t = false.
Proof.
  cbv zeta. destruct (ONE_fields F) as (A1 & A2 & A3 & A4).
  destruct (EPSILON_fields F) as (B1 & B2 & B3 & B4).
  pose proof (bias_facts F). pose proof (fmt_facts F).
  assert (N0 : val F (EPSILON F) <> 0%R) by (rewrite B3; apply Rgt_not_eq, bpow_gt_0).
  pose proof (fdiv_spec F _ _ A2 B2 N0) as D.
  assert (EV : (val F (ONE F) / val F (EPSILON F) = bpow radix2 (mw F))%R).
  { rewrite A3, B3. rewrite bpow_opp. field. apply Rgt_not_eq, bpow_gt_0. }
  rewrite EV in D. split; [apply fdiv_isbits|].
  destruct (rounds_to_exact F _ _ _ D) as (C1 & C2 & C3).
  - apply repr_rnd. apply repr_bpow. unfold emin. lia.
  - rewrite Rabs_pos_eq by apply bpow_ge_0. apply pow_lt_max. lia.
  - split; [assumption|]. split; [assumption|]. rewrite C3.
    rewrite Rcompare_Gt by apply bpow_gt_0. reflexivity.
Qed.

Lemma mag_lt_binade F x : expf F x < bias F + mw F -> (Rabs (val F x) < bpow radix2 (mw F))%R.
Proof.
  intros He. pose proof (bias_facts F). pose proof (fmt_facts F). pose proof (fields_range F x) as Hr.
  unfold val. rewrite sval_abs by (apply mag_of_nonneg; lia). unfold mag_of.
  assert (Q : forall n e, 0 <= n < 2 ^ (mw F + 1) -> e + mw F + 1 <= mw F ->
     (IZR n * bpow radix2 e < bpow radix2 (mw F))%R).
  { intros n e Hn Hee.
    apply Rlt_le_trans with (IZR (2 ^ (mw F + 1)) * bpow radix2 e)%R.
    - apply Rmult_lt_compat_r; [apply bpow_gt_0|apply IZR_lt; lia].
    - rewrite IZR_pow2 by lia. rewrite <- bpow_plus. apply bpow_le. lia. }
  assert (E2 : 2 ^ (mw F + 1) = 2 * 2 ^ mw F) by (rewrite Z.add_1_r, Z.pow_succ_r; lia).
  destruct (Z.eqb_spec (expf F x) 0); apply Q; lia.
Qed.

Lemma ZnearestE_le_bound r n : (Rabs r <= IZR n)%R -> Z.abs (ZnearestE r) <= n.
Proof.
  intros H. apply Rabs_le_inv in H.
  assert (ZnearestE r <= n).
  { apply Z.le_trans with (ZnearestE (IZR n)); [apply (Zrnd_le ZnearestE); lra|].
    rewrite (Zrnd_IZR ZnearestE). lia. }
  assert (- n <= ZnearestE r).
  { apply Z.le_trans with (ZnearestE (IZR (- n))); [|apply (Zrnd_le ZnearestE); rewrite opp_IZR; lra].
    rewrite (Zrnd_IZR ZnearestE). lia. }
  lia.
Qed.

(** Adding and subtracting [2^mw] rounds to the integer. *)
Lemma rint_real F v : (0 <= v < bpow radix2 (mw F))%R ->
  rnd F (v + bpow radix2 (mw F)) = IZR (ZnearestE v + 2 ^ mw F).
Proof.
  intros Hv. pose proof (fmt_facts F). pose proof (bias_facts F).
  rewrite (rnd_scaled F _ 0).
  - simpl bpow. rewrite !Rmult_1_r. rewrite <- IZR_pow2 by lia. rewrite ZnearestE_shift; [reflexivity|].
    rewrite Z.even_pow by lia. reflexivity.
  - rewrite Rabs_pos_eq by (pose proof (bpow_ge_0 radix2 (mw F)); lra).
    replace (0 + mw F + 1) with (mw F + 1) by lia. rewrite Z.add_0_l.
    rewrite bpow_succ2. lra.
  - unfold emin. lia.
Qed.

Lemma rint_ok F x : isbits F x -> exists r, rint_round F x = Some (r, ST_OK) /\ rounded_by F ZnearestE x r.
Proof.
  intros Hx. pose proof (bias_facts F) as HB. pose proof (fmt_facts F) as HF.
  pose proof (fields_range F x) as Hr.
  unfold rint_round. rewrite ex_ok by assumption. cbn [bind].
  rewrite EXP_BIAS_eq. unfold SIG_BITS. rewrite uadd_ok by (change (2 ^ 32) with (2 ^ 18 * 2 ^ 14); lia). cbn [bind].
  destruct (Z.leb_spec (bias F + mw F) (expf F x)) as [Hbig|Hsm].
  { eexists. split; [reflexivity|]. apply rounded_same; [assumption|].
    intros Hf. rewrite (zone_big F x Hf) by lia. now rewrite (Zrnd_IZR ZnearestE). }
  assert (Hfx : finite F x = true) by (apply finite_iff; lia).
  destruct (toint_ok F) as (T1 & T2 & T3 & T4). set (t := fdiv F (ONE F) (EPSILON F)) in *.
  rewrite is_sign_positive_eq by assumption.
  pose proof (mag_lt_binade F x Hsm) as Hb.
  set (v := Rabs (val F x)) in *. assert (Hv0 : (0 <= v)%R) by apply Rabs_pos.
  assert (Vx : val F x = sval (signbit F x) v).
  { unfold v. rewrite <- with_sign_val. unfold with_sign. now rewrite <- fields_split. }
  set (n := ZnearestE v).
  assert (Hn0 : 0 <= n).
  { unfold n. apply Z.le_trans with (ZnearestE (IZR 0)); [|apply (Zrnd_le ZnearestE); simpl; lra].
    rewrite (Zrnd_IZR ZnearestE). lia. }
  assert (Hn1 : n <= 2 ^ mw F).
  { pose proof (ZnearestE_le_bound v (2 ^ mw F)) as K. rewrite IZR_pow2 in K by lia.
    rewrite (Rabs_pos_eq v) in K by lra. specialize (K (Rlt_le _ _ Hb)). fold n in K. lia. }
  assert (P2 : 2 ^ (mw F + 1) = 2 * 2 ^ mw F) by (rewrite Z.add_1_r, Z.pow_succ_r; lia).
  assert (Bt : (bpow radix2 (mw F) < bpow radix2 (bias F + 1))%R) by (apply bpow_lt; lia).
  assert (Bt1 : (bpow radix2 (mw F + 1) < bpow radix2 (bias F + 1))%R) by (apply bpow_lt; lia).
  assert (Rn1 : repr F (bpow radix2 (mw F + 1))) by (apply repr_bpow; unfold emin; lia).
  assert (Rn : repr F (IZR n)) by (apply repr_IZR; lia).
  assert (Hnb : (Rabs (IZR n) <= bpow radix2 (mw F))%R).
  { rewrite Rabs_pos_eq by (apply IZR_le; lia). rewrite <- IZR_pow2 by lia. apply IZR_le; lia. }
  set (y := if negb (signbit F x) then fsub F (fadd F x t) t else fadd F (fsub F x t) t).
  assert (Hy : isbits F y /\ finite F y = true /\ val F y = sval (signbit F x) (IZR n) /\
               (n <> 0 -> signbit F y = signbit F x)).
  { assert (Sum : forall a, rounds_to F (sval (signbit F x) (v + bpow radix2 (mw F))) false a \/
                            rounds_to F (sval (signbit F x) (v + bpow radix2 (mw F))) true a ->
        finite F a = true /\ val F a = sval (signbit F x) (IZR (n + 2 ^ mw F))).
    { intros a Ha. assert (K : finite F a = true /\ val F a = rnd F (sval (signbit F x) (v + bpow radix2 (mw F)))).
      { assert (L : (Rabs (sval (signbit F x) (v + bpow radix2 (mw F))) <= bpow radix2 (mw F + 1))%R).
        { rewrite sval_abs by lra. rewrite bpow_succ2. lra. }
        destruct Ha as [Ha|Ha]; destruct (rounds_to_bounded F _ _ _ _ Ha Rn1 (conj L Bt1)) as (_ & K1 & K2 & _); auto. }
      destruct K as [K1 K2]. split; [assumption|]. rewrite K2, rnd_sval. f_equal. apply rint_real. lra. }
    unfold y. destruct (signbit F x) eqn:Es; cbn [negb].
    - pose proof (fsub_spec F x t Hfx T2) as D1. rewrite Es, T4, T3, Vx in D1. simpl in D1.
      replace (- v - bpow radix2 (mw F))%R with (- (v + bpow radix2 (mw F)))%R in D1 by ring.
      destruct (Sum (fsub F x t)) as [S1 S2]; [simpl; auto|]. simpl in S2.
      pose proof (fadd_spec F (fsub F x t) t S1 T2) as D2.
      rewrite S2, T3 in D2. rewrite plus_IZR, IZR_pow2 in D2 by lia.
      replace (- (IZR n + bpow radix2 (mw F)) + bpow radix2 (mw F))%R with (- IZR n)%R in D2 by ring.
      destruct (rounds_to_exact F _ _ _ D2) as (C1 & C2 & C3).
      + apply repr_rnd. now apply repr_opp.
      + rewrite Rabs_Ropp. lra.
      + split; [apply fadd_isbits|]. split; [assumption|]. split; [assumption|].
        intros Hn. rewrite C3. rewrite Rcompare_Lt; [reflexivity|].
        assert (0 < IZR n)%R by (apply IZR_lt; lia). lra.
    - pose proof (fadd_spec F x t Hfx T2) as D1. rewrite Es, T4, T3, Vx in D1. simpl in D1.
      destruct (Sum (fadd F x t)) as [S1 S2]; [simpl; auto|]. simpl in S2.
      pose proof (fsub_spec F (fadd F x t) t S1 T2) as D2.
      rewrite S2, T3 in D2. rewrite plus_IZR, IZR_pow2 in D2 by lia.
      replace (IZR n + bpow radix2 (mw F) - bpow radix2 (mw F))%R with (IZR n)%R in D2 by ring.
      destruct (rounds_to_exact F _ _ _ D2) as (C1 & C2 & C3).
      + now apply repr_rnd.
      + lra.
      + split; [apply fsub_isbits|]. split; [assumption|]. split; [assumption|].
        intros Hn. rewrite C3. rewrite Rcompare_Gt; [reflexivity|].
        apply IZR_lt; lia. }
  destruct Hy as (Y1 & Y2 & Y3 & Y4).
  destruct (zero_fields F false) as (Z1 & Z2 & Z3 & Z4).
  assert (EF : feq F y ZERO = (n =? 0)).
  { unfold feq. rewrite (ZERO_eq F). rewrite fcmp_finite by assumption. rewrite Y3, val_zero.
    destruct (Z.eqb_spec n 0) as [E|E].
    - rewrite E. rewrite Rcompare_Eq; [reflexivity|]. destruct (signbit F x); simpl; lra.
    - assert (0 < IZR n)%R by (apply IZR_lt; lia).
      destruct (signbit F x); simpl; [rewrite Rcompare_Lt by lra|rewrite Rcompare_Gt by lra]; reflexivity. }
  eexists. split; [reflexivity|]. fold y. rewrite EF.
  assert (EN : ZnearestE (val F x) = sgz (signbit F x) n).
  { rewrite Vx, ZnearestE_sval. reflexivity. }
  destruct (Z.eqb_spec n 0) as [E|E].
  - assert (K : (if negb (signbit F x) then ZERO else NEG_ZERO F) = zero F (signbit F x)).
    { destruct (signbit F x); simpl; [apply NEG_ZERO_eq|apply ZERO_eq]. }
    rewrite K. destruct (zero_fields F (signbit F x)) as (W1 & W2 & W3 & W4).
    split; [exact W1|]. split; [|congruence]. intros _. rewrite W3, val_zero, EN, E.
    destruct (signbit F x); auto.
  - split; [exact Y1|]. split; [|congruence]. intros _. rewrite Y3, Y4, EN, <- sval_IZR by assumption. auto.
Qed.

(** ** round *)
Definition halfm (F : fmt) : R := (1 / 2 - bpow radix2 (- mw F - 2))%R.

Lemma repr_sub_ulp F n j : 0 <= j <= mw F -> 2 ^ j < n <= 2 ^ (j + 1) ->
  repr F (IZR n - bpow radix2 (j - mw F)).
Proof.
  intros Hj Hn. pose proof (fmt_facts F). pose proof (bias_facts F).
  replace (IZR n - bpow radix2 (j - mw F))%R with (IZR (n * 2 ^ (mw F - j) - 1) * bpow radix2 (j - mw F))%R.
  - apply repr_int; [|unfold emin; lia].
    assert (E : 2 ^ (mw F + 1) = 2 ^ (j + 1) * 2 ^ (mw F - j)).
    { rewrite <- pow2_split by lia. f_equal; lia. }
    pose proof (pow2_pos (mw F - j)). pose proof (pow2_pos j). nia.
  - rewrite minus_IZR, mult_IZR, IZR_pow2 by lia.
    rewrite Rmult_minus_distr_r, Rmult_assoc, <- bpow_plus.
    replace (mw F - j + (j - mw F)) with 0 by lia. simpl bpow at 1. ring.
Qed.

Lemma round_real F v : repr F v -> (0 <= v < bpow radix2 (mw F))%R ->
  let n := Zfloor (v + 1 / 2) in
  (IZR n <= rnd F (v + halfm F) < IZR (n + 1))%R /\ 0 <= n <= 2 ^ mw F.
Proof.
  intros Rv Hv n. pose proof (fmt_facts F) as HF. pose proof (bias_facts F) as HB.
  assert (Hd : (0 < bpow radix2 (- mw F - 2))%R) by apply bpow_gt_0.
  assert (Hdle : (bpow radix2 (- mw F - 2) <= 1 / 16)%R).
  { apply Rle_trans with (bpow radix2 (-4)); [apply bpow_le; lia|]. simpl; lra. }
  assert (D1 : bpow radix2 (- mw F - 1) = (2 * bpow radix2 (- mw F - 2))%R).
  { rewrite (bpow_double (- mw F - 1)). do 2 f_equal. lia. }
  assert (D0 : bpow radix2 (- mw F) = (2 * bpow radix2 (- mw F - 1))%R) by apply bpow_double.
  pose proof (Zfloor_lb (v + 1 / 2)) as Lb. pose proof (Zfloor_ub (v + 1 / 2)) as Ub. fold n in Lb, Ub.
  assert (Hn0 : 0 <= n) by (apply Zfloor_lub; simpl; lra).
  assert (Hn1 : n <= 2 ^ mw F).
  { assert (K : (IZR n < IZR (2 ^ mw F + 1))%R).
    { rewrite plus_IZR, IZR_pow2 by lia. lra. }
    apply lt_IZR in K. lia. }
  split; [|lia]. rewrite plus_IZR. unfold halfm.
  assert (P2 : 2 ^ (mw F + 1) = 2 * 2 ^ mw F) by (rewrite Z.add_1_r, Z.pow_succ_r; lia).
  assert (Rn : forall i, 0 <= i <= 2 ^ mw F + 1 -> repr F (IZR i)).
  { intros i Hi. apply repr_IZR. pose proof (pow_mw_ge F). lia. }
  (* grid: v is a multiple of 2^(j-mw) when v >= 2^j *)
  assert (Lower : (IZR n <= rnd F (v + (1 / 2 - bpow radix2 (- mw F - 2))))%R).
  { destruct (Z.eq_dec n 0) as [E0|E0].
    { rewrite E0. apply rnd_nonneg. lra. }
    apply Rle_trans with (rnd F (IZR n - bpow radix2 (- mw F - 2))); [|apply rnd_le; lra].
    destruct (Z.eq_dec n 1) as [E1|E1].
    - rewrite E1. simpl (IZR 1).
      rewrite (rnd_scaled F _ (- mw F - 1)).
      + assert (E : ((1 - bpow radix2 (- mw F - 2)) * bpow radix2 (- (- mw F - 1)) = IZR (2 ^ (mw F + 1)) - / 2)%R).
        { rewrite IZR_pow2 by lia. rewrite Rmult_minus_distr_r, <- bpow_plus.
          replace (- (- mw F - 1)) with (mw F + 1) by lia.
          replace (- mw F - 2 + (mw F + 1)) with (-1) by lia. rewrite bpow2_m1. lra. }
        rewrite E.
        assert (EZ : ZnearestE (IZR (2 ^ (mw F + 1)) - / 2) = 2 ^ (mw F + 1)).
        { assert (Ef : Zfloor (IZR (2 ^ (mw F + 1)) - / 2) = 2 ^ (mw F + 1) - 1).
          { apply Zfloor_imp. replace (2 ^ (mw F + 1) - 1 + 1) with (2 ^ (mw F + 1)) by lia.
            rewrite minus_IZR. lra. }
          unfold Znearest. rewrite Ef. rewrite Rcompare_Eq by (rewrite minus_IZR; lra).
          rewrite P2. rewrite Z.even_sub, Z.even_mul. simpl.
          apply Zceil_imp. rewrite minus_IZR. lra. }
        rewrite EZ, IZR_pow2, <- bpow_plus by lia. replace (mw F + 1 + (- mw F - 1)) with 0 by lia. simpl; lra.
      + rewrite Rabs_pos_eq by lra. replace (- mw F - 1 + mw F + 1) with 0 by lia.
        replace (- mw F - 1 + mw F) with (-1) by lia. rewrite bpow2_m1. simpl. lra.
      + unfold emin. lia.
    - assert (Hn2 : 2 <= n) by lia.
      set (w := (IZR n - bpow radix2 (- mw F - 2))%R).
      assert (N2 : (2 <= IZR n)%R) by (apply IZR_le; lia).
      destruct (Rle_lt_dec (IZR n) (rnd F w)) as [G|G]; [exact G|exfalso].
      assert (G1 : (1 <= rnd F w)%R).
      { rewrite <- (repr_rnd F 1). - apply rnd_le. unfold w. lra.
        - change 1%R with (IZR 1). apply Rn. lia. }
      assert (G2 : (IZR n - 2 * bpow radix2 (- mw F - 2) <= rnd F w)%R).
      { pose proof (rnd_nearest F w (IZR n) (Rn n ltac:(lia))) as NN.
        replace (IZR n - w)%R with (bpow radix2 (- mw F - 2)) in NN by (unfold w; ring).
        rewrite (Rabs_pos_eq (bpow _ _)) in NN by lra.
        apply Rabs_le_inv in NN. unfold w in NN |- *. lra. }
      destruct (repr_grid F (rnd F w) 0 (rnd_repr F w)) as (a & Ea).
      { intros _. simpl. rewrite Rabs_pos_eq by lra. lra. }
      rewrite Z.sub_0_l in Ea.
      assert (En : IZR n = (IZR (n * 2 ^ mw F) * bpow radix2 (- mw F))%R).
      { rewrite mult_IZR, IZR_pow2, Rmult_assoc, <- bpow_plus by lia.
        replace (mw F + - mw F) with 0 by lia. simpl; ring. }
      assert (L : (IZR a * bpow radix2 (- mw F) < IZR (n * 2 ^ mw F) * bpow radix2 (- mw F))%R).
      { rewrite <- Ea, <- En. exact G. }
      apply mult_lt_gap in L; [|apply bpow_gt_0]. rewrite <- Ea, <- En in L. lra. }
  split; [exact Lower|].
  destruct (Z.eq_dec n 0) as [E0|E0].
  - (* v < 1/2 *)
    rewrite E0 in *. simpl in Ub.
    assert (Vle : (v <= 1 / 2 - bpow radix2 (- mw F - 2))%R).
    { destruct (Rle_lt_dec v (1 / 2 - bpow radix2 (- mw F - 2))) as [G|G]; [exact G|exfalso].
      destruct (repr_grid F v (-2) Rv) as (a & Ea).
      { intros _. rewrite Rabs_pos_eq by lra. replace (bpow radix2 (-2)) with (1/4)%R; [lra|].
        simpl; unfold Z.pow_pos; simpl; lra. }
      replace (-2 - mw F) with (- mw F - 2) in Ea by lia.
      assert (Eh : (1 / 2 = IZR (2 ^ (mw F + 1)) * bpow radix2 (- mw F - 2))%R).
      { rewrite IZR_pow2, <- bpow_plus by lia. replace (mw F + 1 + (- mw F - 2)) with (-1) by lia.
        now rewrite bpow2_m1. }
      assert (L : (IZR a * bpow radix2 (- mw F - 2) < IZR (2 ^ (mw F + 1)) * bpow radix2 (- mw F - 2))%R).
      { rewrite <- Ea, <- Eh. lra. }
      apply mult_lt_gap in L; [|exact Hd]. rewrite <- Ea, <- Eh in L. lra. }
    apply Rle_lt_trans with (1 - bpow radix2 (- mw F - 1))%R; [|simpl; lra].
    assert (R1 : repr F (1 - bpow radix2 (- mw F - 1))).
    { replace (1 - bpow radix2 (- mw F - 1))%R with (IZR (2 ^ (mw F + 1) - 1) * bpow radix2 (- mw F - 1))%R.
      - apply repr_int; [|unfold emin; lia]. pose proof (pow_mw_ge F). lia.
      - rewrite minus_IZR, IZR_pow2, Rmult_minus_distr_r, <- bpow_plus by lia.
        replace (mw F + 1 + (- mw F - 1)) with 0 by lia. simpl bpow at 1. ring. }
    rewrite <- (repr_rnd F _ R1). apply rnd_le. lra.
  - (* n >= 1 *)
    set (j := Z.log2 n).
    assert (Hj : 2 ^ j <= n < 2 ^ (j + 1)).
    { unfold j. rewrite Z.add_1_r. apply Z.log2_spec. lia. }
    assert (Hj0 : 0 <= j) by apply Z.log2_nonneg.
    assert (Hjm : j <= mw F).
    { destruct (Z.le_gt_cases j (mw F)); [assumption|exfalso].
      assert (2 ^ (mw F + 1) <= 2 ^ j) by (apply Z.pow_le_mono_r; lia). pose proof (pow_mw_ge F). lia. }
    set (dl := bpow radix2 (j - 1 - mw F)).
    assert (Hdl : (0 < dl)%R) by apply bpow_gt_0.
    assert (D2 : bpow radix2 (j - mw F) = (2 * dl)%R).
    { unfold dl. rewrite (bpow_double (j - mw F)). do 2 f_equal. lia. }
    apply (rnd_lt F _ (IZR n + 1) dl Hdl).
    + rewrite <- plus_IZR. apply Rn. lia.
    + rewrite <- plus_IZR, <- D2. apply repr_sub_ulp; lia.
    + (* v <= n + 1/2 - dl *)
      assert (N1 : (1 <= IZR n)%R) by (apply IZR_le; lia).
      assert (Pj : bpow radix2 j = (2 * bpow radix2 (j - 1))%R) by apply bpow_double.
      assert (Nj : (bpow radix2 j <= IZR n)%R) by (rewrite <- IZR_pow2 by lia; apply IZR_le; lia).
      assert (J1 : (1 <= bpow radix2 j)%R) by (change 1%R with (bpow radix2 0); apply bpow_le; lia).
      destruct (repr_grid F v (j - 1) Rv) as (a & Ea).
      { intros _. rewrite Rabs_pos_eq by lra. lra. }
      fold dl in Ea.
      assert (En : (IZR n + 1 / 2 = IZR ((2 * n + 1) * 2 ^ (mw F - j)) * dl)%R).
      { rewrite mult_IZR, IZR_pow2 by lia. unfold dl. rewrite Rmult_assoc, <- bpow_plus.
        replace (mw F - j + (j - 1 - mw F)) with (-1) by lia. rewrite bpow2_m1, plus_IZR, mult_IZR. lra. }
      assert (L : (IZR a * dl < IZR ((2 * n + 1) * 2 ^ (mw F - j)) * dl)%R).
      { rewrite <- Ea, <- En. lra. }
      apply mult_lt_gap in L; [|exact Hdl]. rewrite <- Ea, <- En in L. lra.
Qed.

Lemma small_const F e : 0 < e < 2 ^ ew F - 1 ->
  exists c, from_parts F false e 0 = Some c /\ isbits F c /\ finite F c = true /\
    val F c = bpow radix2 (e - bias F) /\ signbit F c = false.
Proof.
  intros He. pose proof (pow_mw_ge F). pose proof (fmt_facts F).
  exists (mkbits F false e 0). rewrite from_parts_ok by lia. split; [reflexivity|].
  destruct (mkbits_fields F false e 0) as (E1 & E2 & E3); try lia.
  split; [apply mkbits_range; lia|]. split; [unfold finite; rewrite E2; apply Z.ltb_lt; lia|].
  split; [|assumption]. rewrite val_mkbits by lia. unfold mag_of.
  rewrite (proj2 (Z.eqb_neq e 0)) by lia. simpl sval. rewrite Z.add_0_r, IZR_pow2, <- bpow_plus by lia.
  f_equal; lia.
Qed.

Lemma halfm_repr F : repr F (halfm F).
Proof.
  pose proof (fmt_facts F). pose proof (bias_facts F). unfold halfm.
  replace (1 / 2 - bpow radix2 (- mw F - 2))%R with (IZR (2 ^ (mw F + 1) - 1) * bpow radix2 (- mw F - 2))%R.
  - apply repr_int; [|unfold emin; lia].
    assert (2 ^ (mw F + 1) = 2 * 2 ^ mw F) by (rewrite Z.add_1_r, Z.pow_succ_r; lia).
    pose proof (pow_mw_ge F). lia.
  - rewrite minus_IZR, IZR_pow2, Rmult_minus_distr_r, <- bpow_plus by lia.
    replace (mw F + 1 + (- mw F - 2)) with (-1) by lia. rewrite bpow2_m1. ring.
Qed.
Lemma halfm_range F : (7 / 16 <= halfm F < 1 / 2)%R.
Proof.
  pose proof (fmt_facts F). unfold halfm.
  assert (0 < bpow radix2 (- mw F - 2))%R by apply bpow_gt_0.
  assert (bpow radix2 (- mw F - 2) <= 1 / 16)%R.
  { apply Rle_trans with (bpow radix2 (-4)); [apply bpow_le; lia|]. simpl; lra. }
  lra.
Qed.

Lemma exact_result F r sz y : rounds_to F r sz y -> repr F r -> (Rabs r <= 1)%R ->
  isbits F y /\ finite F y = true /\ val F y = r.
Proof.
  intros H Hr L. split; [apply H|].
  destruct (rounds_to_exact F _ _ _ H) as (C1 & C2 & C3); auto.
  - now apply repr_rnd.
  - eapply Rle_lt_trans; [exact L|]. change 1%R with (bpow radix2 0). apply bpow_lt.
    pose proof (bias_facts F). lia.
Qed.

Lemma Zfloor_sandwich r n : (IZR n <= r < IZR (n + 1))%R -> Zfloor r = n.
Proof. apply Zfloor_imp. Qed.

Lemma round_ok F x : isbits F x -> exists r, M_basic.round F x = Some r /\
  isbits F r /\
  (finite F x = true -> finite F r = true /\ val F r = IZR (ZnearestA (val F x)) /\ signbit F r = signbit F x) /\
  (isinf F x = true -> r = x) /\ (isnan F x = true -> isnan F r = true).
Proof.
  intros Hx. pose proof (bias_facts F) as HB. pose proof (fmt_facts F) as HF.
  unfold M_basic.round. rewrite EXP_BIAS_eq, !usub_ok by lia. cbn [bind].
  destruct (small_const F (bias F - 1)) as (c5 & -> & A1 & A2 & A3 & A4); [lia|]. cbn [bind].
  destruct (small_const F (bias F - 2)) as (c25 & -> & B1 & B2 & B3 & B4); [lia|]. cbn [bind].
  replace (bias F - 1 - bias F) with (-1) in A3 by lia. rewrite bpow2_m1 in A3.
  replace (bias F - 2 - bias F) with (-2) in B3 by lia.
  destruct (EPSILON_fields F) as (E1 & E2 & E3 & E4).
  pose proof (halfm_range F) as Hh.
  (* the product *)
  pose proof (fmul_spec F c25 (EPSILON F) B2 E2) as M. rewrite B3, E3, <- bpow_plus in M.
  replace (-2 + - mw F) with (- mw F - 2) in M by lia.
  destruct (exact_result F _ _ _ M) as (M1 & M2 & M3).
  { apply repr_bpow. unfold emin. lia. }
  { rewrite Rabs_pos_eq by apply bpow_ge_0. change 1%R with (bpow radix2 0). apply bpow_le. lia. }
  pose proof (fsub_spec F c5 _ A2 M2) as S. rewrite A3, M3 in S. fold (halfm F) in S.
  destruct (exact_result F _ _ _ S (halfm_repr F)) as (S1 & S2 & S3).
  { rewrite Rabs_pos_eq by lra. lra. }
  set (h := fsub F c5 (fmul F c25 (EPSILON F))) in *.
  rewrite copysign_eq by assumption. set (hs := with_sign F (signbit F x) h).
  destruct (with_sign_fields F (signbit F x) h) as (H1 & H2 & _ & _). fold hs in H1, H2.
  assert (H3 : finite F hs = true) by (unfold hs; now rewrite with_sign_finite).
  assert (H4 : val F hs = sval (signbit F x) (halfm F)).
  { unfold hs. rewrite with_sign_val, S3, Rabs_pos_eq by lra. reflexivity. }
  clearbody hs.
  destruct (trunc_ok F (fadd F x hs) (fadd_isbits _ _ _)) as (r & Er & T1 & T2 & T3).
  exists r. split; [exact Er|]. split; [exact T1|].
  split; [|split].
  - intros Hfx. pose proof (fadd_spec F x hs Hfx H3) as D.
    set (v := Rabs (val F x)). assert (Hv0 : (0 <= v)%R) by apply Rabs_pos.
    assert (Vx : val F x = sval (signbit F x) v).
    { unfold v. rewrite <- with_sign_val. unfold with_sign. now rewrite <- fields_split. }
    assert (Rv : repr F v). { unfold v. apply generic_format_abs. now apply repr_val. }
    rewrite Vx, H4, H2, andb_diag in D.
    replace (sval (signbit F x) v + sval (signbit F x) (halfm F))%R
      with (sval (signbit F x) (v + halfm F)) in D by (destruct (signbit F x); simpl; ring).
    assert (Key : (Rabs (rnd F (v + halfm F)) < bpow radix2 (bias F + 1))%R /\
                  Zfloor (rnd F (v + halfm F)) = ZnearestA v).
    { rewrite ZnearestA_floor by lra.
      rewrite Rabs_pos_eq by (apply rnd_nonneg; lra).
      destruct (Rlt_le_dec v (bpow radix2 (mw F))) as [Hs|Hb].
      - destruct (round_real F v Rv) as [K1 K2]; [lra|]. split.
        + eapply Rlt_trans; [apply K1|]. 
          apply Rlt_le_trans with (bpow radix2 (mw F + 1)); [|apply bpow_le; lia].
          rewrite <- IZR_pow2 by lia. apply IZR_lt.
          assert (2 ^ (mw F + 1) = 2 * 2 ^ mw F) by (rewrite Z.add_1_r, Z.pow_succ_r; lia).
          pose proof (pow_mw_ge F). lia.
        + apply Zfloor_imp. exact K1.
      - (* already an integer *)
        destruct (repr_grid F v (mw F) Rv) as (a & Ea).
        { intros _. rewrite Rabs_pos_eq by lra. exact Hb. }
        rewrite Z.sub_diag in Ea. simpl bpow in Ea. rewrite Rmult_1_r in Ea.
        assert (K : rnd F (v + halfm F) = v).
        { assert (L : (v <= rnd F (v + halfm F))%R).
          { rewrite <- (repr_rnd F v Rv) at 1. apply rnd_le. lra. }
          destruct (Req_dec (rnd F (v + halfm F)) v) as [E|E]; [exact E|exfalso].
          destruct (repr_grid F (rnd F (v + halfm F)) (mw F) (rnd_repr F _)) as (b & Eb).
          { intros _. rewrite Rabs_pos_eq by lra. lra. }
          rewrite Z.sub_diag in Eb. simpl bpow in Eb. rewrite Rmult_1_r in Eb.
          assert (Lab : (IZR a < IZR b)%R) by lra.
          apply lt_IZR in Lab.
          assert (IZR a + 1 <= IZR b)%R by (rewrite <- plus_IZR; apply IZR_le; lia).
          pose proof (rnd_nearest F (v + halfm F) v Rv) as NN.
          rewrite (Rabs_left1 (v - _)) in NN by lra. apply Rabs_le_inv in NN. lra. }
        rewrite K. split.
        + rewrite <- (Rabs_pos_eq v) by lra. unfold v. rewrite Rabs_Rabsolu. now apply val_lt_emax.
        + rewrite Ea. rewrite Zfloor_IZR. symmetry. apply Zfloor_imp. rewrite plus_IZR. lra. }
    destruct Key as [K1 K2].
    destruct D as [_ D]. rewrite rnd_sval in D. rewrite sval_abs in D by (apply rnd_nonneg; lra).
    rewrite Rabs_pos_eq in K1 by (apply rnd_nonneg; lra).
    rewrite Rlt_bool_true in D by exact K1. destruct D as (D1 & D2 & D3).
    destruct (T2 D1) as (U1 & U2 & U3). split; [exact U1|]. split.
    + rewrite U2, D2, Ztrunc_sval. rewrite Ztrunc_floor by (apply rnd_nonneg; lra).
      rewrite K2, Vx, ZnearestA_sval. reflexivity.
    + rewrite U3, D3. destruct (signbit F x); simpl;
       [rewrite Rcompare_Lt by lra|rewrite Rcompare_Gt by lra]; reflexivity.
  - intros Hi. assert (E : fadd F x hs = x).
    { rewrite fadd_inf_l by assumption. symmetry. now apply isinf_eq. }
    rewrite E in *. apply T3. unfold finite. unfold isinf in Hi. rewrite andb_true_iff, Z.eqb_eq in Hi.
    apply Z.ltb_ge. lia.
  - intros Hn. assert (N : isnan F (fadd F x hs) = true) by (apply fadd_nan; now rewrite Hn).
    rewrite T3; [exact N|].
    destruct (class_cases F (fadd F x hs)) as [K|[K|K]]; intuition congruence.
Qed.
