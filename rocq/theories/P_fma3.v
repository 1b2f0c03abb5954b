(** Proofs about the software fma: conversion and final scaling. *)
From Coq Require Import ZArith Reals Lia Lra Bool.
From Flocq Require Import Core.
From Verif Require Import Base Spec SpecFun2 Format P_format Ieee P_ieee P_real P_key P_round P_round2 P_bits P_trait
  P_neg P_fmod P_remquo M_basic M_scalbn P_scalbn P_near M_fma P_fma P_fma2.
Open Scope Z_scope.

Lemma rounds_to_same F s a b sz sz' r : (0 < a)%R -> (0 < b)%R -> rnd F a = rnd F b ->
  rounds_to F (sval s a) sz r -> rounds_to F (sval s b) sz' r.
Proof.
  intros Ha Hb E [H1 H2]. split; [assumption|]. rewrite rnd_sval in *. rewrite <- E.
  assert (C : forall t z, (0 < t)%R -> match Rcompare (sval s t) 0 with Lt => true | Gt => false | Eq => z end = s).
  { intros t z Ht. destruct s; cbn [sval]; [rewrite Rcompare_Lt by lra|rewrite Rcompare_Gt by lra]; reflexivity. }
  assert (L : forall t, (0 < t)%R -> Rlt_bool (sval s t) 0 = s).
  { intros t Ht. destruct s; cbn [sval]; [rewrite Rlt_bool_true by lra|rewrite Rlt_bool_false by lra]; reflexivity. }
  rewrite C, L in * by assumption. exact H2.
Qed.
Lemma nearest_add_even n x : Z.even n = true -> ZnearestE (IZR n + x) = n + ZnearestE x.
Proof.
  intros En. unfold Znearest.
  assert (Fl : Zfloor (IZR n + x) = n + Zfloor x).
  { apply Zfloor_imp. rewrite !plus_IZR. pose proof (Zfloor_lb x). pose proof (Zfloor_ub x). lra. }
  assert (Ce : Zceil (IZR n + x) = n + Zceil x).
  { unfold Zceil. replace (- (IZR n + x))%R with (IZR (- n) + - x)%R by (rewrite opp_IZR; ring).
    assert (Zfloor (IZR (- n) + - x) = - n + Zfloor (- x)).
    { apply Zfloor_imp. rewrite !plus_IZR. pose proof (Zfloor_lb (- x)). pose proof (Zfloor_ub (- x)). lra. }
    lia. }
  rewrite Fl, Ce. replace (IZR n + x - IZR (n + Zfloor x))%R with (x - IZR (Zfloor x))%R by (rewrite plus_IZR; ring).
  rewrite Z.even_add, En. destruct (Rcompare _ _); destruct (Z.even (Zfloor x)); cbn [Bool.eqb negb]; reflexivity.
Qed.
Lemma nearest_mono a b : (a <= b)%R -> ZnearestE a <= ZnearestE b.
Proof. intros H. now apply (Zrnd_le ZnearestE). Qed.
Lemma nearest_int n : ZnearestE (IZR n) = n.
Proof. apply (Zrnd_IZR ZnearestE). Qed.

Section Fma.
Variable F : fmt.
Notation w := (width F).
Notation h := (ew F - 1).
Hypothesis HC : fma_fmt F.
Let C1 : ew F <= mw F. Proof. apply HC. Qed.
Let C2 : w <= bias F. Proof. apply HC. Qed.
Let HW : w = mw F + ew F + 1. Proof. unfold width. lia. Qed.
Let C3 : 4 <= ew F. Proof. exact (fma_ew4 F HC). Qed.
Let Hmin : emin F = 1 - bias F - mw F. Proof. reflexivity. Qed.

Lemma cast_ok J neg : 2 ^ (w - 2) <= J < 2 ^ (w - 1) ->
  exists r N, cast_signed F J neg = Some r /\ N = ZnearestE (IZR J * bpow radix2 (- h)) /\ isbits F r /\ finite F r = true /\
    val F r = sval neg (IZR N * bpow radix2 h) /\ signbit F r = neg /\ 2 ^ mw F <= N <= 2 ^ (mw F + 1).
Proof.
  intros HJ. pose proof (fmt_facts F) as HF.
  assert (P1 : 2 ^ w = 2 * 2 ^ (w - 1)) by (rewrite <- Z.pow_succ_r by lia; f_equal; lia).
  assert (P0 : 0 < 2 ^ (w - 2)) by (apply pow2_pos; lia).
  unfold cast_signed. change (BITS F) with w. rewrite to_i_small by lia.
  assert (EC : (if neg then sneg w J else Some J) = Some (sgz neg J)).
  { destruct neg; [|reflexivity]. unfold sneg. rewrite chk_ok by lia. reflexivity. }
  rewrite EC. cbn [bind]. exists (of_int F (sgz neg J)), (ZnearestE (IZR J * bpow radix2 (- h))).
  split; [reflexivity|]. split; [reflexivity|]. pose proof (of_int_spec F (sgz neg J)) as HO. rewrite <- sval_IZR in HO.
  assert (JB : (bpow radix2 (w - 2) <= IZR J < bpow radix2 (w - 1))%R).
  { rewrite <- !IZR_pow2 by lia. split; [apply IZR_le|apply IZR_lt]; lia. }
  assert (ER : rnd F (IZR J) = (IZR (ZnearestE (IZR J * bpow radix2 (- h))) * bpow radix2 h)%R).
  { apply rnd_scaled; [|lia]. rewrite Rabs_pos_eq by (apply IZR_le; lia).
    replace (h + mw F) with (w - 2) by lia. replace (w - 2 + 1) with (w - 1) by lia. exact JB. }
  assert (JP : (0 < IZR J)%R) by (apply IZR_lt; lia).
  destruct (rounds_to_bounded F _ _ _ (bpow radix2 (w - 1)) HO) as (Q1 & Q2 & Q3 & Q4).
  { apply repr_bpow. lia. }
  { split; [|apply bpow_lt; lia]. destruct neg; cbn [sval]; rewrite ?Rabs_Ropp, Rabs_pos_eq; lra. }
  split; [exact Q1|]. split; [exact Q2|]. split; [now rewrite Q3, rnd_sval, ER|].
  split. { rewrite Q4. destruct neg; cbn [sval]; [rewrite Rcompare_Lt by lra|rewrite Rcompare_Gt by lra]; reflexivity. }
  assert (MB : (bpow radix2 (mw F) <= IZR J * bpow radix2 (- h) <= bpow radix2 (mw F + 1))%R).
  { replace (mw F) with (w - 2 + - h) at 1 by lia. replace (mw F + 1) with (w - 1 + - h) by lia. rewrite !bpow_plus.
    pose proof (bpow_gt_0 radix2 (- h)). split; apply Rmult_le_compat_r; lra. }
  split.
  - rewrite <- (nearest_int (2 ^ mw F)). apply nearest_mono. rewrite IZR_pow2 by lia. apply MB.
  - rewrite <- (nearest_int (2 ^ (mw F + 1))). apply nearest_mono. rewrite IZR_pow2 by lia. apply MB.
Qed.

Lemma finish_ok r0 A S E neg sz : isbits F r0 -> finite F r0 = true -> val F r0 = sval neg A -> (0 < A)%R -> (0 < S)%R ->
  - 2 ^ 20 <= E <= 2 ^ 20 -> rnd F (A * bpow radix2 E) = rnd F (S * bpow radix2 E) ->
  exists r, scalbn F r0 E = Some r /\ rounds_to F (sval neg (S * bpow radix2 E)) sz r.
Proof.
  intros B0 F0 V0 HA HS HE ER. destruct (scalbn_ok F r0 E (proj2 (proj2 HC)) B0 ltac:(lia)) as (r & E1 & E2).
  exists r. split; [exact E1|]. destruct E2 as (_ & E2 & _). specialize (E2 F0). rewrite V0 in E2.
  rewrite <- sval_scale in E2. pose proof (bpow_gt_0 radix2 E).
  eapply rounds_to_same; [| |exact ER|exact E2]; apply Rmult_lt_0_compat; assumption.
Qed.

(** the normal range *)
Lemma pack_normal I g S E neg sz : 2 ^ (w - 2) <= I < 2 ^ (w - 1) -> 1 <= g <= ew F - 2 -> near g I S -> (0 < S)%R ->
  - 2 ^ 20 <= E <= 2 ^ 20 -> 3 - w - bias F <= E ->
  forall r0 N, isbits F r0 -> finite F r0 = true -> N = ZnearestE (IZR I * bpow radix2 (- h)) ->
  val F r0 = sval neg (IZR N * bpow radix2 h) -> 2 ^ mw F <= N <= 2 ^ (mw F + 1) ->
  exists r, scalbn F r0 E = Some r /\ rounds_to F (sval neg (S * bpow radix2 E)) sz r.
Proof.
  intros HI Hg HN HS HE HE2 r0 N B0 F0 EN V0 BN. pose proof (fmt_facts F) as HF.
  assert (PM : 0 < 2 ^ mw F) by (apply pow2_pos; lia).
  assert (SB : (bpow radix2 (w - 2) <= S < bpow radix2 (w - 1))%R).
  { rewrite <- !IZR_pow2 by lia. split.
    - apply (near_le_iff g I S (2 ^ (w - 2))); [|exact HN|lia|lia]. exists (2 ^ (w - 2 - g)). rewrite <- pow2_split by lia. f_equal. lia.
    - apply (near_le_iff g I S (2 ^ (w - 1))); [|exact HN|lia|lia]. exists (2 ^ (w - 1 - g)). rewrite <- pow2_split by lia. f_equal. lia. }
  apply (finish_ok r0 (IZR N * bpow radix2 h) S); try assumption.
  { apply Rmult_lt_0_compat; [apply IZR_lt; lia|apply bpow_gt_0]. }
  assert (ES : (S * bpow radix2 E * bpow radix2 (- (E + h)) = S * bpow radix2 (- h))%R).
  { rewrite Rmult_assoc, bp_split. do 2 f_equal. lia. }
  rewrite (rnd_scaled F (S * bpow radix2 E) (E + h)).
  - rewrite ES, <- (near_nearest g I S h) by (try assumption; lia). rewrite <- EN.
    rewrite Rmult_assoc, bp_split. rewrite (Z.add_comm h E). apply repr_rnd, repr_int; lia.
  - pose proof (bpow_gt_0 radix2 E). rewrite Rabs_pos_eq by (apply Rmult_le_pos; lra).
    replace (E + h + mw F) with (w - 2 + E) by lia. replace (w - 2 + E + 1) with (w - 1 + E) by lia. rewrite !bpow_plus.
    split; [apply Rmult_le_compat_r|apply Rmult_lt_compat_r]; lra.
  - lia.
Qed.

(** deep in the subnormal range: the low bits are collected in a sticky bit *)
Lemma pack_sub I g S E neg sz : 2 ^ (w - 2) <= I < 2 ^ (w - 1) -> 1 <= g <= ew F - 2 -> near g I S -> (0 < S)%R ->
  - 2 ^ 20 <= E <= 2 ^ 20 -> E <= 1 - w - bias F ->
  exists r r0, cast_signed F (sticky_shr I h * 2 ^ h) neg = Some r0 /\ scalbn F r0 E = Some r /\
    rounds_to F (sval neg (S * bpow radix2 E)) sz r /\ 2 ^ mw F <= sticky_shr I h < 2 ^ (mw F + 1).
Proof.
  intros HI Hg HN HS HE HE2. pose proof (fmt_facts F) as HF.
  assert (BK : 2 ^ mw F <= sticky_shr I h < 2 ^ (mw F + 1)).
  { apply (sticky_shr_range I h (mw F)); [lia|lia|]. replace (mw F + h) with (w - 2) by lia. now replace (w - 2 + 1) with (w - 1) by lia. }
  set (K := sticky_shr I h) in *.
  assert (NK : near 1 K (S * bpow radix2 (- h))).
  { pose proof (near_shr g I S h ltac:(lia) ltac:(lia) HN) as G. now replace (Z.max 1 (g - h)) with 1 in G by lia. }
  assert (BJ : 2 ^ (w - 2) <= K * 2 ^ h < 2 ^ (w - 1)).
  { replace (w - 2) with (mw F + h) by lia. replace (w - 1) with (mw F + 1 + h) by lia. rewrite (pow2_split (mw F)), (pow2_split (mw F + 1)) by lia.
    apply mul_bounds; [apply pow2_pos; lia|exact BK]. }
  destruct (cast_ok (K * 2 ^ h) neg BJ) as (r0 & N & E0 & EN & B0 & F0 & V0 & _ & _).
  assert (NKE : N = K).
  { rewrite EN, mult_IZR, IZR_pow2 by lia. rewrite Rmult_assoc, bp_split, Z.add_opp_diag_r. cbn [bpow]. rewrite Rmult_1_r. apply nearest_int. }
  rewrite NKE in *. clear NKE EN. assert (PM : 0 < 2 ^ mw F) by (apply pow2_pos; lia).
  assert (KP : (0 < IZR K)%R) by (apply IZR_lt; lia).
  assert (SB : (S < bpow radix2 (w - 1))%R).
  { rewrite <- !IZR_pow2 by lia. apply (near_le_iff g I S (2 ^ (w - 1))); [|exact HN|lia|lia]. exists (2 ^ (w - 1 - g)). rewrite <- pow2_split by lia. f_equal. lia. }
  pose proof (bpow_gt_0 radix2 E) as EP. pose proof (bpow_gt_0 radix2 h) as Hh.
  destruct (finish_ok r0 (IZR K * bpow radix2 h) S E neg sz B0 F0 V0) as (r & Er & Rr); try assumption.
  { now apply Rmult_lt_0_compat. }
  { assert (KB : (IZR K * bpow radix2 h < bpow radix2 (w - 1))%R).
    { rewrite <- !IZR_pow2 by lia. rewrite <- mult_IZR. apply IZR_lt. apply BJ. }
    assert (M : forall t, (0 < t)%R -> (t < bpow radix2 (w - 1))%R -> (Rabs (t * bpow radix2 E) < bpow radix2 (emin F + mw F + 1))%R).
    { intros t T0 T1. rewrite Rabs_pos_eq by (apply Rmult_le_pos; lra).
      apply Rlt_le_trans with (bpow radix2 (w - 1 + E)); [rewrite bpow_plus; now apply Rmult_lt_compat_r|apply bpow_le; lia]. }
    rewrite !rnd_scaled_sub by (apply M; [try assumption; now apply Rmult_lt_0_compat|assumption]).
    do 2 f_equal. set (c := emin F - E - h).
    assert (EK : (IZR K * bpow radix2 h * bpow radix2 E * bpow radix2 (- emin F) = IZR K * bpow radix2 (- c))%R).
    { rewrite !Rmult_assoc, !bp_split. do 2 f_equal. unfold c. lia. }
    assert (ES : (S * bpow radix2 E * bpow radix2 (- emin F) = S * bpow radix2 (- h) * bpow radix2 (- c))%R).
    { rewrite !Rmult_assoc, !bp_split. do 2 f_equal. unfold c. lia. }
    rewrite EK, ES. apply (near_nearest 1); [unfold c; lia|exact NK]. }
  exists r, r0. now split; [|split].
Qed.

Lemma val_pow2f_signed (neg : bool) : let c := if neg then fneg F (pow2f F (w - 1)) else pow2f F (w - 1) in
  isbits F c /\ finite F c = true /\ val F c = sval neg (bpow radix2 (w - 1)) /\ signbit F c = neg.
Proof.
  pose proof (fmt_facts F) as HF. pose proof (bias_facts F) as HB.
  destruct (pow2f_ok F (w - 1) ltac:(lia)) as (A & B & C & D). destruct neg; cbn [sval].
  - split; [now apply fneg_fields|]. split; [now rewrite fneg_finite|]. split; [now rewrite fneg_val, C|].
    destruct (fneg_fields F (pow2f F (w - 1)) A) as (_ & -> & _). now rewrite D.
  - now split; [|split].
Qed.

(** the rounded sum just below the least normal *)
Lemma pack_mid I g S neg sz : let E := 2 - w - bias F in
  2 ^ (w - 2) <= I < 2 ^ (w - 1) -> 1 <= g <= ew F - 2 -> near g I S -> (0 < S)%R ->
  exists r, fma_pack F I E neg = Some r /\ rounds_to F (sval neg (S * bpow radix2 E)) sz r.
Proof.
  intros E HI Hg HN HS. pose proof (fmt_facts F) as HF. pose proof (bias_facts F) as HB.
  assert (PM : 0 < 2 ^ mw F) by (apply pow2_pos; lia).
  assert (Pw2 : 2 ^ (w - 1) = 2 * 2 ^ (w - 2)) by (rewrite <- Z.pow_succ_r by lia; f_equal; lia).
  assert (Pw1 : 2 ^ w = 2 * 2 ^ (w - 1)) by (rewrite <- Z.pow_succ_r by lia; f_equal; lia).
  assert (P2 : 0 < 2 ^ (w - 2)) by (apply pow2_pos; lia).
  assert (HE : - 2 ^ 20 <= E <= 2 ^ 20) by (unfold E; lia).
  destruct (cast_ok I neg HI) as (r0 & N0 & E0 & EN0 & B0 & F0 & V0 & S0 & BN0).
  destruct (val_pow2f_signed neg) as (Bc & Fc & Vc & Sc).
  unfold fma_pack. rewrite E0. cbn [bind]. change (BITS F) with w. rewrite EXP_BIAS_eq.
  rewrite to_i32_small by lia. rewrite (proj2 (Z.ltb_lt _ _)) by (unfold E; lia).
  rewrite (proj2 (Z.eqb_eq _ _)) by (unfold E; lia).
  replace (w - 1 + bias F) with (bias F + (w - 1)) by lia. rewrite pow2f_parts by lia. cbn [bind].
  set (c := if neg then fneg F (pow2f F (w - 1)) else pow2f F (w - 1)) in *.
  assert (SB : (bpow radix2 (w - 2) <= S < bpow radix2 (w - 1))%R).
  { rewrite <- !IZR_pow2 by lia. split.
    - apply (near_le_iff g I S (2 ^ (w - 2))); [|exact HN|lia|lia]. exists (2 ^ (w - 2 - g)). rewrite <- pow2_split by lia. f_equal. lia.
    - apply (near_le_iff g I S (2 ^ (w - 1))); [|exact HN|lia|lia]. exists (2 ^ (w - 1 - g)). rewrite <- pow2_split by lia. f_equal. lia. }
  pose proof (bpow_gt_0 radix2 E) as EP.
  set (M := ZnearestE (S * bpow radix2 (- (h + 1)))).
  assert (RS : rnd F (S * bpow radix2 E) = (IZR M * bpow radix2 (emin F))%R).
  { rewrite rnd_scaled_sub.
    - unfold M. do 3 f_equal. rewrite Rmult_assoc, bp_split. do 2 f_equal. unfold E. lia.
    - rewrite Rabs_pos_eq by (apply Rmult_le_pos; lra).
      apply Rlt_le_trans with (bpow radix2 (w - 1 + E)); [rewrite bpow_plus; now apply Rmult_lt_compat_r|apply bpow_le; unfold E; lia]. }
  assert (MB : 2 ^ (mw F - 1) <= M <= 2 ^ mw F).
  { pose proof (bpow_gt_0 radix2 (- (h + 1))). split.
    - rewrite <- (nearest_int (2 ^ (mw F - 1))). apply nearest_mono. rewrite IZR_pow2 by lia.
      replace (mw F - 1) with (w - 2 + - (h + 1)) by lia. rewrite bpow_plus. apply Rmult_le_compat_r; lra.
    - rewrite <- (nearest_int (2 ^ mw F)). apply nearest_mono. rewrite IZR_pow2 by lia.
      replace (mw F) with (w - 1 + - (h + 1)) by lia. rewrite bpow_plus. apply Rmult_le_compat_r; lra. }
  assert (PM1 : 0 < 2 ^ (mw F - 1)) by (apply pow2_pos; lia).
  assert (MP : (0 < IZR M)%R) by (apply IZR_lt; lia).
  destruct (feq F r0 c) eqn:Q.
  - (* rounds up to the least normal *)
    apply feq_spec in Q. destruct Q as (_ & _ & Q). rewrite F0 in Q. destruct Q as [_ Q]. rewrite V0, Vc in Q.
    assert (QN : (IZR N0 * bpow radix2 h = bpow radix2 (w - 1))%R) by (destruct neg; cbn [sval] in Q; lra).
    assert (QI : (bpow radix2 (w - 1) - bpow radix2 (h - 1) <= IZR I)%R).
    { pose proof (Znearest_half (fun x => negb (Z.even x)) (IZR I * bpow radix2 (- h))) as Hf. rewrite <- EN0 in Hf.
      apply Rabs_le_inv in Hf. pose proof (bpow_gt_0 radix2 h) as Ph. rewrite (bpow_half h), <- QN.
      assert (EI : (IZR I = IZR I * bpow radix2 (- h) * bpow radix2 h)%R).
      { rewrite Rmult_assoc, bp_split. replace (- h + h) with 0 by lia. cbn [bpow]. ring. }
      rewrite EI. set (u := (IZR I * bpow radix2 (- h))%R) in *. nra. }
    assert (QZ : 2 ^ (w - 1) - 2 ^ (h - 1) <= I).
    { apply le_IZR. rewrite minus_IZR, !IZR_pow2 by lia. exact QI. }
    assert (QS : (IZR (2 ^ (w - 1) - 2 ^ (h - 1)) <= S)%R).
    { apply (near_le_iff g I S (2 ^ (w - 1) - 2 ^ (h - 1))); [|exact HN|lia|exact QZ].
      exists (2 ^ (w - 1 - g) - 2 ^ (h - 1 - g)). rewrite Z.mul_sub_distr_r, <- !pow2_split by lia. do 2 f_equal; lia. }
    assert (EM : M = 2 ^ mw F).
    { apply Znearest_imp. rewrite IZR_pow2 by lia. rewrite minus_IZR, !IZR_pow2 in QS by lia.
      assert (D : (bpow radix2 (mw F) = bpow radix2 (w - 1) * bpow radix2 (- (h + 1)))%R) by (rewrite bp_split; f_equal; lia).
      assert (D2 : (bpow radix2 (h - 1) * bpow radix2 (- (h + 1)) = / 4)%R).
      { rewrite bp_split. replace (h - 1 + - (h + 1)) with (-2) by lia. reflexivity. }
      pose proof (bpow_gt_0 radix2 (- (h + 1))). rewrite D, <- Rmult_minus_distr_r. apply Rabs_def1; nra. }
    exists (copysign F (MIN_POSITIVE_NORMAL F) r0). split; [reflexivity|].
    assert (BM : isbits F (MIN_POSITIVE_NORMAL F)) by (rewrite MPN_eq; apply mkbits_range; lia).
    rewrite copysign_eq by assumption. rewrite S0.
    destruct (with_sign_fields F neg (MIN_POSITIVE_NORMAL F)) as (W1 & W2 & W3 & W4).
    destruct (mkbits_fields F false 1 0 ltac:(lia) ltac:(lia)) as (X1 & X2 & X3). rewrite <- MPN_eq in X1, X2, X3.
    split; [exact W1|]. rewrite rnd_sval, RS, EM.
    assert (VM : (IZR (2 ^ mw F) * bpow radix2 (emin F) = bpow radix2 (1 - bias F))%R).
    { rewrite IZR_pow2 by lia. rewrite bp_split. f_equal. lia. }
    rewrite VM. rewrite Rlt_bool_true.
    2:{ destruct neg; cbn [sval]; rewrite ?Rabs_Ropp, Rabs_pos_eq by apply bpow_ge_0; apply bpow_lt; lia. }
    split; [unfold finite; rewrite W3, X2; apply Z.ltb_lt; lia|].
    split.
    { unfold val. rewrite W2, W3, W4, X2, X3. f_equal. unfold mag_of. cbn [Z.eqb]. rewrite Z.add_0_r, IZR_pow2 by lia. rewrite bp_split. f_equal. lia. }
    rewrite W2. assert (0 < S * bpow radix2 E)%R by (now apply Rmult_lt_0_compat).
    destruct neg; cbn [sval]; [rewrite Rcompare_Lt by lra|rewrite Rcompare_Gt by lra]; reflexivity.
  - assert (Pw3 : 2 ^ w = 2 ^ (mw F + 1) * 2 ^ (h + 1)) by (rewrite <- pow2_split by lia; f_equal; lia).
    unfold SIG_BITS. rewrite (ushl_ok w I) by lia. cbn [bind].
    assert (ET : ((I * 2 ^ (mw F + 1)) mod 2 ^ w =? 0) = (I mod 2 ^ (h + 1) =? 0)).
    { replace (mw F + 1) with (w - (h + 1)) by lia. apply shl_low; try assumption; lia. }
    rewrite ET. pose proof (pow2_pos (h + 1) ltac:(lia)) as Ph1.
    destruct (Z.eqb_spec (I mod 2 ^ (h + 1)) 0) as [Z0|Z0]; cbn [negb bind].
    + (* exact *)
      assert (ID : I = (I / 2 ^ (h + 1)) * 2 ^ (h + 1)) by (pose proof (Z.div_mod I (2 ^ (h + 1)) ltac:(lia)); lia).
      assert (IG : exists k, I = k * 2 ^ g).
      { exists (I / 2 ^ (h + 1) * 2 ^ (h + 1 - g)). rewrite <- Z.mul_assoc, <- pow2_split by lia. rewrite ID at 1. do 2 f_equal. lia. }
      assert (SI : S = IZR I).
      { destruct (near_le_iff g I S I IG HN ltac:(lia)) as (L1 & _ & L2 & _). pose proof (proj1 L1 (Z.le_refl _)). pose proof (proj1 L2 (Z.le_refl _)). lra. }
      apply (finish_ok r0 S S); try assumption; [|reflexivity]. rewrite V0. f_equal. rewrite SI, EN0.
      assert (EI : (IZR I * bpow radix2 (- h) = IZR (I / 2 ^ (h + 1) * 2))%R).
      { rewrite ID at 1. rewrite !mult_IZR, IZR_pow2 by lia. rewrite Rmult_assoc, bp_split. replace (h + 1 + - h) with 1 by lia. reflexivity. }
      rewrite EI, nearest_int, <- EI, Rmult_assoc, bp_split. replace (- h + h) with 0 by lia. cbn [bpow]. ring.
    + (* one more bit on top *)
      rewrite ushr_ok, ushl_ok by lia. cbn [bind]. rewrite (Z.mod_small (1 * 2 ^ (w - 2))) by lia.
      assert (BK : 2 ^ (w - 3) <= sticky_shr I 1 < 2 ^ (w - 2)).
      { pose proof (sticky_shr_range I 1 (w - 3) ltac:(lia) ltac:(lia)) as G. replace (w - 3 + 1) with (w - 2) in G by lia.
        replace (w - 2 + 1) with (w - 1) in G by lia. now apply G. }
      assert (EK : Z.lor (I / 2 ^ 1) (Z.land I 1) = sticky_shr I 1).
      { unfold sticky_shr. f_equal. change 1 with (2 ^ 1 - 1) at 1. rewrite land_pow2m1 by lia. change (2 ^ 1) with 2.
        pose proof (Z.mod_pos_bound I 2 ltac:(lia)). destruct (Z.eqb_spec (I mod 2) 0); lia. }
      rewrite EK. set (K := sticky_shr I 1) in *.
      assert (EL : Z.lor K (1 * 2 ^ (w - 2)) = 2 ^ (w - 2) + K).
      { rewrite Z.lor_comm, lor_disjoint by (pose proof (pow2_pos (w - 3)); lia). lia. }
      rewrite EL.
      assert (PP3 : 0 < 2 ^ (w - 3)) by (apply pow2_pos; lia).
      destruct (cast_ok (2 ^ (w - 2) + K) neg ltac:(lia)) as (r1 & N1 & E1 & EN1 & B1 & F1 & V1 & S1 & BN1).
      rewrite E1. cbn [bind].
      assert (EM : N1 = 2 ^ mw F + M).
      { rewrite EN1, plus_IZR, Rmult_plus_distr_r. rewrite IZR_pow2 by lia. rewrite bp_split.
        replace (w - 2 + - h) with (mw F) by lia. rewrite <- IZR_pow2 by lia. rewrite nearest_add_even.
        2:{ apply Z.even_spec. exists (2 ^ (mw F - 1)). rewrite <- Z.pow_succ_r by lia. f_equal. lia. }
        f_equal. unfold M. pose proof (near_shr g I S 1 ltac:(lia) ltac:(lia) HN) as G. fold K in G.
        rewrite (near_nearest _ K _ h) with (2 := G) by lia. f_equal. rewrite Rmult_assoc, bp_split. do 2 f_equal. lia. }
      (* doubling is exact *)
      destruct (rounds_to_exact F (IZR 2) false (of_int F 2) (of_int_spec F 2)) as (F2 & V2 & S2).
      { apply repr_rnd, repr_IZR. assert (2 <= 2 ^ (mw F + 1)) by (change 2 with (2 ^ 1) at 1; apply Z.pow_le_mono_r; lia). lia. }
      { rewrite Rabs_pos_eq by (apply IZR_le; lia). apply (bpow_lt radix2 1). lia. }
      assert (V3 : (val F (of_int F 2) * val F r1 = sval neg (IZR N1 * bpow radix2 (h + 1)))%R).
      { rewrite V2, V1, bpow_plus. change (bpow radix2 1) with 2%R. destruct neg; cbn [sval]; ring. }
      pose proof (fmul_spec F _ _ F2 F1) as H3. rewrite V3 in H3.
      assert (A3 : (0 < IZR N1 * bpow radix2 (h + 1))%R) by (apply Rmult_lt_0_compat; [apply IZR_lt; lia|apply bpow_gt_0]).
      assert (U3 : (IZR N1 * bpow radix2 (h + 1) <= bpow radix2 w)%R).
      { replace w with (mw F + 1 + (h + 1)) by lia. rewrite (bpow_plus _ (mw F + 1)). apply Rmult_le_compat_r; [apply bpow_ge_0|].
        rewrite <- IZR_pow2 by lia. apply IZR_le. lia. }
      destruct (rounds_to_exact F _ _ _ H3) as (F4 & V4 & _).
      { apply repr_rnd, repr_sval, repr_int; lia. }
      { destruct neg; cbn [sval]; rewrite ?Rabs_Ropp, Rabs_pos_eq by lra; apply Rle_lt_trans with (1 := U3); apply bpow_lt; lia. }
      set (r3 := fmul F (of_int F 2) r1) in *.
      pose proof (fsub_spec F r3 c F4 Fc) as H5. rewrite V4, Vc in H5.
      assert (EV5 : (sval neg (IZR N1 * bpow radix2 (h + 1)) - sval neg (bpow radix2 (w - 1)) = sval neg (IZR M * bpow radix2 (h + 1)))%R).
      { replace (w - 1) with (mw F + (h + 1)) by lia. rewrite (bpow_plus _ (mw F)), EM, plus_IZR, IZR_pow2 by lia.
        destruct neg; cbn [sval]; ring. }
      rewrite EV5 in H5.
      assert (A5 : (0 < IZR M * bpow radix2 (h + 1))%R) by (apply Rmult_lt_0_compat; [assumption|apply bpow_gt_0]).
      destruct (rounds_to_exact F _ _ _ H5) as (F6 & V6 & _).
      { apply repr_rnd, repr_sval, repr_int; lia. }
      { assert (IZR M * bpow radix2 (h + 1) <= IZR N1 * bpow radix2 (h + 1))%R by (apply Rmult_le_compat_r; [apply bpow_ge_0|apply IZR_le; lia]).
        destruct neg; cbn [sval]; rewrite ?Rabs_Ropp, Rabs_pos_eq by lra; apply Rle_lt_trans with (bpow radix2 w); try lra; apply bpow_lt; lia. }
      apply (finish_ok _ (IZR M * bpow radix2 (h + 1)) S); try assumption; [apply fsub_isbits|].
      rewrite RS, Rmult_assoc, bp_split. replace (h + 1 + E) with (emin F) by (unfold E; lia).
      apply repr_rnd, repr_int; [|lia]. assert (2 ^ mw F <= 2 ^ (mw F + 1)) by (apply Z.pow_le_mono_r; lia). lia.
Qed.

Theorem fma_pack_ok I g S E neg sz : 2 ^ (w - 2) <= I < 2 ^ (w - 1) -> 1 <= g <= ew F - 2 -> near g I S -> (0 < S)%R ->
  - 2 ^ 20 <= E <= 2 ^ 20 ->
  exists r, fma_pack F I E neg = Some r /\ rounds_to F (sval neg (S * bpow radix2 E)) sz r.
Proof.
  intros HI Hg HN HS HE. pose proof (fmt_facts F) as HF. pose proof (bias_facts F) as HB.
  destruct (Z.eq_dec E (2 - w - bias F)) as [->|NE]; [now apply (pack_mid I g)|].
  destruct (cast_ok I neg HI) as (r0 & N0 & E0 & EN0 & B0 & F0 & V0 & S0 & BN0).
  unfold fma_pack. rewrite E0. cbn [bind]. change (BITS F) with w. rewrite EXP_BIAS_eq.
  rewrite to_i32_small by lia.
  destruct (Z.ltb_spec E (- (w - 1 + bias F - 2))) as [L|L].
  2:{ apply (pack_normal I g S E neg sz) with (N := N0); try assumption. lia. }
  rewrite (proj2 (Z.eqb_neq _ _)) by lia. assert (EB : EXP_BITS F = ew F) by (unfold EXP_BITS, BITS, SIG_BITS, width; lia). rewrite EB. rewrite (to_i32_small w), (to_i32_small (ew F)) by lia.
  destruct (pack_sub I g S E neg sz HI Hg HN HS HE ltac:(lia)) as (r & r1 & E1 & E2 & E3 & E4).
  assert (P1 : 2 ^ (w - 2) < 2 ^ w) by (apply Z.pow_lt_mono_r; lia).
  rewrite ushl_ok by lia. cbn [bind]. rewrite shl_low by (try assumption; lia). rewrite ushr_ok by lia. cbn [bind].
  assert (ES : Z.lor (I / 2 ^ h) (ofb (negb (I mod 2 ^ h =? 0))) = sticky_shr I h).
  { unfold sticky_shr. now destruct (I mod 2 ^ h =? 0). }
  rewrite ES, ushl_ok by lia. cbn [bind].
  rewrite Z.mod_small, E1; cbn [bind]; [now exists r|].
  pose proof (pow2_pos h ltac:(lia)). pose proof (pow2_pos (mw F) ltac:(lia)). split; [apply Z.mul_nonneg_nonneg; lia|].
  replace w with (mw F + 2 + h) by lia. rewrite (pow2_split (mw F + 2)) by lia. apply Z.mul_lt_mono_pos_r; [assumption|].
  assert (2 ^ (mw F + 1) <= 2 ^ (mw F + 2)) by (apply Z.pow_le_mono_r; lia). lia.
Qed.
End Fma.
