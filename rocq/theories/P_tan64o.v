(** The corrected reciprocal at the end of [k_tan]: [-1 / t] with an error far below the last rounding. *)
From Coq Require Import ZArith Reals Lia Lra Bool List Psatz.
From Flocq Require Import Core Sterbenz.
From Verif Require Import Base Spec SpecAcc Format P_format Ieee P_ieee P_real P_neg P_lit P_err P_apx P_kerf2 P_tanf2 P_cbrt3 P_elem P_elem2 P_red64 M_basic M_elib M_trig.
Import ListNotations.
Open Scope R_scope.
Open Scope fl_scope.

(** ** Clearing the low word *)
Lemma land_mask32 a : (0 <= a < 2 ^ 64)%Z -> Z.land a 0xffffffff00000000 = (a - a mod 2 ^ 32)%Z.
Proof.
  intros H. assert (E : (a - a mod 2 ^ 32 = Z.shiftl (Z.shiftr a 32) 32)%Z). { rewrite Z.shiftl_mul_pow2, Z.shiftr_div_pow2 by lia. pose proof (Z.div_mod a (2 ^ 32) ltac:(lia)). lia. }
  rewrite E. change 0xffffffff00000000%Z with (Z.shiftl (Z.ones 32) 32). rewrite <- (Z.land_ones_low (Z.shiftr a 32) 32).
  - rewrite Z.shiftl_land. rewrite <- Z.ldiff_ones_r by lia. apply Z.bits_inj'. intros n Hn. rewrite !Z.land_spec, Z.ldiff_spec. rewrite !Z.shiftl_spec by lia.
    destruct (Z_lt_le_dec n 32). { rewrite (Z.testbit_neg_r _ (n - 32)) by lia. now rewrite !andb_false_r. }
    rewrite (Z.ones_spec_high 32 n) by lia. cbn [negb]. now rewrite andb_true_r.
  - apply Z.shiftr_nonneg. lia.
  - destruct (Z.eq_dec (Z.shiftr a 32) 0) as [Z0|Z0]; [rewrite Z0; reflexivity|]. apply Z.log2_lt_pow2; rewrite Z.shiftr_div_pow2 in * by lia; [pose proof (Z.div_pos a (2 ^ 32)); lia|]. apply Z.div_lt_upper_bound; lia.
Qed.
Lemma norm_split x : isbits f64 x -> finite f64 x = true -> bpow radix2 (-1022) <= Rabs (val f64 x) -> exists s E m, (1 <= E <= 2046)%Z /\ (0 <= m < 2 ^ 52)%Z /\ x = (bs s * 2 ^ 63 + (E * 2 ^ 52 + m))%Z.
Proof.
  intros B F H. exists (signbit f64 x), (expf f64 x), (sigf f64 x). pose proof (fields_range f64 x) as [R1 R2]. pose proof (fields_split f64 x B) as FS.
  change (mw f64) with 52%Z in R1. change (ew f64) with 11%Z in R2. assert (E2 : expf f64 x <> 2047%Z) by (intros E; unfold finite in F; rewrite E in F; discriminate F).
  assert (E0 : expf f64 x <> 0%Z).
  { intros E. unfold val, mag_of in H. rewrite E in H. cbn [Z.eqb] in H. change (1 - bias f64 - mw f64)%Z with (-1074)%Z in H. set (g := sigf f64 x) in *.
    assert (Q : Rabs (sval (signbit f64 x) (IZR g * bpow radix2 (-1074))) = IZR g * bpow radix2 (-1074)). { assert (0 <= IZR g) by (apply IZR_le; lia). pose proof (bpow_ge_0 radix2 (-1074)). destruct (signbit f64 x); cbn [sval]; rewrite ?Rabs_Ropp; apply Rabs_pos_eq; apply Rmult_le_pos; assumption. }
    rewrite Q in H. assert (L : IZR g * bpow radix2 (-1074) < bpow radix2 (-1022)); [|lra]. change (-1022)%Z with (52 + -1074)%Z. rewrite bpow_plus. apply Rmult_lt_compat_r; [apply bpow_gt_0|]. change (bpow radix2 52) with (IZR (2 ^ 52)). apply IZR_lt. lia. }
  split; [lia|]. split; [lia|]. rewrite FS at 1. unfold mkbits. change (mw f64 + ew f64)%Z with 63%Z. change (mw f64) with 52%Z. unfold bs. destruct (signbit f64 x); ring.
Qed.
Lemma zlw x : isbits f64 x -> finite f64 x = true -> bpow radix2 (-1022) <= Rabs (val f64 x) ->
  let w := rs_k_tan_zero_low_word x in isbits f64 w /\ finite f64 w = true /\ Rabs (val f64 w - val f64 x) <= / 1048576 * Rabs (val f64 x) /\ exists n e, val f64 w = IZR n * bpow radix2 e /\ (Z.abs n < 2 ^ 21)%Z /\ (2 ^ 20 <= Z.abs n)%Z.
Proof.
  intros B F H w. destruct (norm_split x B F H) as (s & E & m & HE & Hm & ->). unfold w, rs_k_tan_zero_low_word. clear w.
  assert (R : (0 <= E * 2 ^ 52 + m < 2 ^ 63)%Z) by nia. rewrite land_mask32 by (destruct s; cbn [bs]; lia). 
  assert (M : ((bs s * 2 ^ 63 + (E * 2 ^ 52 + m)) mod 2 ^ 32 = m mod 2 ^ 32)%Z) by (replace (bs s * 2 ^ 63 + (E * 2 ^ 52 + m))%Z with (m + (bs s * 2 ^ 31 + E * 2 ^ 20) * 2 ^ 32)%Z by ring; apply Z.mod_add; lia).
  rewrite M. pose proof (Z.mod_pos_bound m (2 ^ 32) ltac:(lia)) as MB. pose proof (Z.div_mod m (2 ^ 32) ltac:(lia)) as DM. set (l := (m mod 2 ^ 32)%Z) in *. set (h := (m / 2 ^ 32)%Z) in *.
  replace (bs s * 2 ^ 63 + (E * 2 ^ 52 + m) - l)%Z with (bs s * 2 ^ 63 + (E * 2 ^ 52 + (m - l)))%Z by ring.
  destruct (norm64 E m HE Hm) as (B1 & F1 & S1 & V1). destruct (norm64 E (m - l) HE ltac:(lia)) as (B2 & F2 & S2 & V2).
  destruct (sval64 s (E * 2 ^ 52 + m) R) as (B3 & F3 & V3). destruct (sval64 s (E * 2 ^ 52 + (m - l))) as (B4 & F4 & V4); [lia|]. rewrite F2 in F4. split; [exact B4|]. split; [exact F4|]. rewrite V3, V4, V1, V2.
  assert (P : 0 < bpow radix2 (E - 1075)) by apply bpow_gt_0. split.
  - replace (Rabs (sval s (IZR (2 ^ 52 + (m - l)) * bpow radix2 (E - 1075)) - sval s (IZR (2 ^ 52 + m) * bpow radix2 (E - 1075)))) with (IZR l * bpow radix2 (E - 1075)).
    2:{ assert (0 <= IZR l) by (apply IZR_le; lia). rewrite !plus_IZR, minus_IZR. destruct s; cbn [sval]; [rewrite Rabs_pos_eq|rewrite Rabs_left1]; try ring; nra. }
    replace (Rabs (sval s (IZR (2 ^ 52 + m) * bpow radix2 (E - 1075)))) with (IZR (2 ^ 52 + m) * bpow radix2 (E - 1075)).
    2:{ assert (0 <= IZR (2 ^ 52 + m)) by (apply IZR_le; lia). destruct s; cbn [sval]; [rewrite Rabs_Ropp|]; rewrite Rabs_pos_eq; try reflexivity; nra. }
    rewrite <- Rmult_assoc. apply Rmult_le_compat_r; [lra|]. assert (Q : (1048576 * l <= 2 ^ 52 + m)%Z) by lia. apply IZR_le in Q. rewrite mult_IZR in Q. lra.
  - exists (if s then - (2 ^ 20 + h) else 2 ^ 20 + h)%Z, (E - 1075 + 32)%Z. assert (0 <= h < 2 ^ 20)%Z by (unfold h; split; [apply Z.div_pos; lia|apply Z.div_lt_upper_bound; lia]). split; [|destruct s; lia].
    replace (2 ^ 52 + (m - l))%Z with ((2 ^ 20 + h) * 2 ^ 32)%Z by lia. rewrite mult_IZR, (bpow_plus radix2 (E - 1075) 32). change (bpow radix2 32) with (IZR (2 ^ 32)). destruct s; cbn [sval]; rewrite ?opp_IZR; ring.
Qed.
(** ** The normalised real computation *)
Lemma absb a b c d : Rabs (a - b) <= c -> Rabs b <= d -> Rabs a <= c + d.
Proof. intros H K. replace a with ((a - b) + b) by ring. eapply Rle_trans; [apply Rabs_triang|]. lra. Qed.
Lemma absm a b c d : Rabs a <= c -> Rabs b <= d -> Rabs (a * b) <= c * d.
Proof. intros H K. rewrite Rabs_mult. apply Rmult_le_compat; try assumption; apply Rabs_pos. Qed.
Lemma recip_norm w w0 a a0 v p q m t : 0 <= t <= / 1267650600228229401496703205376 ->
  Rabs (w - 1) <= 2 * u -> Rabs (w0 - w) <= / 1048576 * Rabs w -> Rabs (a * w + 1) <= 2 * u -> Rabs (a0 - a) <= / 1048576 * Rabs a -> Rabs (v - (1 - w0)) <= u * Rabs (1 - w0) + t -> Rabs (p - a0 * v) <= u * Rabs (a0 * v) + t ->
  Rabs (q - (1 + a0 * w0 + p)) <= u * Rabs (1 + a0 * w0 + p) + t -> Rabs (m - a * q) <= u * Rabs (a * q) + t -> Rabs (a0 + m + 1) <= / 36893488147419103232.
Proof.
  intros Ht H1 H2 H3 H4 H5 H6 H7 H8.
  assert (W1 : Rabs w <= 1.0001) by (apply Rabs_le_inv in H1; apply Rabs_le; lra).
  assert (A1 : Rabs (a + 1) <= 4.1 * u).
  { assert (Q : Rabs a <= 1.001). { apply Rabs_le_inv in H1. apply Rabs_le_inv in H3. assert (0.9999 <= w) by lra. apply Rabs_le. split; nra. }
    replace (a + 1) with ((a * w + 1) + a * (- (w - 1))) by ring. eapply Rle_trans; [apply Rabs_triang|]. pose proof (absm a (- (w - 1)) 1.001 (2 * u) Q ltac:(now rewrite Rabs_Ropp)). lra. }
  assert (A2 : Rabs a <= 1.0001) by (apply Rabs_le_inv in A1; apply Rabs_le; lra).
  assert (D0 : Rabs (a0 + 1) <= 1.001 / 1048576) by (replace (a0 + 1) with ((a0 - a) + (a + 1)) by ring; eapply Rle_trans; [apply Rabs_triang|]; lra).
  assert (W0 : Rabs (1 - w0) <= 1.001 / 1048576) by (replace (1 - w0) with (- ((w0 - w) + (w - 1))) by ring; rewrite Rabs_Ropp; eapply Rle_trans; [apply Rabs_triang|]; lra).
  assert (V0 : Rabs (v - (1 - w0)) <= 1.1 / 1048576 * u) by lra.
  assert (V1 : Rabs v <= 1.1 / 1048576) by (pose proof (absb _ _ _ _ V0 W0); lra).
  assert (A3 : Rabs a0 <= 1.001) by (apply Rabs_le_inv in D0; apply Rabs_le; lra).
  assert (P1 : Rabs (p - a0 * (1 - w0)) <= 2.4 / 1048576 * u).
  { replace (p - a0 * (1 - w0)) with ((p - a0 * v) + a0 * (v - (1 - w0))) by ring. eapply Rle_trans; [apply Rabs_triang|]. pose proof (absm a0 v _ _ A3 V1). pose proof (absm a0 (v - (1 - w0)) _ _ A3 V0). lra. }
  assert (Q1 : Rabs (1 + a0 * w0 + p - (a0 + 1)) <= 2.4 / 1048576 * u) by (replace (1 + a0 * w0 + p - (a0 + 1)) with (p - a0 * (1 - w0)) by ring; exact P1).
  assert (Q2 : Rabs (1 + a0 * w0 + p) <= 1.1 / 1048576) by (pose proof (absb _ _ _ _ Q1 D0); lra).
  assert (Q3 : Rabs (q - (a0 + 1)) <= 3.6 / 1048576 * u) by (replace (q - (a0 + 1)) with ((q - (1 + a0 * w0 + p)) + (1 + a0 * w0 + p - (a0 + 1))) by ring; eapply Rle_trans; [apply Rabs_triang|]; lra).
  assert (Q4 : Rabs q <= 1.1 / 1048576) by (pose proof (absb _ _ _ _ Q3 D0); lra).
  replace (a0 + m + 1) with ((m - a * q) + (a + 1) * q - (q - (a0 + 1))) by ring. pose proof (absm a q _ _ A2 Q4). pose proof (absm (a + 1) q _ _ A1 Q4).
  set (t1 := m - a * q) in *. set (t2 := (a + 1) * q) in *. set (t3 := q - (a0 + 1)) in *. pose proof (Rabs_triang (t1 + t2) (- t3)) as K1. pose proof (Rabs_triang t1 t2). rewrite Rabs_Ropp in K1. unfold Rminus. lra.
Qed.
Lemma norm1 w w0 a a0 : Rabs (w - 1) <= 2 * u -> Rabs (w0 - w) <= / 1048576 * Rabs w -> Rabs (a * w + 1) <= 2 * u -> Rabs (a0 - a) <= / 1048576 * Rabs a ->
  Rabs (a0 + 1) <= 1.001 / 1048576 /\ Rabs (1 - w0) <= 1.001 / 1048576 /\ Rabs a <= 1.001 /\ Rabs (1 + a0 * w0) <= 3 / 1048576.
Proof.
  intros H1 H2 H3 H4. assert (W1 : Rabs w <= 1.0001) by (apply Rabs_le_inv in H1; apply Rabs_le; lra).
  assert (Q : Rabs a <= 1.001). { apply Rabs_le_inv in H1. apply Rabs_le_inv in H3. assert (0.9999 <= w) by lra. apply Rabs_le. split; nra. }
  assert (A1 : Rabs (a + 1) <= 4.1 * u). { replace (a + 1) with ((a * w + 1) + a * (- (w - 1))) by ring. eapply Rle_trans; [apply Rabs_triang|]. pose proof (absm a (- (w - 1)) 1.001 (2 * u) Q ltac:(now rewrite Rabs_Ropp)). lra. }
  assert (A2 : Rabs a <= 1.0001) by (apply Rabs_le_inv in A1; apply Rabs_le; lra).
  assert (D0 : Rabs (a0 + 1) <= 1.001 / 1048576) by (replace (a0 + 1) with ((a0 - a) + (a + 1)) by ring; eapply Rle_trans; [apply Rabs_triang|]; lra).
  assert (W0 : Rabs (1 - w0) <= 1.001 / 1048576) by (replace (1 - w0) with (- ((w0 - w) + (w - 1))) by ring; rewrite Rabs_Ropp; eapply Rle_trans; [apply Rabs_triang|]; lra).
  repeat (split; [assumption|]). replace (1 + a0 * w0) with ((a0 + 1) + ((1 - w0) + - ((a0 + 1) * (1 - w0)))) by ring. pose proof (absm _ _ _ _ D0 W0) as M. eapply Rle_trans; [apply Rabs_triang|]. pose proof (Rabs_triang (1 - w0) (- ((a0 + 1) * (1 - w0)))) as K. rewrite Rabs_Ropp in K. lra.
Qed.
Lemma divT a b T : T <> 0 -> Rabs a <= b * Rabs T -> Rabs (a / T) <= b.
Proof. intros N H. pose proof (Rabs_pos_lt T N). apply Rmult_le_reg_r with (Rabs T); [assumption|]. rewrite <- Rabs_mult. replace (a / T * T) with a by (field; assumption). exact H. Qed.
Lemma mulT a T : T <> 0 -> Rabs a = Rabs (a / T) * Rabs T.
Proof. intros N. rewrite <- Rabs_mult. f_equal. field. assumption. Qed.
Lemma sterb a b : repr f64 a -> repr f64 b -> Rabs (a - b) <= Rabs b / 2 -> repr f64 (a - b).
Proof.
  intros A B H. destruct (Rle_lt_dec 0 b) as [P | P].
  - rewrite (Rabs_pos_eq b P) in H. apply Rabs_le_inv in H. apply sterbenz; [apply fmt_valid_exp|apply FLT_exp_monotone|exact A|exact B|lra].
  - rewrite (Rabs_left b P) in H. apply Rabs_le_inv in H. replace (a - b) with (- ((- a) - (- b))) by ring. apply repr_opp. apply sterbenz; [apply fmt_valid_exp|apply FLT_exp_monotone|now apply repr_opp|now apply repr_opp|lra].
Qed.
(** ** The code *)
Definition recip (x r w : Z) : Z := let w0 := rs_k_tan_zero_low_word w in let a := 0xbff0000000000000 /: w in let a0 := rs_k_tan_zero_low_word a in
  a *: ((0x3ff0000000000000 +: (a0 *: w0)) +: (a0 *: (r -: (w0 -: x)))).
Lemma e100 : bpow radix2 (-100) = / 1267650600228229401496703205376. Proof. reflexivity. Qed.
Lemma recip_ok x r w : isbits f64 x -> finite f64 x = true -> isbits f64 r -> finite f64 r = true -> isbits f64 w -> finite f64 w = true -> let T := val f64 x + val f64 r in
  bpow radix2 (-97) <= Rabs T <= 2 -> Rabs (T - val f64 x) <= 0.3 * Rabs (val f64 x) -> val f64 w = rnd f64 T ->
  finite f64 (recip x r w) = true /\ let a0 := rs_k_tan_zero_low_word (0xbff0000000000000 /: w) in isbits f64 a0 /\ finite f64 a0 = true /\ Rabs ((val f64 a0 + val f64 (recip x r w)) * T + 1) <= / 36893488147419103232.
Proof.
  intros Bx Fx Br Fr Bw Fw T TL TX EW. set (X := val f64 x) in *. set (R := val f64 r) in *. set (W := val f64 w) in *.
  pose proof (bpow_gt_0 radix2 (-97)) as P97. assert (T0 : T <> 0) by (intros E; rewrite E, Rabs_R0 in TL; lra). pose proof (Rabs_pos_lt T T0) as TP.
  assert (B200 : bpow radix2 (-200) <= bpow radix2 (-100) * Rabs T). { apply Rle_trans with (bpow radix2 (-100) * bpow radix2 (-97)); [rewrite <- bpow_plus; apply bpow_le; lia|apply Rmult_le_compat_l; [apply bpow_ge_0|lra]]. }
  assert (B200' : bpow radix2 (-200) <= bpow radix2 (-100)) by (apply bpow_le; lia). rewrite e100 in *. assert (G97 : bpow radix2 (-1022) <= / 4 * bpow radix2 (-97)). { apply Rle_trans with (bpow radix2 (-2 + -97)); [apply bpow_le; lia|]. rewrite bpow_plus. right. reflexivity. }
  pose proof (rnd64_err T) as HW. rewrite <- EW in HW. assert (HW1 : Rabs (W - T) <= 2 * u * Rabs T) by lra.
  pose proof (Rabs_triang_inv W T) as WT. pose proof (Rabs_triang_inv T W) as WT'. rewrite (Rabs_minus_sym T W) in WT'. assert (WB : 0.9999 * Rabs T <= Rabs W <= 1.0001 * Rabs T) by lra.
  assert (WN : W <> 0) by (intros E; rewrite E, Rabs_R0 in WB; lra).
  destruct (zlw w Bw Fw ltac:(fold W; lra)) as (B0 & F0 & H0 & n0 & e0 & V0 & N0 & N0'). set (w0 := rs_k_tan_zero_low_word w) in *. set (W0 := val f64 w0) in *. fold W in H0.
  assert (W0T : Rabs (W0 - T) <= 0.01 * Rabs T). { replace (W0 - T) with ((W0 - W) + (W - T)) by ring. eapply Rle_trans; [apply Rabs_triang|]. lra. }
  pose proof (Rabs_triang_inv T X) as TX'. assert (XB : Rabs T <= 1.3 * Rabs X) by lra.
  assert (SX : Rabs (W0 - X) <= Rabs X / 2). { replace (W0 - X) with ((W0 - T) + (T - X)) by ring. eapply Rle_trans; [apply Rabs_triang|]. lra. }
  pose proof (Rabs_triang_inv X T) as TX2. rewrite (Rabs_minus_sym X T) in TX2. assert (XB2 : Rabs X <= 3) by lra.
  (* w0 - x *)
  destruct (sub64 w0 x 2 F0 Fx) as [F1 E1]; [fold W0 X; lra|apply big1000; lra|]. fold W0 X in E1. rewrite repr_rnd in E1 by (apply sterb; [now apply repr_val|now apply repr_val|exact SX]).
  assert (V1 : R - val f64 (w0 -: x) = T - W0) by (rewrite E1; unfold T; ring).
  destruct (sub64 r (w0 -: x) 2 Fr F1) as [F2 E2]; [fold R; rewrite V1, Rabs_minus_sym; lra|apply big1000; lra|]. fold R in E2. rewrite V1 in E2. set (v2 := r -: (w0 -: x)) in *.
  pose proof (rnd64_err (T - W0)) as H2. rewrite <- E2 in H2.
  (* the reciprocal *)
  assert (M1 : val f64 0xbff0000000000000 = -1) by (replace (-1) with (-1 / 1) by field; lit). assert (F1' : finite f64 0xbff0000000000000 = true) by reflexivity.
  assert (IW : Rabs (-1 / W) * Rabs W = 1). { rewrite <- Rabs_mult. replace (-1 / W * W) with (- (1)) by (field; assumption). rewrite Rabs_Ropp. apply Rabs_R1. }
  assert (IB : Rabs (-1 / W) <= bpow radix2 98). { apply Rmult_le_reg_r with (Rabs W); [lra|]. rewrite IW. apply Rle_trans with (bpow radix2 98 * (0.9999 * bpow radix2 (-97))); [|apply Rmult_le_compat_l; [apply bpow_ge_0|lra]]. replace (bpow radix2 98 * (0.9999 * bpow radix2 (-97))) with (0.9999 * (bpow radix2 98 * bpow radix2 (-97))) by ring. rewrite <- bpow_plus. change (bpow radix2 (98 + -97)) with 2. lra. }
  destruct (div64 0xbff0000000000000 w (bpow radix2 98) F1' Fw WN) as [F3 E3]; [rewrite M1; fold W; exact IB|apply bpow_le; lia|]. rewrite M1 in E3. fold W in E3. assert (B3 : isbits f64 (0xbff0000000000000 /: w)) by apply fdiv_isbits. set (a := 0xbff0000000000000 /: w) in *. set (A := val f64 a) in *.
  assert (IL : 0.49 <= Rabs (-1 / W)). { apply Rmult_le_reg_r with (Rabs W); [lra|]. rewrite IW. lra. }
  pose proof (rnd64_err (-1 / W)) as H3. rewrite <- E3 in H3. pose proof tiny200 as T200.
  assert (H3' : Rabs (A * W + 1) <= 2 * u). { replace (A * W + 1) with ((A - -1 / W) * W) by (field; assumption). rewrite Rabs_mult. apply Rle_trans with ((2 * u * Rabs (-1 / W)) * Rabs W); [apply Rmult_le_compat_r; [apply Rabs_pos|lra]|]. rewrite Rmult_assoc, IW. lra. }
  pose proof (Rabs_triang_inv (-1 / W) A) as AL. rewrite (Rabs_minus_sym (-1 / W) A) in AL.
  destruct (zlw a B3 F3 ltac:(fold A; pose proof (bpow_le radix2 (-1022) (-2) ltac:(lia)) as Q; change (bpow radix2 (-2)) with (/ 4) in Q; lra)) as (B4 & F4 & H4 & n4 & e4 & V4 & N4 & N4'). set (a0 := rs_k_tan_zero_low_word a) in *. set (A0 := val f64 a0) in *. fold A in H4.
  assert (C1 : Rabs (W / T - 1) <= 2 * u). { replace (W / T - 1) with ((W - T) / T) by (field; assumption). now apply divT. }
  assert (C2 : Rabs (W0 / T - W / T) <= / 1048576 * Rabs (W / T)). { replace (W0 / T - W / T) with ((W0 - W) / T) by (field; assumption). apply divT; [assumption|]. rewrite Rmult_assoc, <- (mulT W) by assumption. exact H0. }
  assert (C3 : Rabs (A * T * (W / T) + 1) <= 2 * u). { replace (A * T * (W / T)) with (A * W) by (field; assumption). exact H3'. }
  assert (C4 : Rabs (A0 * T - A * T) <= / 1048576 * Rabs (A * T)). { replace (A0 * T - A * T) with ((A0 - A) * T) by ring. rewrite !Rabs_mult, <- Rmult_assoc. apply Rmult_le_compat_r; [lra|exact H4]. }
  destruct (norm1 _ _ _ _ C1 C2 C3 C4) as (D1 & D2 & D3 & D4). replace (A0 * T * (W0 / T)) with (A0 * W0) in D4 by (field; assumption).
  (* a0 * w0 is exact *)
  assert (RA : repr f64 (A0 * W0)). { rewrite V0, V4. replace (IZR n4 * bpow radix2 e4 * (IZR n0 * bpow radix2 e0)) with (IZR (n4 * n0) * bpow radix2 (e4 + e0)) by (rewrite mult_IZR, bpow_plus; ring). apply repr_int; [change (2 ^ (mw f64 + 1))%Z with (2 ^ 53)%Z; rewrite Z.abs_mul; nia|].
    destruct (Z_le_gt_dec (emin f64) (e4 + e0)) as [|Q]; [assumption|exfalso]. assert (K : Rabs (A0 * W0) <= / 2). { rewrite V0, V4. replace (IZR n4 * bpow radix2 e4 * (IZR n0 * bpow radix2 e0)) with (IZR (n4 * n0) * bpow radix2 (e4 + e0)) by (rewrite mult_IZR, bpow_plus; ring).
      rewrite Rabs_mult, <- abs_IZR, (Rabs_pos_eq (bpow radix2 (e4 + e0))) by apply bpow_ge_0. apply Rle_trans with (bpow radix2 42 * bpow radix2 (-43)); [|rewrite <- bpow_plus; right; reflexivity]. apply Rmult_le_compat; [apply IZR_le; lia|apply bpow_ge_0|change (bpow radix2 42) with (IZR (2 ^ 42)); apply IZR_le; rewrite Z.abs_mul; nia|apply bpow_le]. change (emin f64) with (-1074)%Z in Q. lia. }
    apply Rabs_le_inv in K. apply Rabs_le_inv in D4. lra. }
  destruct (mul64 a0 w0 2 F4 F0) as [F5 E5]; [fold A0 W0; apply Rabs_le_inv in D4; apply Rabs_le; lra|apply big1000; lra|]. fold A0 W0 in E5. rewrite (repr_rnd f64 _ RA) in E5.
  assert (O1 : val f64 0x3ff0000000000000 = 1) by apply one64. assert (FO : finite f64 0x3ff0000000000000 = true) by reflexivity.
  destruct (add64 0x3ff0000000000000 (a0 *: w0) 2 FO F5) as [F6 E6]; [rewrite O1, E5; lra|apply big1000; lra|]. rewrite O1, E5 in E6.
  assert (R1 : repr f64 1) by (rewrite <- O1; now apply repr_val). replace (1 + A0 * W0) with (1 - - (A0 * W0)) in E6 by ring. rewrite repr_rnd in E6 by (apply sterb; [exact R1|now apply repr_opp|]; rewrite Rabs_Ropp; replace (1 - - (A0 * W0)) with (1 + A0 * W0) by ring; apply Rabs_le_inv in D4; rewrite (Rabs_left (A0 * W0)) by lra; apply Rabs_le; lra).
  replace (1 - - (A0 * W0)) with (1 + A0 * W0) in E6 by ring.
  assert (C5 : Rabs (val f64 v2 / T - (1 - W0 / T)) <= u * Rabs (1 - W0 / T) + / 1267650600228229401496703205376). { replace (1 - W0 / T) with ((T - W0) / T) by (field; assumption). replace (val f64 v2 / T - (T - W0) / T) with ((val f64 v2 - (T - W0)) / T) by (field; assumption). apply divT; [assumption|]. rewrite Rmult_plus_distr_r, Rmult_assoc, <- (mulT (T - W0)) by assumption. lra. }
  assert (D5 : Rabs (A0 * val f64 v2) <= 1). { replace (A0 * val f64 v2) with ((A0 * T) * (val f64 v2 / T)) by (field; assumption). assert (Rabs (A0 * T) <= 1.01) by (apply Rabs_le_inv in D1; apply Rabs_le; lra). assert (Rabs (val f64 v2 / T) <= / 100) by (pose proof (absb _ _ _ _ C5 D2); lra). pose proof (absm (A0 * T) (val f64 v2 / T) _ _ H H1). lra. }
  destruct (mul64 a0 v2 2 F4 F2) as [F7 E7]; [fold A0; lra|apply big1000; lra|]. fold A0 in E7. pose proof (rnd64_err (A0 * val f64 v2)) as H7. rewrite <- E7 in H7. set (p := a0 *: v2) in *.
  assert (D6 : Rabs (val f64 p) <= 2) by (pose proof (absb _ _ _ _ H7 D5); lra).
  destruct (add64 (0x3ff0000000000000 +: (a0 *: w0)) p 4 F6 F7) as [F8 E8]; [rewrite E6; eapply Rle_trans; [apply Rabs_triang|]; lra|apply big1000; lra|]. rewrite E6 in E8. pose proof (rnd64_err (1 + A0 * W0 + val f64 p)) as H8. rewrite <- E8 in H8. set (q := (0x3ff0000000000000 +: (a0 *: w0)) +: p) in *.
  assert (D7 : Rabs (1 + A0 * W0 + val f64 p) <= 3) by (eapply Rle_trans; [apply Rabs_triang|]; lra). assert (D8 : Rabs (val f64 q) <= 4) by (pose proof (absb _ _ _ _ H8 D7); lra).
  assert (D9 : Rabs A <= 2 * bpow radix2 98) by (replace A with ((A - -1 / W) + -1 / W) by ring; eapply Rle_trans; [apply Rabs_triang|]; lra).
  destruct (mul64 a q (bpow radix2 101) F3 F8) as [F9 E9]; [fold A; eapply Rle_trans; [apply (absm _ _ _ _ D9 D8)|]; right; replace (2 * bpow radix2 98 * 4) with (bpow radix2 98 * 8) by ring; change 8 with (bpow radix2 3); rewrite <- bpow_plus; reflexivity|apply bpow_le; lia|]. fold A in E9. pose proof (rnd64_err (A * val f64 q)) as H9. rewrite <- E9 in H9.
  unfold recip. cbv zeta. fold w0. fold a. fold a0. fold v2. fold p. fold q. split; [exact F9|]. split; [exact B4|]. split; [exact F4|]. fold A0. set (Mq := val f64 (a *: q)) in *. clearbody Mq. rewrite Rmult_plus_distr_r.
  apply (recip_norm (W / T) (W0 / T) (A * T) (A0 * T) (val f64 v2 / T) (val f64 p) (val f64 q) (Mq * T) (/ 1267650600228229401496703205376)); try assumption; [lra| | |].
  - replace (A0 * T * (val f64 v2 / T)) with (A0 * val f64 v2) by (field; assumption). lra.
  - replace (A0 * T * (W0 / T)) with (A0 * W0) by (field; assumption). lra.
  - generalize dependent (val f64 q). intros Q. intros. replace (Mq * T - A * T * Q) with ((Mq - A * Q) * T) by ring. replace (A * T * Q) with ((A * Q) * T) by ring. rewrite !(Rabs_mult _ T).
    apply Rle_trans with ((u * Rabs (A * Q) + bpow radix2 (-200)) * Rabs T); [apply Rmult_le_compat_r; [lra|exact H9]|]. rewrite Rmult_plus_distr_r. assert (bpow radix2 (-200) * Rabs T <= bpow radix2 (-200) * 2) by (apply Rmult_le_compat_l; lra).
    assert (2 * bpow radix2 (-200) <= / 1267650600228229401496703205376). { rewrite <- e100. change 2 with (bpow radix2 1) at 1. rewrite <- bpow_plus. apply bpow_le. lia. } lra.
Qed.
