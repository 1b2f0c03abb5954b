(** Sign symmetry of the double precision [tan]. *)
From Coq Require Import ZArith Reals Lia Lra Bool List Psatz.
From Flocq Require Import Core.
From Verif Require Import Base Spec SpecFun SpecAcc SpecUlp SpecSym Format P_format Ieee P_ieee P_real P_lit P_neg M_basic M_elib M_rempio2 M_trig
  P_elem P_elem2 P_tot P_sc P_sym P_sym2 P_sym3 P_err P_tanf2 P_kerf P_kerf2 P_symf P_red64 P_red64b P_red64d P_ksc P_ker64 P_trig64 P_sym64 P_tan64r P_tan64b P_tan64o P_tan64s P_tan64c P_tan64d P_tan64t.
Open Scope Z_scope.
Open Scope fl_scope.

Lemma ulps_nz v q : within_ulps f64 1.5 v q -> (bpow radix2 (-200) <= Rabs v)%R -> (Rabs v / 2 <= Rabs (val f64 q))%R /\ val f64 q <> 0%R.
Proof.
  intros (_ & _ & H) L. assert (U : (ulpF f64 v <= Rabs v * bpow radix2 (1 - 53))%R).
  { unfold ulpF. apply ulp_FLT_le. eapply Rle_trans; [|exact L]. apply bpow_le. vm_compute. discriminate. }
  change (bpow radix2 (1 - 53)) with (/ 4503599627370496)%R in U. pose proof (bpow_gt_0 radix2 (-200)). pose proof (Rabs_triang_inv v (v - val f64 q)) as TI. replace (v - (v - val f64 q))%R with (val f64 q) in TI by ring. rewrite (Rabs_minus_sym v) in TI.
  assert (K : (Rabs v / 2 <= Rabs (val f64 q))%R) by lra. split; [exact K|]. intros E. rewrite E, Rabs_R0 in K. lra.
Qed.
Lemma ulps_strict v a b : within_ulps f64 1.5 v a -> (bpow radix2 (-200) <= Rabs v)%R -> rel f64 false true a b -> rel f64 true true a b /\ b = fneg f64 a.
Proof.
  intros FA H R. assert (S : rel f64 true true a b) by (apply rel_strict; [exact R|]; intros _; now apply (ulps_nz v)). split; [exact S|]. apply (rel_eq f64 true a b S). apply finite_not_nan. apply FA.
Qed.
Lemma zlw_fneg x : isbits f64 x -> rs_k_tan_zero_low_word (fneg f64 x) = fneg f64 (rs_k_tan_zero_low_word x).
Proof.
  intros _. unfold rs_k_tan_zero_low_word, fneg. apply Z.bits_inj'. intros n Hn. rewrite Z.land_spec, !Z.lxor_spec, Z.land_spec. change (SIGN_MASK f64) with (2 ^ 63). change 0xffffffff00000000 with (Z.shiftl (Z.ones 32) 32).
  rewrite Z.shiftl_spec by lia. destruct (Z.eq_dec n 63) as [-> | N].
  - rewrite Z.pow2_bits_true by lia. change (Z.testbit (Z.ones 32) (63 - 32)) with true. destruct (Z.testbit x 63); reflexivity.
  - rewrite Z.pow2_bits_false by lia. rewrite !xorb_false_r. reflexivity.
Qed.
Lemma zlw_isbits x : isbits f64 x -> isbits f64 (rs_k_tan_zero_low_word x).
Proof. intros [H1 H2]. unfold rs_k_tan_zero_low_word. change (2 ^ width f64) with (2 ^ 64) in H2. unfold isbits. change (2 ^ width f64) with (2 ^ 64). rewrite land_mask32 by lia. pose proof (Z.mod_pos_bound x (2 ^ 32) ltac:(lia)). pose proof (Z.mod_le x (2 ^ 32) ltac:(lia) ltac:(lia)). lia. Qed.

Lemma tanR_rel x x' y y' : rel f64 false true x x' -> rel f64 false true y y' -> rel f64 false true (tanR x y) (tanR x' y').
Proof.
  intros Rx Ry. unfold tanR. cbv zeta. pose proof (rel_weaken _ _ _ _ _ (rel_square _ _ _ _ _ Rx)) as RZ. set (z := x *: x) in *. set (z' := x' *: x') in *. clearbody z z'.
  pose proof (rel_fmul f64 false false false _ _ _ _ RZ RZ) as RW. cbn [xorb] in RW. set (w := z *: z) in *. set (w' := z' *: z') in *. clearbody w w'.
  pose proof (rel_fmul f64 false false true _ _ _ _ RZ Rx) as RV. cbn [xorb] in RV. set (v := z *: x) in *. set (v' := z' *: x') in *. clearbody v v'.
  apply (rel_fadd f64 false true); [|apply (rel_fmul f64 false true false); [exact RV|rl]].
  apply (rel_fadd f64 false true); [exact Ry|]. apply (rel_fmul f64 false false true); [exact RZ|]. apply (rel_fadd f64 false true); [|exact Ry]. apply (rel_fmul f64 false true false); [exact RV|]. rl.
Qed.
(** the reciprocal *)
Lemma recip_rel x x' r r' w w' : rel f64 false true x x' -> rel f64 false true r r' -> rel f64 true true w w' -> finite f64 w = true -> finite f64 (0xbff0000000000000 /: w) = true ->
  rel f64 false true (rs_k_tan_zero_low_word (0xbff0000000000000 /: w) +: recip x r w) (rs_k_tan_zero_low_word (0xbff0000000000000 /: w') +: recip x' r' w').
Proof.
  intros Rx Rr Rw Fw Fa. assert (M1 : rel f64 true false 0xbff0000000000000 0xbff0000000000000) by (apply c_rel; reflexivity).
  pose proof (rel_fdiv f64 true false true _ _ _ _ M1 Rw) as Ra. cbn [xorb] in Ra. unfold recip. cbv zeta. set (a := 0xbff0000000000000 /: w) in *. set (a' := 0xbff0000000000000 /: w') in *. clearbody a a'.
  pose proof (rel_eq f64 true _ _ Rw (finite_not_nan _ _ Fw)) as Ew. pose proof (rel_eq f64 true _ _ Ra (finite_not_nan _ _ Fa)) as Ea. cbv iota in Ew, Ea.
  destruct (rel_bits _ _ _ _ _ Rw) as [Bw _]. destruct (rel_bits _ _ _ _ _ Ra) as [Ba _].
  assert (R0 : rel f64 false true (rs_k_tan_zero_low_word w) (rs_k_tan_zero_low_word w')) by (rewrite Ew, zlw_fneg by exact Bw; apply rel_fneg, zlw_isbits, Bw).
  assert (A0 : rel f64 false true (rs_k_tan_zero_low_word a) (rs_k_tan_zero_low_word a')) by (rewrite Ea, zlw_fneg by exact Ba; apply rel_fneg, zlw_isbits, Ba).
  set (w0 := rs_k_tan_zero_low_word w) in *. set (w0' := rs_k_tan_zero_low_word w') in *. set (a0 := rs_k_tan_zero_low_word a) in *. set (a0' := rs_k_tan_zero_low_word a') in *. clear Ew Ea. clearbody w0 w0' a0 a0'. apply rel_weaken in Ra.
  apply (rel_fadd f64 false true); [exact A0|]. apply (rel_fmul f64 false true false); [exact Ra|]. apply (rel_fadd f64 false false).
  - apply (rel_fadd f64 false false); [apply c_rel; reflexivity|]. apply (rel_fmul f64 false true true); assumption.
  - apply (rel_fmul f64 false true true); [exact A0|]. apply (rel_fsub f64 false true); [exact Rr|]. apply (rel_fsub f64 false true); assumption.
Qed.
(** the folded argument does not see the sign of a zero correction *)
Lemma pio4_lo_sub y y2 : finite f64 y = true -> rel f64 false false y y2 -> rs_k_tan_PIO4_LO -: y2 = rs_k_tan_PIO4_LO -: y.
Proof.
  intros Fy R. destruct (Req_dec (val f64 y) 0) as [Z0 | NZ].
  - assert (RR : rel f64 false false (rs_k_tan_PIO4_LO -: y) (rs_k_tan_PIO4_LO -: y2)) by (apply (rel_fsub f64 false false); [apply c_rel; reflexivity|exact R]).
    assert (Q : (val f64 rs_k_tan_PIO4_LO - val f64 y = val f64 rs_k_tan_PIO4_LO)%R) by lra.
    destruct (sub64 rs_k_tan_PIO4_LO y 1 ltac:(reflexivity) Fy) as [FS ES].
    { rewrite Q, q4l_val. unfold q4l. rewrite Rabs_pos_eq; lra. } { change 1%R with (bpow radix2 0). apply bpow_le. lia. }
    rewrite Q in ES. rewrite (repr_rnd f64 (val f64 rs_k_tan_PIO4_LO)) in ES by (apply repr_val; reflexivity).
    apply (rel_eq f64 false _ _); [|now apply finite_not_nan]. apply rel_strict; [exact RR|]. intros _. rewrite ES, q4l_val. unfold q4l. lra.
  - assert (E : y2 = y) by (apply (rel_eq f64 false y y2); [apply rel_strict; [exact R|intros _; exact NZ]|now apply finite_not_nan]). now rewrite E.
Qed.
Lemma tan_lo r : (bpow radix2 (-100) <= Rabs r <= 0.8)%R -> (bpow radix2 (-101) <= Rabs (tan r) <= 4)%R.
Proof.
  intros [H1 H2]. pose proof (sin_low_abs r ltac:(lra)) as L. pose proof (Rabs_pos r). pose proof (cos_ge r 0.8 H2 ltac:(lra)) as C. pose proof (COS_bound r) as [_ C1]. pose proof (SIN_bound r).
  assert (HS : (Rabs (sin r) <= 1)%R) by (apply Rabs_le; lra).
  unfold tan, Rdiv. rewrite Rabs_mult, Rabs_inv, (Rabs_pos_eq (cos r)) by lra. assert (IC : (1 <= / cos r <= 2)%R). { split; [replace 1%R with (/ 1)%R by field; apply Rinv_le; lra|]. replace 2%R with (/ (/ 2))%R by field. apply Rinv_le; lra. }
  set (t := Rabs r) in *. assert (t * t <= 0.64)%R by nra. assert (t * t * t <= 0.64 * t)%R by nra. set (k := (/ cos r)%R) in *. clearbody k.
  assert (bpow radix2 (-100) = 2 * bpow radix2 (-101))%R by (change (-100)%Z with (1 + -101)%Z; rewrite bpow_plus; reflexivity). pose proof (bpow_gt_0 radix2 (-101)). split; nra.
Qed.
Lemma arg_lo x y r : (bpow radix2 (-96) <= Rabs (val f64 x))%R -> arg x y r 0.78542 -> (bpow radix2 (-100) <= Rabs r <= 0.8)%R.
Proof.
  intros H A. split; [|pose proof (arg_r _ _ _ _ A); lra]. destruct A as (_ & _ & _ & _ & _ & HY & HR). set (X := val f64 x) in *. set (Y := val f64 y) in *. clearbody X Y.
  pose proof (Rabs_pos X). assert (T2 : (Rabs X <= Rabs r + Rabs Y + Rabs (X + Y - r))%R) by (unfold Rabs; repeat destruct Rcase_abs; lra).
  assert (bpow radix2 (-96) = 16 * bpow radix2 (-100))%R by (change (-96)%Z with (4 + -100)%Z; rewrite bpow_plus; reflexivity). pose proof (bpow_gt_0 radix2 (-100)). lra.
Qed.
Lemma recip_opp x x' r r' w w' v : rel f64 false true x x' -> rel f64 false true r r' -> rel f64 true true w w' -> finite f64 w = true -> val f64 w <> 0%R -> (bpow radix2 (-101) / 2 <= Rabs (val f64 w))%R ->
  within_ulps f64 1.5 v (rs_k_tan_zero_low_word (0xbff0000000000000 /: w) +: recip x r w) -> (bpow radix2 (-200) <= Rabs v)%R ->
  rs_k_tan_zero_low_word (0xbff0000000000000 /: w') +: recip x' r' w' = fneg f64 (rs_k_tan_zero_low_word (0xbff0000000000000 /: w) +: recip x r w).
Proof.
  intros Rx RT SW Fw WN WL KW VL. apply (ulps_strict _ _ _ KW VL). apply recip_rel; try assumption.
  assert (EM1 : val f64 0xbff0000000000000 = (-1)%R) by (assert (val f64 0xbff0000000000000 = (-1 / 1)%R) as -> by lit; field).
  refine (proj1 (div64 0xbff0000000000000 w (bpow radix2 102) ltac:(vm_compute; reflexivity) Fw WN _ ltac:(apply bpow_le; lia))).
  rewrite EM1. unfold Rdiv. rewrite Rabs_mult, (Rabs_left (-1)), Rabs_inv by lra. assert (LB : (bpow radix2 (-102) <= Rabs (val f64 w))%R).
  { assert (bpow radix2 (-101) = 2 * bpow radix2 (-102))%R by (change (-101)%Z with (1 + -102)%Z; rewrite bpow_plus; reflexivity). lra. }
  replace (bpow radix2 102) with (/ bpow radix2 (-102))%R by (rewrite <- bpow_opp; reflexivity). assert (/ Rabs (val f64 w) <= / bpow radix2 (-102))%R by (apply Rinv_le; [apply bpow_gt_0|exact LB]). lra.
Qed.
Lemma k_tan_opp_big x y y' s : isbits f64 x -> isbits f64 y -> finite f64 y = true -> isbits f64 y' -> 0x3fe59428 <= a64 x / 2 ^ 32 -> rel f64 false true y y' -> rs_k_tan (fneg f64 x) y' (odd1 s) = fneg f64 (rs_k_tan x y (odd1 s)).
Proof.
  intros Bx By Fy By' H Ry. assert (H' : 0x3fe59428 <= a64 (fneg f64 x) / 2 ^ 32) by (rewrite a64_fneg by exact Bx; exact H).
  rewrite (k_tan_big x y s Bx H), (k_tan_big (fneg f64 x) y' s (fneg_bits _ _ Bx) H'). assert (SS : signbit f64 (fneg f64 x) = negb (signbit f64 x)) by (apply fneg_fields; exact Bx). rewrite SS.
  assert (P1 : rs_k_tan_PIO4_LO -: y' = rs_k_tan_PIO4_LO -: fneg f64 y) by (apply pio4_lo_sub; [rewrite fneg_finite; assumption|exact (rel_fneg1 f64 false true _ _ Ry)]).
  assert (P2 : rs_k_tan_PIO4_LO -: fneg f64 y' = rs_k_tan_PIO4_LO -: y) by (apply pio4_lo_sub; [exact Fy|exact (rel_fneg2 f64 false true _ _ Ry)]).
  rewrite P1, P2, (fneg_fneg f64 x Bx). clear. destruct (signbit f64 x); cbv iota beta delta [negb]; [|reflexivity]. symmetry. apply fneg_fneg. apply fsub_isbits.
Qed.
Lemma half_le a b c : (a <= b -> b / 2 <= c -> a / 2 <= c)%R. Proof. lra. Qed.
(** the end of the small branch, over abstract values *)
Lemma small_end x x' t t' v w w' (s : bool) q : w = x +: t -> w' = x' +: t' -> rel f64 false true x x' -> rel f64 false true t t' -> finite f64 w = true -> within_ulps f64 1.5 v w -> (bpow radix2 (-101) <= Rabs v)%R -> within_ulps f64 1.5 q (if odd1 s =? 0 then w else rs_k_tan_zero_low_word (0xbff0000000000000 /: w) +: recip x t w) -> (bpow radix2 (-200) <= Rabs q)%R ->
  (if odd1 s =? 0 then w' else rs_k_tan_zero_low_word (0xbff0000000000000 /: w') +: recip x' t' w') = fneg f64 (if odd1 s =? 0 then w else rs_k_tan_zero_low_word (0xbff0000000000000 /: w) +: recip x t w).
Proof.
  intros Ew Ew' Rx RT Fw TW TL KW VL. assert (RW : rel f64 false true w w') by (subst w w'; exact (rel_fadd f64 false true _ _ _ _ Rx RT)). clear Ew Ew'.
  assert (B2 : (bpow radix2 (-200) <= bpow radix2 (-101))%R) by (apply bpow_le; lia).
  destruct (ulps_strict _ _ _ TW (Rle_trans _ _ _ B2 TL) RW) as [SW EW]. destruct (ulps_nz _ _ TW (Rle_trans _ _ _ B2 TL)) as [WL WN]. destruct s; [change (odd1 true =? 0) with false in *|exact EW].
  apply (recip_opp _ _ _ _ _ _ _ Rx RT SW Fw WN (half_le _ _ _ TL WL) KW VL).
Qed.
Lemma k_tan_opp_small x y x' y' r s : (bpow radix2 (-96) <= Rabs (val f64 x))%R -> arg x y r 0.78542 -> isbits f64 x' -> a64 x' = a64 x -> a64 x / 2 ^ 32 < 0x3fe59428 -> rel f64 false true x x' -> rel f64 false true y y' -> rs_k_tan x' y' (odd1 s) = fneg f64 (rs_k_tan x y (odd1 s)).
Proof.
  intros H96 A Bx' EA H Rx Ry. pose proof (k_tan_ok x y r s H96 A) as [KW _]. pose proof (arg_lo _ _ _ H96 A) as RL. pose proof (tan_lo r RL) as TL. pose proof A as (Bx & Fx & By & Fy & HX & HY & HR).
  assert (VL : (bpow radix2 (-200) <= Rabs (if s then - / tan r else tan r))%R).
  { assert (B2 : (bpow radix2 (-200) <= bpow radix2 (-101))%R) by (apply bpow_le; lia). pose proof (bpow_gt_0 radix2 (-200)) as P2. clear - TL B2 P2. set (t := tan r) in *. clearbody t. assert (TN : t <> 0%R) by (intros E; rewrite E, Rabs_R0 in TL; lra).
    destruct s; [|lra]. rewrite Rabs_Ropp, Rabs_inv. apply Rle_trans with (bpow radix2 (-2)); [apply bpow_le; lia|]. change (bpow radix2 (-2)) with (/ 4)%R. apply Rinv_le; [apply Rabs_pos_lt; exact TN|lra]. }
  assert (H' : a64 x' / 2 ^ 32 < 0x3fe59428) by (rewrite EA; exact H).
  rewrite (k_tan_small x y _ Bx H) in KW. rewrite (k_tan_small x y _ Bx H), (k_tan_small x' y' _ Bx' H'). pose proof (tanR_rel _ _ _ _ Rx Ry) as RT.
  apply div32 in H. destruct (absval64 0 0x3fe5942800000000 x Bx ltac:(lia) ltac:(pose proof (a64_nn x); lia) ltac:(lia)) as [_ HB]. rewrite l_big in HB.
  assert (A' : arg x y r 0.67434). { clear KW RT. repeat (split; [assumption|]). split; [split; [tauto|lra]|]. split; assumption. }
  destruct (tan_even x y r A') as (Fw & _ & _ & TW). clear - TL TW KW VL RT Fw Rx. revert TL TW KW VL RT Fw Rx. generalize (tanR x y) (tanR x' y'). intros t t' TL TW KW VL RT Fw Rx.
  exact (small_end x x' t t' (tan r) (x +: t) (x' +: t') s _ eq_refl eq_refl Rx RT Fw TW (proj1 TL) KW VL).
Qed.
Lemma k_tan_opp x y x' y' r s : (bpow radix2 (-96) <= Rabs (val f64 x))%R -> arg x y r 0.78542 -> rel f64 true true x x' -> rel f64 false true y y' -> rs_k_tan x' y' (odd1 s) = fneg f64 (rs_k_tan x y (odd1 s)).
Proof.
  intros H96 A Rx Ry. pose proof A as (Bx & Fx & By & Fy & _). pose proof (rel_eq f64 true _ _ Rx (finite_not_nan _ _ Fx)) as Ex. cbv iota in Ex.
  destruct (rel_bits _ _ _ _ _ Rx) as [_ Bx']. destruct (rel_bits _ _ _ _ _ Ry) as [_ By'].
  destruct (Z_lt_le_dec (a64 x / 2 ^ 32) 0x3fe59428) as [H | H].
  - apply (k_tan_opp_small x y x' y' r s H96 A Bx'); [rewrite Ex; apply a64_fneg; exact Bx|exact H|exact (rel_weaken _ _ _ _ _ Rx)|exact Ry].
  - rewrite Ex. apply k_tan_opp_big; assumption.
Qed.
Lemma odd1_opp n : Z.land (- n) 1 = Z.land n 1 /\ exists s, Z.land n 1 = odd1 s.
Proof.
  change 1 with (Z.ones 1). rewrite !Z.land_ones by lia. change (2 ^ 1) with 2. pose proof (Z.mod_pos_bound n 2 ltac:(lia)). split.
  - pose proof (Z.div_mod n 2 ltac:(lia)). replace (- n) with (n + (- n) * 2) by lia. apply Z.mod_add. lia.
  - destruct (Z.eq_dec (n mod 2) 0); [exists false|exists true]; cbn [odd1]; lia.
Qed.
Lemma tan_odd : odd_core f64 rs_tan.
Proof.
  intros x r B NN E. destruct (Z_lt_le_dec (a64 x / 2 ^ 32) 0x3fe921fc) as [H | H].
  - assert (F : finite f64 x = true). { rewrite (fin64 x B). apply Z.ltb_lt. apply div32 in H. lia. }
    revert E. unfold rs_tan. cbv zeta. rewrite (ix64 x B), (ix64 _ (fneg_bits _ _ B)), (a64_fneg x B). destruct (Z.leb_spec (a64 x / 2 ^ 32) 0x3fe921fb); [|lia]. apply div32 in H.
    destruct (Z.ltb_spec (a64 x / 2 ^ 32) 0x3e400000) as [Q | Q].
    + intros E. injection E as <-. eexists. split; [reflexivity|]. now apply rel_fneg.
    + intros E. assert (Q' : 0x3e40000000000000 <= a64 x) by (destruct (Z_lt_le_dec (a64 x) (0x3e400000 * 2 ^ 32)) as [K | K]; [apply div32 in K; lia|exact K]).
      pose proof (no_red x 0x3e40000000000000 B F ltac:(lia) Q' ltac:(lia)) as NR. destruct (absval64 0x3e40000000000000 (a64 x) x B ltac:(lia) ltac:(lia) ltac:(lia)) as [LB _]. rewrite c3_64 in LB.
      assert (r = rs_k_tan x 0 0) as -> by congruence. eexists. split; [reflexivity|].
      assert (H96 : (bpow radix2 (-96) <= Rabs (val f64 x))%R). { eapply Rle_trans; [|exact LB]. apply Rle_trans with (bpow radix2 (-27)); [apply bpow_le; lia|]. change (bpow radix2 (-27)) with (/ 134217728)%R. lra. }
      assert (A : arg x 0 (val f64 x) 0.78542).
      { pose proof (Rabs_pos (val f64 x)). split; [exact B|]. split; [exact F|]. split; [split; [lia|reflexivity]|]. split; [reflexivity|]. split; [exact NR|]. rewrite zero64. split; [rewrite Rabs_R0; lra|]. replace (val f64 x + 0 - val f64 x)%R with 0%R by ring. rewrite Rabs_R0. lra. }
      pose proof (k_tan_opp x 0 (fneg f64 x) 0 (val f64 x) false H96 A (rel_fneg _ _ _ B) zero_opp) as K. cbn [odd1] in K. rewrite K. apply rel_fneg. pose proof (k_tan_ok x 0 (val f64 x) false H96 A) as [[KB _] _]. exact KB.
  - destruct (Z_lt_le_dec (a64 x / 2 ^ 32) 0x7ff00000) as [L | L].
    + destruct (rem_pio2_opp true x B ltac:(lia)) as (n & y0 & y1 & y0' & y1' & k & E1 & E2 & R & M & R0 & R1). revert E. unfold rs_tan. cbv zeta. rewrite (ix64 x B), (ix64 _ (fneg_bits _ _ B)), (a64_fneg x B).
      destruct (Z.leb_spec (a64 x / 2 ^ 32) 0x3fe921fb); [lia|]. destruct (Z.leb_spec 0x7ff00000 (a64 x / 2 ^ 32)); [lia|]. unfold rs_rem_pio2. rewrite E1, E2. cbn [bind]. destruct (odd1_opp n) as [EO (s & ES)]. rewrite EO, ES. intros E.
      assert (r = rs_k_tan y0 y1 (odd1 s)) as -> by congruence. eexists. split; [reflexivity|].
      destruct R as (B0 & F0 & B1 & F1 & HR1 & HR2 & HL). rewrite b64 in HR1.
      assert (H96 : (bpow radix2 (-96) <= Rabs (val f64 y0))%R) by (eapply Rle_trans; [|exact (proj1 HL)]; apply bpow_le; lia).
      assert (A : arg y0 y1 (val f64 x - IZR k * (PI / 2)) 0.78542). { repeat (split; [assumption|]). split; [split; [|tauto]|split; assumption]. eapply Rle_trans; [|exact (proj1 HL)]. apply bpow_le. lia. }
      rewrite (k_tan_opp y0 y1 y0' y1' _ s H96 A R0 R1). apply rel_fneg. pose proof (k_tan_ok y0 y1 _ s H96 A) as [[KB _] _]. exact KB.
    + revert E. unfold rs_tan. cbv zeta. rewrite (ix64 x B), (ix64 _ (fneg_bits _ _ B)), (a64_fneg x B). destruct (Z.leb_spec (a64 x / 2 ^ 32) 0x3fe921fb); [lia|]. destruct (Z.leb_spec 0x7ff00000 (a64 x / 2 ^ 32)); [|lia].
      intros E. injection E as <-. eexists. split; [reflexivity|]. exact (inf_sub_rel x true B NN L).
Qed.
