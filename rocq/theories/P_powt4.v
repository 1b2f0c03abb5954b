(** The rounding to an integer of [pow] and [powf], and their exponential step: no overflow, no shift out of range. *)
From Coq Require Import ZArith Reals Lia Lra Bool List Psatz.
From Flocq Require Import Core.
From Verif Require Import Base Spec Format P_format Ieee P_ieee P_real P_neg P_key P_elem P_elem2 P_tot P_exp P_lit P_err P_apx P_ival P_ival2 P_powt P_powt2 P_powt3 M_basic M_elib M_pow.
Open Scope Z_scope.

Lemma valm F s E m : 1 <= E < 2 ^ ew F - 1 -> 0 <= m < 2 ^ mw F -> isbits F (mkbits F s E m) /\ finite F (mkbits F s E m) = true /\ val F (mkbits F s E m) = sval s (IZR (2 ^ mw F + m) * bpow radix2 (E - bias F - mw F))%R.
Proof.
  intros HE Hm. pose proof (mkbits_range F s E m ltac:(lia) Hm) as B. destruct (mkbits_fields F s E m ltac:(lia) Hm) as (S1 & E1 & M1).
  split; [exact B|]. split.
  - unfold finite. rewrite E1. apply Z.ltb_lt. lia.
  - unfold val, mag_of. rewrite S1, E1, M1. destruct (Z.eqb_spec E 0); [lia|reflexivity].
Qed.
(** [a] = (k + B) 2^W + m stands for (2^W + m) 2^(k-W); adding half a unit and clearing the fraction bits rounds it to the integer [n] *)
Lemma nint W B k m a : 0 <= B -> 1 <= W -> -1 <= k <= W - 2 -> 0 <= m < 2 ^ W -> a = (k + B) * 2 ^ W + m ->
  let d := 2 ^ (W - 1 - k) in let a' := a + d in let k' := a' / 2 ^ W - B in
  0 <= k' <= k + 1 /\ exists n m', 0 <= m' < 2 ^ W /\ a' - a' mod 2 ^ (W - k') = (k' + B) * 2 ^ W + m' /\ 2 ^ W + m' = n * 2 ^ (W - k') /\
  (a' mod 2 ^ W + 2 ^ W) / 2 ^ (W - k') = n /\ 1 <= n /\ a' < (k + B + 2) * 2 ^ W /\ - d <= 2 ^ W + m - n * (2 * d) <= d.
Proof.
  intros HB HW HK Hm Ha d a'. assert (P : 0 < 2 ^ W) by (apply Z.pow_pos_nonneg; lia). assert (D : 0 < d) by (apply Z.pow_pos_nonneg; lia).
  assert (DW : 2 ^ W = d * 2 ^ (k + 1)) by (unfold d; rewrite <- Z.pow_add_r by lia; f_equal; lia). assert (D1 : 1 <= 2 ^ (k + 1)) by (apply (Z.pow_le_mono_r 2 0); lia).
  destruct (Z_lt_le_dec (m + d) (2 ^ W)) as [C|C].
  - assert (K0 : 0 <= k). { destruct (Z_lt_le_dec k 0); [|assumption]. exfalso. assert (d = 2 ^ W) by (unfold d; f_equal; lia). lia. }
    assert (Q : a' / 2 ^ W = k + B) by (symmetry; apply Z.div_unique with (m + d); unfold a'; lia).
    assert (R : a' mod 2 ^ W = m + d) by (symmetry; apply Z.mod_unique with (k + B); unfold a'; lia).
    rewrite Q. cbv zeta. replace (k + B - B) with k by lia. split; [lia|].
    assert (Eq : 2 ^ (W - k) = 2 * d) by (unfold d; rewrite <- Z.pow_succ_r by lia; f_equal; lia). rewrite Eq, R.
    assert (EW : 2 ^ W = 2 * d * 2 ^ k) by (rewrite DW, Z.pow_add_r by lia; ring). assert (K1 : 1 <= 2 ^ k) by (apply (Z.pow_le_mono_r 2 0); lia).
    pose proof (Z.div_mod (m + d + 2 ^ W) (2 * d) ltac:(lia)) as DM. pose proof (Z.mod_pos_bound (m + d + 2 ^ W) (2 * d) ltac:(lia)) as MB.
    set (n := (m + d + 2 ^ W) / (2 * d)) in *. set (r := (m + d + 2 ^ W) mod (2 * d)) in *.
    assert (AM : a' mod (2 * d) = r). { unfold r. replace a' with (m + d + 2 ^ W + ((k + B - 1) * 2 ^ k) * (2 * d)) by (unfold a'; rewrite Ha, EW; ring). now rewrite Z.mod_add by lia. }
    rewrite AM. assert (N : 2 ^ k <= n) by (unfold n; apply Z.div_le_lower_bound; lia).
    exists n, (m + d - r). split; [|split; [unfold a'; lia|split; [lia|split; [reflexivity|split; [lia|split; [unfold a'; lia|lia]]]]]].
    split; [|lia]. assert (r <= m + d). { assert (n * (2 * d) >= 2 ^ W) by (rewrite EW; nia). lia. } lia.
  - assert (Q : a' / 2 ^ W = k + 1 + B) by (symmetry; apply Z.div_unique with (m + d - 2 ^ W); unfold a'; nia).
    assert (R : a' mod 2 ^ W = m + d - 2 ^ W) by (symmetry; apply Z.mod_unique with (k + 1 + B); unfold a'; nia).
    rewrite Q. cbv zeta. replace (k + 1 + B - B) with (k + 1) by lia. split; [lia|].
    assert (Eq : 2 ^ (W - (k + 1)) = d) by (unfold d; f_equal; lia). rewrite Eq, R.
    assert (AM : a' mod d = m + d - 2 ^ W). { symmetry. apply Z.mod_unique with ((k + 1 + B) * 2 ^ (k + 1)); [left; lia|]. unfold a'. rewrite Ha, DW. ring_simplify. nia. }
    rewrite AM. exists (2 ^ (k + 1)), 0. split; [lia|]. split; [unfold a'; nia|]. split; [lia|]. split.
    + symmetry. apply Z.div_unique with (m + d - 2 ^ W); [left; lia|lia].
    + split; [lia|]. split; [unfold a'; nia|lia].
Qed.
(** the same on patterns of i32 with the sign bit at 2^31 *)
Lemma land31 j : Z.land j 0x7fffffff = j mod 2 ^ 31. Proof. exact (Z.land_ones j 31 ltac:(lia)). Qed.
Lemma land_lnot x q : 0 <= q -> Z.land x (Z.lnot (2 ^ q - 1)) = x - x mod 2 ^ q.
Proof.
  intros Q. rewrite <- Z.ldiff_land. replace (2 ^ q - 1) with (Z.ones q) by (rewrite Z.ones_equiv; lia).
  rewrite Z.ldiff_ones_r, Z.shiftr_div_pow2, Z.shiftl_mul_pow2 by lia. pose proof (Z.div_mod x (2 ^ q) ltac:(apply Z.pow_nonzero; lia)). lia.
Qed.
Definition sg31 (b : bool) : Z := if b then 2 ^ 31 else 0.
Lemma nint_code W B b k m a j : W = 20 /\ B = 1023 \/ W = 23 /\ B = 127 -> -1 <= k <= 10 -> 0 <= m < 2 ^ W -> a = (k + B) * 2 ^ W + m -> j = a - sg31 b ->
  Z.land j 0x7fffffff = a /\ ssub 32 (Z.shiftr a W) B = Some k /\ sadd 32 k 1 = Some (k + 1) /\ sshr 32 (2 ^ W) (k + 1) = Some (2 ^ (W - 1 - k)) /\
  exists j' k' n m', sadd 32 j (2 ^ (W - 1 - k)) = Some j' /\ ssub 32 (Z.shiftr (Z.land j' 0x7fffffff) W) B = Some k' /\ sshr 32 (2 ^ W - 1) k' = Some (2 ^ (W - k') - 1) /\ ushr 32 (2 ^ W - 1) k' = Some (2 ^ (W - k') - 1) /\
  to_u 32 (Z.land j' (Z.lnot (2 ^ (W - k') - 1))) = sg31 b + (k' + B) * 2 ^ W + m' /\ Z.land (to_u 32 j') (unot 32 (2 ^ (W - k') - 1)) = sg31 b + (k' + B) * 2 ^ W + m' /\
  ssub 32 W k' = Some (W - k') /\ sshr 32 (Z.lor (Z.land j' (2 ^ W - 1)) (2 ^ W)) (W - k') = Some n /\
  0 <= k' <= k + 1 /\ 0 <= m' < 2 ^ W /\ 2 ^ W + m' = n * 2 ^ (W - k') /\ 1 <= n /\ - 2 ^ (W - 1 - k) <= 2 ^ W + m - n * (2 * 2 ^ (W - 1 - k)) <= 2 ^ (W - 1 - k) /\ (j <? 0) = b.
Proof.
  intros HW HK Hm Ha Hj. pose proof (nint W B k m a ltac:(lia) ltac:(lia) ltac:(lia) Hm Ha) as N. cbv zeta in N.
  set (d := 2 ^ (W - 1 - k)) in *. assert (D : 0 < d) by (apply Z.pow_pos_nonneg; lia). set (a' := a + d) in *. set (k' := a' / 2 ^ W - B) in *. destruct N as (HK' & n & m' & Hm' & ET & EN & EQ & N1 & UB & RB).
  assert (P : 0 < 2 ^ W) by (apply Z.pow_pos_nonneg; lia). assert (UB' : a' < 2 ^ 31) by (clearbody k'; clear - HW HK UB; destruct HW as [(-> & ->)|(-> & ->)]; [change (2 ^ 20) with 1048576 in UB|change (2 ^ 23) with 8388608 in UB]; lia).
  assert (A0 : 0 <= a) by (rewrite Ha; nia). assert (SG : sg31 b = 0 \/ sg31 b = 2 ^ 31) by (destruct b; auto).
  assert (M31 : forall x, 0 <= x < 2 ^ 31 -> Z.land (x - sg31 b) 0x7fffffff = x). { intros x Hx. rewrite land31. symmetry. apply Z.mod_unique with (if b then -1 else 0); [left; lia|]. destruct b; cbn [sg31]; lia. }
  assert (SQ : a / 2 ^ W = k + B) by (symmetry; apply Z.div_unique with m; lia).
  assert (IN : forall x, -2 ^ 31 <= x < 2 ^ 31 -> chk 32 x = Some x). { intros x Hx. unfold chk, in_i. change (32 - 1) with 31. rewrite (proj2 (Z.leb_le _ _)), (proj2 (Z.ltb_lt _ _)) by lia. reflexivity. }
  assert (SH : forall x i, 0 <= i < 32 -> sshr 32 x i = Some (x / 2 ^ i)). { intros x i Hi. unfold sshr. rewrite (proj2 (Z.leb_le _ _)), (proj2 (Z.ltb_lt _ _)) by lia. cbn [andb]. rewrite Z.shiftr_div_pow2 by lia. reflexivity. }
  assert (Hj' : a' - sg31 b = j + d) by (unfold a'; lia).
  assert (Q1 : (2 ^ W - 1) / 2 ^ k' = 2 ^ (W - k') - 1). { symmetry. apply Z.div_unique with (2 ^ k' - 1). { left. assert (0 < 2 ^ k') by (apply Z.pow_pos_nonneg; lia). lia. } replace (2 ^ W) with (2 ^ k' * 2 ^ (W - k')) by (rewrite <- Z.pow_add_r by lia; f_equal; lia). ring. }
  assert (KW : k' <= 11) by lia.
  assert (DV : (2 ^ (W - k') | 2 ^ 31)). { exists (2 ^ (31 - (W - k'))). rewrite <- Z.pow_add_r by lia. f_equal. lia. }
  assert (DW : (2 ^ W | 2 ^ 31)). { exists (2 ^ (31 - W)). rewrite <- Z.pow_add_r by lia. f_equal. lia. }
  assert (MD : forall e, (e | 2 ^ 31) -> 0 < e -> (a' - sg31 b) mod e = a' mod e /\ (a' + sg31 b) mod e = a' mod e).
  { intros e (c & Hc) He. destruct b; cbn [sg31]; [|rewrite Z.sub_0_r, Z.add_0_r; auto]. rewrite Hc. split; [|now rewrite Z.mod_add by lia]. replace (a' - c * e) with (a' + (-c) * e) by ring. now rewrite Z.mod_add by lia. }
  assert (PW : 0 < 2 ^ (W - k')) by (apply Z.pow_pos_nonneg; lia).
  assert (MO : 0 <= a' mod 2 ^ (W - k') <= a') by (split; [apply Z.mod_pos_bound; lia|apply Z.mod_le; lia]).
  assert (TU : forall x, 0 <= x < 2 ^ 31 -> to_u 32 (x - sg31 b) = x + sg31 b). { intros x Hx. unfold to_u. symmetry. apply Z.mod_unique with (if b then -1 else 0); [left; lia|]. destruct b; cbn [sg31]; lia. }
  split; [subst j; apply M31; unfold a' in UB'; lia|].
  split; [unfold ssub; rewrite Z.shiftr_div_pow2 by lia; rewrite SQ; replace (k + B - B) with k by lia; apply IN; lia|].
  split; [unfold sadd; apply IN; lia|].
  split. { rewrite SH by lia. f_equal. unfold d. symmetry. apply Z.div_unique with 0. { left. split; [lia|apply Z.pow_pos_nonneg; lia]. } rewrite Z.add_0_r, <- Z.pow_add_r by lia. f_equal. lia. }
  exists (a' - sg31 b), k', n, m'.
  split; [unfold sadd; rewrite <- Hj'; apply IN; unfold a'; lia|].
  rewrite (M31 a' ltac:(unfold a'; unfold a' in UB'; lia)).
  split; [unfold ssub; rewrite Z.shiftr_div_pow2 by lia; change (a' / 2 ^ W - B) with k'; apply IN; lia|].
  split; [rewrite SH by lia; rewrite Q1; reflexivity|].
  split; [unfold ushr; change (sshr 32 (2 ^ W - 1) k' = Some (2 ^ (W - k') - 1)); rewrite SH by lia; rewrite Q1; reflexivity|].
  split. { rewrite land_lnot by lia. rewrite (proj1 (MD _ DV PW)). replace (a' - sg31 b - a' mod 2 ^ (W - k')) with (a' - a' mod 2 ^ (W - k') - sg31 b) by ring. rewrite TU by lia. lia. }
  split. { rewrite TU by (unfold a'; unfold a' in UB'; lia). rewrite land_unot_low by (unfold a' in *; lia). rewrite (proj2 (MD _ DV PW)). lia. }
  split; [unfold ssub; apply IN; lia|].
  split. { rewrite SH by lia. f_equal. replace (2 ^ W - 1) with (Z.ones W) by (rewrite Z.ones_equiv; lia). rewrite Z.land_ones by lia. rewrite (proj1 (MD _ DW P)).
    rewrite Z.lor_comm. replace (2 ^ W) with (1 * 2 ^ W) at 1 by ring. rewrite lor_disjoint; [|lia|apply Z.mod_pos_bound; lia]. rewrite <- EQ. f_equal. ring. }
  split; [exact HK'|]. split; [exact Hm'|]. split; [exact EN|]. split; [exact N1|]. split; [exact RB|].
  subst j. destruct b; cbn [sg31]; [apply Z.ltb_lt|apply Z.ltb_ge]; unfold a' in UB'; lia.
Qed.
