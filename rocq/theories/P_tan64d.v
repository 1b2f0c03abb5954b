(** The double-precision kernel [k_tan] from 0.6743 to pi/4: accuracy of the result. *)
From Coq Require Import ZArith Reals Lia Lra Bool List Psatz.
From Flocq Require Import Core Sterbenz.
From Verif Require Import Base Spec SpecAcc SpecUlp Format P_format Ieee P_ieee P_real P_neg P_lit P_err P_apx P_poly P_acc P_kerf P_kerf2 P_tanf2 P_cbrt P_red64 P_ulp P_ksc P_ker64 P_tan64a P_tan64 P_tan64r P_tan64o P_tan64c M_basic M_elib M_trig.
Import ListNotations.
Open Scope R_scope.
Open Scope fl_scope.
Definition q4 : R := 884279719003555 / 1125899906842624.
Definition q4l : R := 4967757600021511 / 162259276829213363391578010288128.
Lemma q4_val : val f64 rs_k_tan_PIO4 = q4. Proof. unfold q4. lit. Qed.
Lemma q4l_val : val f64 rs_k_tan_PIO4_LO = q4l. Proof. unfold q4l. lit. Qed.
Lemma q4_err : Rabs (PI / 4 - q4 - q4l) <= 1e-30.
Proof.
  unfold q4, q4l. pose proof pio2_240 as H. unfold PB2 in H. apply Rabs_le. match goal with |- _ => idtac end. 
  change (IZR (2 ^ 240)) with (IZR (Zpower 2 240)) in H. let v := eval vm_compute in (2 ^ 240)%Z in change (2 ^ 240)%Z with v in H. lra.
Qed.
Lemma fold_arg x y r : isbits f64 x -> finite f64 x = true -> isbits f64 y -> finite f64 y = true -> 0.67433 <= val f64 x <= 0.78542 -> Rabs (val f64 y) <= 9 / 4 * u * Rabs (val f64 x) -> Rabs (val f64 x + val f64 y - r) <= / 18446744073709551616 * Rabs (val f64 x) ->
  let x' := (rs_k_tan_PIO4 -: x) +: (rs_k_tan_PIO4_LO -: y) in isbits f64 x' /\ finite f64 x' = true /\ -0.0001 <= val f64 x' <= 0.1112 /\ Rabs (val f64 x' - (PI / 4 - r)) <= 0.1115 * u.
Proof.
  intros Bx Fx By Fy HX HY HR x'. set (X := val f64 x) in *. set (Y := val f64 y) in *. rewrite (Rabs_pos_eq X) in HY, HR by lra. split; [apply fadd_isbits|].
  assert (FP : finite f64 rs_k_tan_PIO4 = true) by reflexivity. assert (FL : finite f64 rs_k_tan_PIO4_LO = true) by reflexivity. pose proof tiny200 as T200.
  destruct (sub64 rs_k_tan_PIO4 x 2 FP Fx) as [F1 E1]; [rewrite q4_val; fold X; unfold q4; apply Rabs_le; lra|apply big1000; lra|]. rewrite repr_rnd in E1 by (apply sterb; [now apply repr_val|now apply repr_val|]; rewrite q4_val; fold X; rewrite (Rabs_pos_eq X) by lra; unfold q4; apply Rabs_le; lra). rewrite q4_val in E1. fold X in E1.
  destruct (sub64 rs_k_tan_PIO4_LO y 2 FL Fy) as [F2 E2]; [rewrite q4l_val; fold Y; unfold q4l; apply Rabs_le_inv in HY; apply Rabs_le; lra|apply big1000; lra|]. rewrite q4l_val in E2. fold Y in E2. pose proof (rnd64_err (q4l - Y)) as R2. rewrite <- E2 in R2.
  assert (LY : Rabs (q4l - Y) <= 3 * u) by (unfold q4l; apply Rabs_le_inv in HY; apply Rabs_le; lra).
  set (d := rs_k_tan_PIO4 -: x) in *. set (l := rs_k_tan_PIO4_LO -: y) in *. set (D := val f64 d) in *. set (L := val f64 l) in *.
  assert (KS : Rabs (D + L - (PI / 4 - r)) <= 0.0004 * u). { replace (D + L - (PI / 4 - r)) with ((L - (q4l - Y)) + - (X + Y - r) + - (PI / 4 - q4 - q4l)) by (rewrite E1; ring). pose proof q4_err. eapply Rle_trans; [apply abs3|]. rewrite !Rabs_Ropp. lra. }
  assert (DL : -0.00003 <= D + L <= 0.11107). { rewrite E1. pose proof (absb _ _ _ _ R2 LY) as Q. apply Rabs_le_inv in Q. unfold q4. lra. }
  destruct (add64 d l 2 F1 F2) as [F3 E3]; [fold D L; apply Rabs_le; lra|apply big1000; lra|]. fold x' in F3, E3. fold D L in E3. pose proof (rnd64_err (D + L)) as R3. split; [exact F3|]. rewrite E3. clearbody D L. assert (AB : Rabs (D + L) <= 0.11107) by (apply Rabs_le; lra).
  assert (R4 : Rabs (rnd f64 (D + L) - (D + L)) <= 0.1111 * u) by lra. split; [apply Rabs_le_inv in R4; lra|].
  replace (rnd f64 (D + L) - (PI / 4 - r)) with ((rnd f64 (D + L) - (D + L)) + (D + L - (PI / 4 - r))) by ring. eapply Rle_trans; [apply Rabs_triang|]. lra.
Qed.
(** ** Reals *)
Lemma cos_ge0 a : Rabs a <= 0.1113 -> 0.9938 <= cos a.
Proof. intros H. pose proof (cos_quad a ltac:(lra)) as [Q _]. assert (a * a <= 0.1113 * 0.1113) by (apply Rabs_le_inv in H; nra). lra. Qed.
Lemma T_tan X t : -0.0001 <= X <= 0.1112 -> Rabs (X - t) <= 0.1115 * u -> Rabs (X * peval k_tan_poly (X * X) - tan t) <= 0.117 * u.
Proof.
  intros HX Ht. pose proof (tan64_poly_err X ltac:(apply Rabs_le; lra)) as E. assert (AX : Rabs X <= 0.1112) by (apply Rabs_le; lra). pose proof (Rabs_pos X).
  assert (CX : 0.9938 <= cos X) by (apply cos_ge0; lra). assert (At : Rabs t <= 0.1113) by (apply Rabs_le_inv in Ht; apply Rabs_le; lra). assert (Ct : 0.9938 <= cos t) by (apply cos_ge0; lra).
  set (P := X * peval k_tan_poly (X * X)) in *. clearbody P.
  assert (TT : Rabs (tan X - tan t) <= 0.1115 * u * 1.0126). { unfold tan. replace (sin X / cos X - sin t / cos t) with (sin (X - t) * (/ cos X * / cos t)) by (rewrite sin_minus; field; split; lra). pose proof (sin_lip (X - t) 0) as SL. rewrite sin_0, !Rminus_0_r in SL.
    rewrite Rabs_mult. apply Rmult_le_compat; [apply Rabs_pos|apply Rabs_pos|lra|]. rewrite Rabs_mult, !Rabs_inv, !Rabs_pos_eq by lra. apply Rle_trans with (/ 0.9938 * / 0.9938); [|lra]. apply Rmult_le_compat; try (left; apply Rinv_0_lt_compat; lra); apply Rinv_le; lra. }
  assert (PT : Rabs (P - tan X) <= 0.003 * u). { unfold tan. replace (P - sin X / cos X) with ((P * cos X - sin X) * / cos X) by (field; lra). rewrite Rabs_mult, Rabs_inv, (Rabs_pos_eq (cos X)) by lra. apply Rle_trans with ((0.0201 * u * 0.1112) * / 0.9938); [|lra]. apply Rmult_le_compat; [apply Rabs_pos|left; apply Rinv_0_lt_compat; lra|lra|apply Rinv_le; lra]. }
  replace (P - tan t) with ((P - tan X) + (tan X - tan t)) by ring. eapply Rle_trans; [apply Rabs_triang|]. lra.
Qed.
Lemma tan_fold r t : t = PI / 4 - r -> cos t <> 0 -> 1 + tan t <> 0 -> cos r <> 0 /\ tan r = (1 - tan t) / (1 + tan t).
Proof.
  intros Et Ct Nt. assert (Er : r = PI / 4 - t) by (rewrite Et; ring). pose proof (cos_PI4) as C4. pose proof sin_PI4 as S4. assert (SQ : 0 < 1 / sqrt 2) by (unfold Rdiv; rewrite Rmult_1_l; apply Rinv_0_lt_compat, sqrt_lt_R0; lra). rewrite <- C4 in SQ. assert (SC4 : sin (PI / 4) = cos (PI / 4)) by (rewrite C4, S4; reflexivity).
  assert (CR : cos r = cos (PI / 4) * (cos t * (1 + tan t))). { rewrite Er, cos_minus, SC4. unfold tan. field. assumption. }
  assert (SR : sin r = cos (PI / 4) * (cos t * (1 - tan t))). { rewrite Er, sin_minus, SC4. unfold tan. field. assumption. }
  assert (N : cos r <> 0). { rewrite CR. apply Rmult_integral_contrapositive_currified; [lra|]. now apply Rmult_integral_contrapositive_currified. }
  split; [exact N|]. unfold tan at 1. rewrite CR, SR. field. repeat split; try assumption. lra.
Qed.
Lemma frac_err s T t : (s = 1 \/ s = -1) -> -0.001 <= T <= 0.112 -> -0.001 <= t <= 0.112 -> Rabs (T - t) <= 0.117 * u -> Rabs (s - 2 * (T - T * T / (T + s)) - (if Rlt_dec 0 s then (1 - t) / (1 + t) else - ((1 + t) / (1 - t)))) <= 0.298 * u.
Proof.
  intros Hs HT Ht H. destruct Hs as [-> | ->]; destruct (Rlt_dec 0 _); try lra.
  - replace (1 - 2 * (T - T * T / (T + 1)) - (1 - t) / (1 + t)) with ((T - t) * (- 2 * (/ (1 + T) * / (1 + t)))) by (field; lra). rewrite Rabs_mult. apply Rle_trans with (0.117 * u * 2.01); [|lra]. apply Rmult_le_compat; [apply Rabs_pos|apply Rabs_pos|exact H|].
    rewrite !Rabs_mult, !Rabs_inv, (Rabs_left (-2)), !Rabs_pos_eq by lra. assert (/ (1 + T) * / (1 + t) <= / 0.999 * / 0.999); [|lra]. apply Rmult_le_compat; try (left; apply Rinv_0_lt_compat; lra); apply Rinv_le; lra.
  - replace (-1 - 2 * (T - T * T / (T + -1)) - - ((1 + t) / (1 - t))) with ((T - t) * (- 2 * (/ (1 - T) * / (1 - t)))) by (field; lra). rewrite Rabs_mult. apply Rle_trans with (0.117 * u * 2.54); [|lra]. apply Rmult_le_compat; [apply Rabs_pos|apply Rabs_pos|exact H|].
    rewrite !Rabs_mult, !Rabs_inv, (Rabs_left (-2)), !Rabs_pos_eq by lra. assert (/ (1 - T) * / (1 - t) <= / 0.888 * / 0.888); [|lra]. apply Rmult_le_compat; try (left; apply Rinv_0_lt_compat; lra); apply Rinv_le; lra.
Qed.
(** ** Rounding at a power of two *)
Lemma rnd_cross k a : (-900 <= k <= 900)%Z -> bpow radix2 k <= a < bpow radix2 k + bpow radix2 (k - 53) -> rnd f64 a = bpow radix2 k.
Proof.
  intros Hk H. assert (RB : repr f64 (bpow radix2 k)) by (apply repr_bpow; change (emin f64) with (-1074)%Z; lia).
  pose proof (rnd_nearest f64 a _ RB) as N. rewrite (Rabs_minus_sym (bpow radix2 k)), (Rabs_pos_eq (a - bpow radix2 k)) in N by lra.
  pose proof (rnd_le f64 _ _ (proj1 H)) as L. rewrite (repr_rnd _ _ RB) in L. pose proof (bpow_gt_0 radix2 k) as P.
  destruct (repr_grid f64 (rnd f64 a) k (rnd_repr f64 a)) as (n & E). { intros _. rewrite Rabs_pos_eq; lra. } change (mw f64) with 52%Z in E.
  apply Rabs_le_inv in N. assert (U : rnd f64 a < bpow radix2 k + 2 * bpow radix2 (k - 53)) by lra. rewrite E in *.
  assert (S1 : bpow radix2 k = 4503599627370496 * bpow radix2 (k - 52)). { replace k with (52 + (k - 52))%Z at 1 by ring. rewrite bpow_plus. reflexivity. }
  assert (S2 : bpow radix2 (k - 52) = 2 * bpow radix2 (k - 53)). { replace (k - 52)%Z with (1 + (k - 53))%Z by ring. rewrite bpow_plus. reflexivity. }
  assert (P2 : 0 < bpow radix2 (k - 52)) by apply bpow_gt_0. rewrite S1 in *. set (b := bpow radix2 (k - 52)) in *.
  assert (G1 : 4503599627370496 <= IZR n) by (apply Rmult_le_reg_r with b; lra). assert (G2 : IZR n < 4503599627370497) by (apply Rmult_lt_reg_r with b; lra).
  apply le_IZR in G1. apply lt_IZR in G2. replace n with 4503599627370496%Z by lia. reflexivity.
Qed.
Lemma ulps_one_pos d v a : / 2 <= v < 1.99 -> Rabs (a - v) <= d * u -> d <= 0.95 -> Rabs (rnd f64 a - v) <= (/ 2 + d) * ulpF f64 v.
Proof.
  intros HV HA Hd. pose proof (Rabs_pos (a - v)). assert (0 <= d) by lra. pose proof (Rabs_triang (rnd f64 a - a) (a - v)) as TR. replace (rnd f64 a - a + (a - v)) with (rnd f64 a - v) in TR by ring. destruct (Rle_lt_dec 1 v) as [G | G].
  - rewrite (ulp_bin v 1 ltac:(lia)); [|rewrite Rabs_pos_eq by lra; change (bpow radix2 (1 - 1)) with 1; change (bpow radix2 1) with 2; lra].
    pose proof (rnd_pow 1 a ltac:(lia)) as R. change (bpow radix2 1) with 2 in R. change (bpow radix2 (1 - 54)) with u in R. apply Rabs_le_inv in HA as HA'. specialize (R ltac:(apply Rabs_le; lra)). change (1 - 53)%Z with (1 + -53)%Z. rewrite bpow_plus. change (bpow radix2 1) with 2. change (bpow radix2 (-53)) with u. lra.
  - rewrite (ulp_bin v 0 ltac:(lia)); [|rewrite Rabs_pos_eq by lra; change (bpow radix2 (0 - 1)) with (/ 2); change (bpow radix2 0) with 1; lra]. change (bpow radix2 (0 - 53)) with u. apply Rabs_le_inv in HA as HA'. destruct (Rle_lt_dec a 1) as [G2 | G2].
    + pose proof (rnd_pow 0 a ltac:(lia)) as R. change (bpow radix2 0) with 1 in R. specialize (R ltac:(apply Rabs_le; lra)). change (bpow radix2 (0 - 54)) with (/ 18014398509481984) in R. lra.
    + rewrite (rnd_cross 0); [|lia|change (bpow radix2 0) with 1; change (bpow radix2 (0 - 53)) with u; lra]. change (bpow radix2 0) with 1. apply Rabs_le. lra.
Qed.
Lemma ulps_one d v a : / 2 <= Rabs v < 1.99 -> Rabs (a - v) <= d * u -> d <= 0.95 -> Rabs (rnd f64 a - v) <= (/ 2 + d) * ulpF f64 v.
Proof.
  intros HV HA Hd. destruct (Rle_lt_dec 0 v) as [P | P]; [rewrite Rabs_pos_eq in HV by exact P; now apply ulps_one_pos|]. rewrite Rabs_left in HV by exact P.
  pose proof (ulps_one_pos d (- v) (- a) HV ltac:(replace (- a - - v) with (- (a - v)) by ring; now rewrite Rabs_Ropp) Hd) as H. rewrite rnd_opp in H. unfold ulpF in *. rewrite ulp_opp in H. replace (- rnd f64 a - - v) with (- (rnd f64 a - v)) in H by ring. now rewrite Rabs_Ropp in H.
Qed.
(** ** Change of sign *)
Lemma ulps_neg k v y : within_ulps f64 k v y -> within_ulps f64 k (- v) (Format.fneg f64 y).
Proof.
  intros (B & Fi & H). split; [apply fneg_fields; exact B|]. split; [rewrite fneg_finite; assumption|]. rewrite fneg_val by assumption. unfold ulpF in *. rewrite ulp_opp. replace (- val f64 y - - v) with (- (val f64 y - v)) by ring. now rewrite Rabs_Ropp.
Qed.
(** ** The code *)
Lemma q_small s T : (s = 1 \/ s = -1) -> -0.001 <= T <= 0.112 -> Rabs (T - T * T / (T + s)) <= 1.
Proof.
  intros Hs HT. assert (TS : 0.888 <= Rabs (T + s)). { destruct Hs as [-> | ->]; [rewrite Rabs_pos_eq by lra; lra|rewrite Rabs_left by lra; lra]. }
  unfold Rminus, Rdiv. eapply Rle_trans; [apply Rabs_triang|]. rewrite Rabs_Ropp, Rabs_mult, Rabs_inv. rewrite (Rabs_pos_eq (T * T)) by nra. assert (T * T <= 0.0126) by nra. assert (0 <= T * T) by nra.
  assert (T * T * / Rabs (T + s) <= 0.0126 * / 0.888) by (apply Rmult_le_compat; [lra|left; apply Rinv_0_lt_compat; lra|lra|apply Rinv_le; lra]). assert (Rabs T <= 0.112) by (apply Rabs_le; lra). lra.
Qed.
Lemma big_end s G Q v : isbits f64 G -> finite f64 G = true -> Rabs (val f64 G - Q) <= 0.3 * u -> Rabs Q <= 1 -> Rabs (sgR s - 2 * Q - v) <= 0.298 * u -> / 2 <= Rabs v < 1.99 -> within_ulps f64 1.5 v (sgZ s -: (0x4000000000000000 *: G)).
Proof.
  intros BG FG EG Q0 FE VB. assert (GB : Rabs (val f64 G) <= 1.1) by (pose proof (absb _ _ _ _ EG Q0); lra).
  assert (E2 : val f64 0x4000000000000000 = 2) by (replace 2 with (2 / 1) by field; lit). assert (F2 : finite f64 0x4000000000000000 = true) by reflexivity.
  destruct (mul64 0x4000000000000000 G 4 F2 FG) as [FM EM]; [rewrite E2, Rabs_mult, (Rabs_pos_eq 2); lra|apply big1000; lra|]. rewrite E2 in EM. rewrite repr_rnd in EM by (rewrite Rmult_comm; apply (repr_scale f64 (val f64 G) 1); [now apply repr_val|lia]).
  assert (ES : val f64 (sgZ s) = sgR s) by (destruct s; cbn [sgZ sgR]; [replace (-1) with (-1 / 1) by field|replace 1 with (1 / 1) by field]; lit). assert (FS : finite f64 (sgZ s) = true) by (destruct s; reflexivity).
  assert (SB : Rabs (sgR s) <= 1) by (destruct s; cbn [sgR]; apply Rabs_le; lra). set (M := 0x4000000000000000 *: G) in *. clearbody M. set (S := sgZ s) in *. clearbody S.
  destruct (sub64 S M 8 FS FM) as [FQ EQ]; [rewrite ES, EM; unfold Rminus; eapply Rle_trans; [apply Rabs_triang|]; rewrite Rabs_Ropp, Rabs_mult, (Rabs_pos_eq 2); lra|apply big1000; lra|]. rewrite ES, EM in EQ.
  split; [apply fsub_isbits|]. split; [exact FQ|]. rewrite EQ. apply Rle_trans with ((/ 2 + 0.9) * ulpF f64 v); [|apply Rmult_le_compat_r; [apply ulpF_pos|lra]]. apply ulps_one; [exact VB| |lra].
  set (sg := sgR s) in *. set (VG := val f64 G) in *. clearbody sg VG.
  replace (sg - 2 * VG - v) with ((sg - 2 * Q - v) + - (2 * (VG - Q))) by ring. eapply Rle_trans; [apply Rabs_triang|]. rewrite Rabs_Ropp, Rabs_mult, (Rabs_pos_eq 2) by lra. lra.
Qed.
Lemma bigG_real0 x' r (s : bool) : isbits f64 x' -> finite f64 x' = true -> -0.0001 <= val f64 x' <= 0.1112 -> Rabs (val f64 x' - (PI / 4 - r)) <= 0.1115 * u ->
  0.79 <= tan r <= 1.01 /\ within_ulps f64 1.5 (if s then - / tan r else tan r) (sgZ s -: (0x4000000000000000 *: bigG s x')).
Proof.
  intros Bx' Fx' HX' Ht.
  set (t := PI / 4 - r) in *. pose proof (T_tan _ t HX' Ht) as TT. destruct (bigG_ok s x' Bx' Fx' HX') as (HT & FG & BG & EG). set (G := bigG s x') in *. clearbody G. set (T := val f64 x' * peval k_tan_poly (val f64 x' * val f64 x')) in *.
  fold T in HT. apply Rabs_le_inv in TT as TT'. assert (Ct : cos t <> 0). { pose proof (cos_ge0 t). apply Rabs_le_inv in Ht. specialize (H ltac:(apply Rabs_le; lra)). lra. }
  destruct (tan_fold r t eq_refl Ct ltac:(lra)) as [Cr Er]. set (tt := tan t) in *. clearbody tt. pose proof (frac_err (sgR s) T tt ltac:(destruct s; auto) ltac:(lra) ltac:(lra) TT) as FE.
  assert (VE : (if Rlt_dec 0 (sgR s) then (1 - tt) / (1 + tt) else - ((1 + tt) / (1 - tt))) = (if s then - / tan r else tan r)). { rewrite Er. destruct s; destruct (Rlt_dec 0 _) as [Hl|Hl]; unfold sgR in Hl; try (exfalso; lra); [field; lra|reflexivity]. } rewrite VE in FE.
  assert (TR : 0.79 <= tan r <= 1.01). { rewrite Er. split; apply Rmult_le_reg_r with (1 + tt); try lra; unfold Rdiv; rewrite Rmult_assoc, Rinv_l by lra; lra. } split; [exact TR|].
  apply (big_end s G _ _ BG FG EG); [apply q_small; [destruct s; auto|lra]|exact FE|]. destruct s; [rewrite Rabs_Ropp, Rabs_inv|]; rewrite Rabs_pos_eq by lra; [|lra]. split; [apply Rle_trans with (/ 1.01); [lra|apply Rinv_le; lra]|apply Rle_lt_trans with (/ 0.79); [apply Rinv_le; lra|lra]].
Qed.
Lemma bigG_real x y r (s : bool) : isbits f64 x -> finite f64 x = true -> isbits f64 y -> finite f64 y = true -> 0.67433 <= val f64 x <= 0.78542 -> Rabs (val f64 y) <= 9 / 4 * u * Rabs (val f64 x) -> Rabs (val f64 x + val f64 y - r) <= / 18446744073709551616 * Rabs (val f64 x) ->
  0.79 <= tan r <= 1.01 /\ within_ulps f64 1.5 (if s then - / tan r else tan r) (sgZ s -: (0x4000000000000000 *: bigG s ((rs_k_tan_PIO4 -: x) +: (rs_k_tan_PIO4_LO -: y)))).
Proof.
  intros Bx Fx By Fy HX HY HR. destruct (fold_arg x y r Bx Fx By Fy HX HY HR) as (Bx' & Fx' & HX' & Ht). exact (bigG_real0 _ r s Bx' Fx' HX' Ht).
Qed.
