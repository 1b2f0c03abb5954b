(** The kernel of log1p, f64: the correction term. *)
From Coq Require Import ZArith Reals Lia Lra Bool List Psatz.
From Flocq Require Import Core.
From Verif Require Import Base Spec SpecFun2 Format P_format Ieee P_ieee P_real P_neg P_lit P_err P_scalbn P_apx P_poly P_poly2 P_poly3 P_powt P_powt8 P_taylor P_expa1 P_expa2 P_expa3 P_expa4 P_expa5 P_expa7 P_expa8 P_expa9 P_lga1 P_lga2 P_lga3 P_lga4 P_lga5 M_log.
Import ListNotations.
Open Scope R_scope.
Local Opaque fadd fsub fmul fdiv of_int.

Lemma ln_half2 f : -2930 / 10000 <= f <= 41425 / 100000 -> 4999 / 10000 <= (1 + f) * (1 + f) <= 20002 / 10000 -> Rabs (ln (1 + f)) <= 34669 / 100000.
Proof.
  intros H Q. pose proof ln2_c as LN. assert (I : forall t, 0 < t -> ln t <= t - 1). { intros t T. pose proof (exp_ineq1_le (ln t)). rewrite exp_ln in H0 by exact T. lra. }
  assert (E : ln ((1 + f) * (1 + f)) = 2 * ln (1 + f)) by (rewrite ln_mult by lra; ring). set (q := (1 + f) * (1 + f)) in *. clearbody q. apply Rabs_le. split.
  - pose proof (I (/ 2 * / q) ltac:(apply Rmult_lt_0_compat; [lra|apply Rinv_0_lt_compat; lra])) as K. rewrite ln_mult, !ln_Rinv in K; try lra; try (apply Rinv_0_lt_compat; lra). assert (/ q <= / (4999 / 10000)) by (apply Rinv_le; lra). lra.
  - pose proof (I (/ 2 * q) ltac:(lra)) as K. rewrite ln_mult, ln_Rinv in K by lra. lra.
Qed.
Lemma log_tail_big F f p h n e k L l : (8 <= ew F)%Z -> (20 <= mw F)%Z -> finite F f = true -> finite F p = true -> finite F h = true -> val F h = IZR n * bpow radix2 e -> (-2 - mw F <= e)%Z ->
  Rabs (val F p + val F f - (L + l)) <= 125 / 100 * uu F -> Rabs L <= 3467 / 10000 -> Rabs l <= 2 / 1000 -> val F h + l = IZR k * ln 2 -> Rabs l <= / 100000 * Rabs (IZR k) -> (20 <= Z.abs k <= 2047)%Z ->
  let y := fadd F (fadd F p f) h in isbits F y /\ finite F y = true /\ Rabs (val F y - (IZR k * ln 2 + L)) <= 5 * uu F * Rabs (IZR k * ln 2 + L).
Proof.
  intros EW MW Ff Fp Fh Vh He HP HL Hl Hk Hlk K y. pose proof (fmt_facts F) as FF. pose proof (bias_facts F) as BF. assert (B7 : (2 ^ 7 <= 2 ^ (ew F - 1))%Z) by (apply Z.pow_le_mono_r; lia). assert (BB : (127 <= bias F)%Z) by (unfold bias; lia).
  set (u := uu F) in *. assert (U0 : 0 < u) by apply bpow_gt_0. assert (U1 : u <= / 1000000). { apply Rle_trans with (bpow radix2 (-23)); [apply bpow_le; lia|]. change (bpow radix2 (-23)) with (/ 8388608). lra. }
  assert (U8 : bpow radix2 (- mw F) = 8 * u). { unfold u, uu, Zminus. rewrite bpow_plus. change (bpow radix2 (-(3))) with (/ 8). lra. }
  assert (U4 : bpow radix2 (- pr F) = 4 * u). { unfold pr. replace (- (mw F + 1))%Z with (- mw F + -1)%Z by lia. rewrite bpow_plus, U8. change (bpow radix2 (-1)) with (/ 2). lra. }
  assert (TN : bpow radix2 (emin F - 1) <= u / 1000). { unfold u, uu. apply Rle_trans with (bpow radix2 (- mw F - 3 + -20)); [apply bpow_le; unfold emin; lia|]. rewrite bpow_plus. change (bpow radix2 (-20)) with (/ 1048576). pose proof (bpow_gt_0 radix2 (- mw F - 3)). lra. }
  pose proof ln2_c as LN.
  set (q := val F p + val F f) in *. apply Rabs_le_inv in HP. apply Rabs_le_inv in HL. apply Rabs_le_inv in Hl.
  pose proof (fadd_spec F p f Fp Ff) as RT. fold q in RT. assert (Q : Rabs q < / 2) by (apply Rabs_def1; lra).
  destruct (rounds_fin F _ _ _ RT) as [Fv Vv]. { apply Rlt_le, Rlt_le_trans with (bpow radix2 0); [cbn; lra|apply bpow_le; lia]. }
  set (v := fadd F p f) in *. pose proof (rnd_half F q (-1) Q ltac:(unfold emin, pr; lia)) as R1. rewrite <- Vv in R1. replace (-1 - pr F - 1)%Z with (- mw F - 3)%Z in R1 by (unfold pr; lia). change (bpow radix2 (- mw F - 3)) with u in R1.
  assert (KA : 20 <= Rabs (IZR k) <= 2047) by (rewrite <- abs_IZR; split; [apply (IZR_le 20)|apply (IZR_le _ 2047)]; lia).
  assert (YL : 10 <= Rabs (IZR k * ln 2 + L)).
  { pose proof (Rabs_triang_inv (IZR k * ln 2) (- L)) as T. replace (IZR k * ln 2 - - L) with (IZR k * ln 2 + L) in T by ring. rewrite Rabs_mult, (Rabs_pos_eq (ln 2)), Rabs_Ropp in T by lra. assert (Rabs L <= 3467 / 10000) by (apply Rabs_le; lra). nra. }
  set (Y := IZR k * ln 2 + L) in *. assert (HY : Y = val F h + (L + l)) by (unfold Y; rewrite <- Hk; ring).
  assert (HB : Rabs (val F h) <= 1420). { replace (val F h) with (IZR k * ln 2 - l) by lra. eapply Rle_trans; [apply Rabs_triang|]. rewrite Rabs_Ropp, Rabs_mult, (Rabs_pos_eq (ln 2)) by lra. assert (Rabs l <= 2 / 1000) by (apply Rabs_le; lra). nra. }
  assert (GEN : forall d, Rabs (val F v - (L + l)) <= d -> d <= 3 * u -> d + 4 * u * (Rabs Y + d) + u / 1000 <= 5 * u * Rabs Y -> isbits F y /\ finite F y = true /\ Rabs (val F y - Y) <= 5 * u * Rabs Y).
  { intros d D D3 C. pose proof (fadd_spec F v h Fv Fh) as RT2. set (w := val F v + val F h) in *. assert (W : Rabs (w - Y) <= d) by (replace (w - Y) with (val F v - (L + l)) by (unfold w; lra); exact D).
    assert (WA : Rabs w <= Rabs Y + d). { replace w with ((w - Y) + Y) by ring. eapply Rle_trans; [apply Rabs_triang|]. lra. }
    assert (YB : Rabs Y <= 1421). { rewrite HY. eapply Rle_trans; [apply Rabs_triang|]. assert (Rabs (L + l) <= 1) by (apply Rabs_le; lra). lra. }
    destruct (rounds_fin F _ _ _ RT2) as [Fy Vy]. { apply Rle_trans with (bpow radix2 11); [change (bpow radix2 11) with 2048; lra|apply bpow_le; lia]. }
    split; [exact (proj1 RT2)|]. split; [exact Fy|]. pose proof (rndF_abs F w) as RR. unfold y. rewrite Vy. rewrite U4 in RR.
    replace (rnd F w - Y) with ((rnd F w - w) + (w - Y)) by ring. eapply Rle_trans; [apply Rabs_triang|]. nra. }
  apply (GEN (225 / 100 * u)); [|lra|nra]. apply Rabs_le_inv in R1. apply Rabs_le. lra.
Qed.
(** k <> 0 *)
Lemma log_kc f k c d : isbits f64 c -> finite f64 c = true -> Rabs d <= / IZR (2 ^ 52) -> Rabs (val f64 c - d) <= / IZR (2 ^ 100) -> isbits f64 f -> finite f64 f = true -> (val f64 f <> 0 -> bpow radix2 (-60) <= Rabs (val f64 f)) -> -2930 / 10000 <= val f64 f <= 41425 / 100000 -> 4999 / 10000 <= (1 + val f64 f) * (1 + val f64 f) <= 20002 / 10000 -> (1 <= Z.abs k <= 1077)%Z ->
  let y := fadd f64 (fadd f64 (lp64 f (fadd f64 (fmul f64 (of_int f64 k) rs_log_LN2_LO) c)) f) (fmul f64 (of_int f64 k) rs_log_LN2_HI) in
  isbits f64 y /\ finite f64 y = true /\ Rabs (val f64 y - (IZR k * ln 2 + (ln (1 + val f64 f) + d))) <= bpow radix2 (- mw f64) * Rabs (IZR k * ln 2 + (ln (1 + val f64 f) + d)) /\ ((20 <= Z.abs k)%Z -> Rabs (val f64 y - (IZR k * ln 2 + (ln (1 + val f64 f) + d))) <= 5 * uu f64 * Rabs (IZR k * ln 2 + (ln (1 + val f64 f) + d))).
Proof.
  intros Bc Fc Hd Hc Bf Ff Lo Hf Hq Hk y. set (F := val f64 f) in *. assert (S1 : Rabs F <= 1) by (apply Rabs_le; lra).
  destruct (half_exact f64 0x3fe0000000000000 f ltac:(vm_compute; discriminate) ltac:(vm_compute; reflexivity) ltac:(vm_compute; discriminate) eq_refl) as (Bm & Fm & Vm). { rewrite (val_lit f64 0x3fe0000000000000 1 2) by (vm_compute; reflexivity). lra. } { exact Ff. } { exact Lo. } { exact S1. }
  fold F in Vm. destruct (log_G64 F ltac:(lra)) as [G1 G2]. pose proof (ln_half2 F Hf Hq) as HL. destruct lhi64 as [Fh Vh]. pose proof ln2_b as LB. pose proof ln2_c as LN.
  destruct (kc_exact f64 rs_log_LN2_HI k 2977044471 (-32) 1077 ltac:(vm_compute; discriminate) ltac:(vm_compute; reflexivity) Fh Vh ltac:(lia) ltac:(vm_compute; reflexivity) ltac:(split; vm_compute; discriminate) ltac:(vm_compute; discriminate)) as (Bd & Fd & Vd).
  set (l := IZR k * (ln 2 - 2977044471 / 4294967296)).
  pose proof (kmul k 1077 _ _ (proj2 Hk) LB) as KL. replace (IZR k * (ln 2 - 2977044471 / 4294967296 - 7382048951581814 / 38685626227668133590597632)) with (l - IZR k * (7382048951581814 / 38685626227668133590597632)) in KL by (unfold l; lra).
  pose proof (kR _ _ (proj2 Hk)) as KK. change (2 ^ 86)%Z with 77371252455336267181195264%Z in KL, LB.
  assert (Ll : Rabs l <= 3 / 10000000) by (apply Rabs_le; apply Rabs_le_inv in KL; lra).
  destruct (of_int_small f64 k ltac:(vm_compute; discriminate) ltac:(vm_compute; reflexivity) ltac:(lia)) as (Bk & Fk & Vk).
  assert (PL : 23 / 100000000 <= fxr pl64). { unfold pl64, fxr. let v := eval vm_compute in (SC / 2 ^ 22)%Z in change (SC / 2 ^ 22)%Z with v. let v := eval vm_compute in SC in change SC with v. lra. }
  assert (Ll2 : - fxr pl64 <= l <= fxr pl64) by (apply Rabs_le_inv in KL; lra).
  assert (AK : AP f64 1 (of_int f64 k) (IZR k) ((-1077 * SC)%Z, (1077 * SC)%Z, 0%Z)).
  { split; [now split|]. split; [|rewrite Vk, Rmult_1_l; unfold Rminus; rewrite Rplus_opp_r, Rabs_R0, fxr_0; lra]. rewrite !fxr_SC. lra. }
  assert (AC : AP f64 1 c d ((- (SC / 2 ^ 52))%Z, (SC / 2 ^ 52)%Z, (SC / 2 ^ 100)%Z)).
  { split; [now split|]. rewrite Rmult_1_l, fxr_opp. replace (fxr (SC / 2 ^ 52)) with (/ IZR (2 ^ 52)). 2:{ unfold fxr. let v := eval vm_compute in (SC / 2 ^ 52)%Z in change (SC / 2 ^ 52)%Z with v. let v := eval vm_compute in SC in change SC with v. let v := eval vm_compute in (2 ^ 52)%Z in change (2 ^ 52)%Z with v. lra. }
    replace (fxr (SC / 2 ^ 100)) with (/ IZR (2 ^ 100)). 2:{ unfold fxr. let v := eval vm_compute in (SC / 2 ^ 100)%Z in change (SC / 2 ^ 100)%Z with v. let v := eval vm_compute in SC in change SC with v. let v := eval vm_compute in (2 ^ 100)%Z in change (2 ^ 100)%Z with v. lra. }
    rewrite Rmult_1_l. split; [apply Rabs_le_inv in Hd; lra|exact Hc]. }
  change (2 ^ 52)%Z with 4503599627370496%Z in Hd. apply Rabs_le_inv in Hd.
  set (dl := fadd f64 (fmul f64 (of_int f64 k) rs_log_LN2_LO) c) in *.
  assert (ALO : AP f64 1 dl (l + d) ((- pl64)%Z, pl64, el64)).
  { apy f64 1 (fadd f64 (fmul f64 (of_int f64 k) rs_log_LN2_LO) c) K. eapply (AP_mv _ _ _ _ _ _ _ (1077 * (SC / 2 ^ 86))); [exact K| | |vm_compute; reflexivity].
    - rewrite Rabs_minus_sym. match goal with |- Rabs (l + d - ?e) <= _ => replace (l + d - e) with (l - IZR k * (7382048951581814 / 38685626227668133590597632)) by lra end. eapply Rle_trans; [exact KL|].
      unfold fxr. let v := eval vm_compute in (1077 * (SC / 2 ^ 86))%Z in change (1077 * (SC / 2 ^ 86))%Z with v. let v := eval vm_compute in SC in change SC with v. lra.
    - rewrite fxr_opp. apply Rabs_le_inv in KL; lra. }
  assert (GO : forall a b, lk64 a b 1230 -> fxr (q4 a) <= F <= fxr (q4 b) -> finite f64 (lp64 f dl) = true /\ Rabs (val f64 (lp64 f dl) + F - (ln (1 + F) + d + l)) <= 125 / 100 * uu f64).
  { intros a b HP Hab. assert (Z0 : forall p t, p = t -> Rabs (p - t) <= 1 * fxr 0) by (intros p t ->; unfold Rminus; rewrite Rplus_opp_r, Rabs_R0, fxr_0; lra).
    destruct (HP f dl F (l + d)) as [[B Fn] V].
    - split; [now split|]. split; [exact Hab|]. apply Z0. fold F. ring.
    - exact ALO.
    - split; [now split|]. split; [|apply Z0; rewrite Vm; ring]. pose proof (fxr_half (q4 a)). pose proof (fxr_half2 (q4 b)). lra.
    - split; [exact Fn|]. replace (val f64 (lp64 f dl) + F - (ln (1 + F) + d + l)) with ((val f64 (lp64 f dl) + F - (lG cl64 F + (l + d))) + (lG cl64 F - ln (1 + F))) by ring. eapply Rle_trans; [apply Rabs_triang|].
      change (uu f64) with (/ 36028797018963968). change (2 ^ 65)%Z with 36893488147419103232%Z in V. change (2 ^ 57)%Z with 144115188075855872%Z in G1. lra. }
  assert (AL : finite f64 (lp64 f dl) = true /\ Rabs (val f64 (lp64 f dl) + F - (ln (1 + F) + d + l)) <= 125 / 100 * uu f64).
  { destruct (Rle_lt_dec F 0) as [N | N]; [|destruct (Rle_lt_dec F (fxr (q4 2800))) as [N2 | N2]; [|destruct (Rle_lt_dec F (fxr (q4 3700))) as [N3 | N3]]].
    - apply (GO _ _ lkA). split; [apply q4_in2; lra|rewrite q4_0, fxr_0; lra].
    - apply (GO _ _ lkB). rewrite q4_0, fxr_0. lra.
    - apply (GO _ _ lkC). lra.
    - apply (GO _ _ lkD). split; [lra|]. apply q4_in. lra. }
  destruct AL as [Fp HP].
  assert (VB : val f64 (fmul f64 (of_int f64 k) rs_log_LN2_HI) + l = IZR k * ln 2). { rewrite Vd, mult_IZR. unfold l. change (bpow radix2 (-32)) with (/ 4294967296). lra. }
  assert (LK : Rabs l <= / 100000 * Rabs (IZR k)) by (unfold l; rewrite Rabs_mult, Rmult_comm; apply Rmult_le_compat_r; [apply Rabs_pos|]; apply Rabs_le; apply Rabs_le_inv in LB; lra).
  assert (LA : Rabs (ln (1 + F) + d) <= 3467 / 10000) by (apply Rabs_le; apply Rabs_le_inv in HL; lra).
  split; [|split; [|split]].
  - apply (log_tail f64 f (lp64 f dl) (fmul f64 (of_int f64 k) rs_log_LN2_HI) (k * 2977044471) (-32) k (ln (1 + F) + d) l ltac:(vm_compute; discriminate) ltac:(vm_compute; discriminate) Ff Fp Fd Vd ltac:(vm_compute; discriminate)HP LA); [lra|exact VB|exact LK|lia].
  - apply (log_tail f64 f (lp64 f dl) (fmul f64 (of_int f64 k) rs_log_LN2_HI) (k * 2977044471) (-32) k (ln (1 + F) + d) l ltac:(vm_compute; discriminate) ltac:(vm_compute; discriminate) Ff Fp Fd Vd ltac:(vm_compute; discriminate)HP LA); [lra|exact VB|exact LK|lia].
  - apply (log_tail f64 f (lp64 f dl) (fmul f64 (of_int f64 k) rs_log_LN2_HI) (k * 2977044471) (-32) k (ln (1 + F) + d) l ltac:(vm_compute; discriminate) ltac:(vm_compute; discriminate) Ff Fp Fd Vd ltac:(vm_compute; discriminate)HP LA); [lra|exact VB|exact LK|lia].
  - intros K20. apply (log_tail_big f64 f (lp64 f dl) (fmul f64 (of_int f64 k) rs_log_LN2_HI) (k * 2977044471) (-32) k (ln (1 + F) + d) l ltac:(vm_compute; discriminate) ltac:(vm_compute; discriminate) Ff Fp Fd Vd ltac:(vm_compute; discriminate)HP LA); [lra|exact VB|exact LK|lia].
Qed.
