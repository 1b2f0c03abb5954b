(** The gamma functions: sin(pi x) has the right sign and vanishes exactly at the integers (f32). *)
From Coq Require Import ZArith Reals Lia Lra Bool List Psatz.
From Flocq Require Import Core Sterbenz.
From Verif Require Import Base Spec SpecFun SpecAcc Format P_format Ieee P_ieee P_real P_neg P_round P_elem P_elem2 P_tot P_lit P_err P_apx P_poly P_poly2 P_taylor P_acc P_kerf P_kerf2 P_red64 P_ksc P_ker64 P_ker64c P_ival P_ival2 P_dom P_bessel P_sym3 P_powt8 P_tan64b P_gam P_gam2 M_basic M_elib M_trig M_gamma.
Open Scope R_scope.
Open Scope fl_scope.
Local Opaque fadd fsub fmul fdiv of_int fcvt.


(** the kernels keep the sign *)
Lemma cvt_pos a b : finite f64 a = true -> (-140 <= b)%Z -> (b <= 0)%Z -> bpow radix2 b <= val f64 a <= 2 -> finite f32 (fcvt f64 f32 a) = true /\ 0 < val f32 (fcvt f64 f32 a).
Proof.
  intros G B1 B2 H. pose proof (bpow_gt_0 radix2 b) as P. pose proof (fcvt_finite f64 f32 a G) as S. destruct (rounds_fin _ _ _ _ S) as [S1 S2].
  { rewrite Rabs_pos_eq by lra. apply Rle_trans with (bpow radix2 1); [apply H|apply bpow_le; cbn; lia]. }
  split; [exact S1|]. rewrite S2. assert (R : repr f32 (bpow radix2 b)) by (apply repr_bpow; cbn; lia). assert (bpow radix2 b <= rnd f32 (val f64 a)) by (rewrite <- (repr_rnd f32 _ R); apply rnd_le; lra). lra.
Qed.
Lemma cvt_neg a b : finite f64 a = true -> (-140 <= b)%Z -> (b <= 0)%Z -> - 2 <= val f64 a <= - bpow radix2 b -> finite f32 (fcvt f64 f32 a) = true /\ val f32 (fcvt f64 f32 a) < 0.
Proof.
  intros G B1 B2 H. pose proof (bpow_gt_0 radix2 b) as P. pose proof (fcvt_finite f64 f32 a G) as S. destruct (rounds_fin _ _ _ _ S) as [S1 S2].
  { rewrite Rabs_left by lra. apply Rle_trans with (bpow radix2 1); [change (bpow radix2 1) with 2; lra|apply bpow_le; cbn; lia]. }
  split; [exact S1|]. rewrite S2. assert (R : repr f32 (bpow radix2 b)) by (apply repr_bpow; cbn; lia). assert (rnd f32 (val f64 a) <= - bpow radix2 b) by (rewrite <- (repr_rnd f32 _ (repr_opp _ _ R)); apply rnd_le; lra). lra.
Qed.
Lemma k_sinf_sgn z : isbits f64 z -> finite f64 z = true -> bpow radix2 (-70) <= Rabs (val f64 z) <= 0.78545 -> finite f32 (rs_k_sinf z) = true /\ 0 < val f64 z * val f32 (rs_k_sinf z).
Proof.
  intros B G H. destruct (k_sinf_acc z B G) as (a & -> & Ba & Ga & E). { split; [apply Rle_trans with (bpow radix2 (-70)); [apply bpow_le; lia|lra]|lra]. }
  pose proof (sin_cub (val f64 z) ltac:(lra)) as C. set (X := val f64 z) in *. pose proof (Rabs_pos X) as PX. change (bpow radix2 (-31)) with (/ 2147483648) in E.
  assert (Q : Rabs (val f64 a - X) <= Rabs X * (/ 5)).
  { assert (X * X <= 0.618) by (assert (X * X = Rabs X * Rabs X) by (rewrite <- Rabs_mult, Rabs_pos_eq by nra; reflexivity); nra).
    assert (Rabs X * (X * X) / 6 <= Rabs X * 0.104) by nra. replace (val f64 a - X) with ((val f64 a - sin X) + (sin X - X)) by ring. eapply Rle_trans; [apply Rabs_triang|]. lra. }
  assert (LB : bpow radix2 (-71) <= Rabs X / 2) by (change (-71)%Z with (-70 - 1)%Z; rewrite bpow_half; lra).
  destruct (Rle_lt_dec 0 X) as [D|D].
  - rewrite (Rabs_pos_eq X) in Q, LB, H by lra. apply Rabs_le_inv in Q. destruct (cvt_pos a (-71) Ga ltac:(lia) ltac:(lia) ltac:(lra)) as [K1 K2]. split; [exact K1|]. pose proof (bpow_gt_0 radix2 (-71)). apply Rmult_lt_0_compat; lra.
  - rewrite (Rabs_left X) in Q, LB, H by lra. apply Rabs_le_inv in Q. destruct (cvt_neg a (-71) Ga ltac:(lia) ltac:(lia) ltac:(lra)) as [K1 K2]. split; [exact K1|]. nra.
Qed.
Lemma k_cosf_pos z : isbits f64 z -> finite f64 z = true -> Rabs (val f64 z) <= 0.78545 -> finite f32 (rs_k_cosf z) = true /\ 0 < val f32 (rs_k_cosf z).
Proof.
  intros B G H. destruct (k_cosf_acc z B G ltac:(lra)) as (a & -> & Ba & Ga & E). pose proof (cos_ge (val f64 z) 0.78545 H ltac:(lra)) as C. pose proof (COS_bound (val f64 z)) as C2. change (bpow radix2 (-31)) with (/ 2147483648) in E. apply Rabs_le_inv in E.
  apply (cvt_pos a (-2) Ga ltac:(lia) ltac:(lia)). change (bpow radix2 (-2)) with (/ 4). lra.
Qed.
Lemma y2_min32 x : finite f32 x = true -> bpow radix2 (-70) <= val f32 x -> y2 f32 x <> 0 -> bpow radix2 (-70) <= Rabs (y2 f32 x).
Proof.
  intros G L N. destruct (Rlt_le_dec (val f32 x) (/ 4)) as [S|S].
  - assert (F0 : Zfloor (val f32 x / 2) = 0%Z) by (apply Zfloor_imp; split; [pose proof (bpow_gt_0 radix2 (-70)); cbn; lra|cbn; lra]).
    assert (M : m2 f32 x = val f32 x) by (unfold m2; rewrite F0; ring). assert (O : oct f32 x = 0%Z). { unfold oct. rewrite M. rewrite (Zfloor_imp 0); [reflexivity|]. pose proof (bpow_gt_0 radix2 (-70)). cbn. lra. }
    unfold y2 in *. rewrite M, O in *. replace (val f32 x - 0 / 2) with (val f32 x) by field. rewrite Rabs_pos_eq; [exact L|]. pose proof (bpow_gt_0 radix2 (-70)). lra.
  - destruct (repr_grid f32 (val f32 x) (-2) (repr_val f32 x G)) as (n & E). { intros _. rewrite Rabs_pos_eq by lra. change (bpow radix2 (-2)) with (/ 4). exact S. }
    change (-2 - mw f32)%Z with (-25)%Z in E. set (w := Zfloor (val f32 x / 2)). set (o := oct f32 x).
    assert (Q : y2 f32 x = IZR (n - w * 2 ^ 26 - o * 2 ^ 24) * bpow radix2 (-25)).
    { unfold y2, m2. fold w o. rewrite E, !minus_IZR, !mult_IZR. change (bpow radix2 (-25)) with (/ 33554432). change (IZR (2 ^ 26)) with 67108864. change (IZR (2 ^ 24)) with 16777216. field. }
    rewrite Q in N |- *. assert (K : (n - w * 2 ^ 26 - o * 2 ^ 24 <> 0)%Z) by (intros K; rewrite K in N; apply N; ring). rewrite Rabs_mult, (Rabs_pos_eq (bpow radix2 (-25))) by apply bpow_ge_0. rewrite <- abs_IZR.
    assert (1 <= IZR (Z.abs (n - w * 2 ^ 26 - o * 2 ^ 24))) by (apply IZR_le; lia). apply Rle_trans with (1 * bpow radix2 (-25)); [rewrite Rmult_1_l; apply bpow_le; lia|]. apply Rmult_le_compat_r; [apply bpow_ge_0|assumption].
Qed.
Lemma k_sinf_0 z : isbits f64 z -> finite f64 z = true -> val f64 z = 0 -> finite f32 (rs_k_sinf z) = true /\ val f32 (rs_k_sinf z) = 0.
Proof.
  intros B G V. assert (C : z = 0%Z \/ z = 0x8000000000000000%Z). { rewrite (iszero_eq f64 z B (val_eq_0 f64 z B G V)). destruct (signbit f64 z); [right|left]; reflexivity. }
  destruct C as [-> | ->]; (split; [vm_compute; reflexivity|]); (apply iszero_val; vm_compute; reflexivity).
Qed.
(** sin(pi x) *)
Definition spkf (m n : Z) : Z := let z := (m -: ((of_int f64 n) *: 0x3fe0000000000000)) *: rs_lgamma_r_PI in
  if (n =? 1)%Z then rs_k_cosf z else if (n =? 2)%Z then rs_k_sinf (fneg f64 z) else if (n =? 3)%Z then fneg f32 (rs_k_cosf z) else rs_k_sinf z.
Lemma spkf_ok x m : isbits f32 x -> finite f32 x = true -> bpow radix2 (-70) <= val f32 x -> finite f64 m = true -> val f64 m = m2 f32 x ->
  isbits f32 (spkf m (oct f32 x)) /\ finite f32 (spkf m (oct f32 x)) = true /\ sgn_ok (m2 f32 x) (val f32 (spkf m (oct f32 x))).
Proof.
  intros B G L Gm Vm. destruct (red_argF f32 x m (y2_min32 x G L) Gm Vm) as (Bz & Gz & Z0 & ZL & ZU & ZS). unfold spkf. cbv zeta. set (z := (m -: ((of_int f64 (oct f32 x)) *: 0x3fe0000000000000)) *: rs_lgamma_r_PI) in *. clearbody z.
  pose proof (oct_bd f32 x) as OB. pose proof (m2_bd f32 x) as MB. pose proof (y2_bd f32 x) as YB. destruct (k_cosf_pos z Bz Gz ZU) as [C1 C2].
  pose proof (fneg_val f64 z Bz) as NV. pose proof (fneg_finite f64 z Bz) as NF. pose proof (fneg_isbits f64 z Bz) as NB. rewrite Gz in NF.
  assert (KS : forall w, isbits f64 w -> finite f64 w = true -> Rabs (val f64 w) = Rabs (val f64 z) -> finite f32 (rs_k_sinf w) = true /\ (y2 f32 x = 0 -> val f32 (rs_k_sinf w) = 0) /\ (y2 f32 x <> 0 -> 0 < val f64 w * val f32 (rs_k_sinf w))).
  { intros w Bw Gw E. destruct (Req_dec (y2 f32 x) 0) as [Y|Y].
    - assert (W0 : val f64 w = 0) by (rewrite (Z0 Y), Rabs_R0 in E; destruct (Req_dec (val f64 w) 0) as [|N]; [assumption|apply Rabs_pos_lt in N; lra]). destruct (k_sinf_0 w Bw Gw W0) as [K1 K2]. split; [exact K1|]. split; [auto|contradiction].
    - destruct (k_sinf_sgn w Bw Gw ltac:(rewrite E; split; [now apply ZL|exact ZU])) as (K1 & K2). split; [exact K1|]. split; [contradiction|auto]. }
  unfold y2 in *. assert (C : (oct f32 x = 0 \/ oct f32 x = 1 \/ oct f32 x = 2 \/ oct f32 x = 3 \/ oct f32 x = 4)%Z) by lia.
  destruct C as [C|[C|[C|[C|C]]]]; rewrite C in *; cbn [Z.eqb Pos.eqb]; unfold sgn_ok.
  - split; [apply k_sinf_bits|]. destruct (KS z Bz Gz eq_refl) as (K1 & K2 & K3). split; [exact K1|]. split; [|split].
    + intros [M|M]; [apply K2; lra|lra].
    + intros M. assert (N : m2 f32 x - 0 / 2 <> 0) by lra. specialize (K3 N). specialize (ZL N). apply ltmul with (val f64 z); [|exact K3]. pose proof (bpow_gt_0 radix2 (-70)). destruct (Rle_lt_dec (val f64 z) 0) as [Q|Q]; [|exact Q]. rewrite Rabs_left1 in ZL by lra. nra.
    + intros M. lra.
  - split; [apply k_cosf_bits|]. split; [exact C1|]. split; [lra|]. split; [auto|lra].
  - split; [apply k_sinf_bits|]. destruct (KS (fneg f64 z) NB NF ltac:(rewrite NV; apply Rabs_Ropp)) as (K1 & K2 & K3). split; [exact K1|]. rewrite NV in K3. split; [|split].
    + intros [M|M]; [lra|apply K2; lra].
    + intros M. assert (N : m2 f32 x - 2 / 2 <> 0) by lra. specialize (K3 N). specialize (ZL N). apply ltmul with (- val f64 z); [|exact K3]. pose proof (bpow_gt_0 radix2 (-70)). destruct (Rle_lt_dec 0 (val f64 z)) as [Q|Q]; [|lra]. rewrite Rabs_pos_eq in ZL by lra. nra.
    + intros M. assert (N : m2 f32 x - 2 / 2 <> 0) by lra. specialize (K3 N). specialize (ZL N). apply ltmul' with (- val f64 z); [|exact K3]. pose proof (bpow_gt_0 radix2 (-70)). destruct (Rle_lt_dec (val f64 z) 0) as [Q|Q]; [|lra]. rewrite Rabs_left1 in ZL by lra. nra.
  - split; [apply fneg_isbits, k_cosf_bits|]. rewrite fneg_finite, fneg_val by apply k_cosf_bits. split; [exact C1|]. split; [lra|]. split; lra.
  - split; [apply k_sinf_bits|]. destruct (KS z Bz Gz eq_refl) as (K1 & K2 & K3). split; [exact K1|]. split; [lra|]. split; [lra|].
    intros M. assert (N : m2 f32 x - 4 / 2 <> 0) by lra. specialize (K3 N). specialize (ZL N). apply ltmul' with (val f64 z); [|exact K3]. pose proof (bpow_gt_0 radix2 (-70)). destruct (Rle_lt_dec 0 (val f64 z)) as [Q|Q]; [|lra]. rewrite Rabs_pos_eq in ZL by lra. nra.
Qed.
Lemma cvt_ex m x : finite f32 m = true -> val f32 m = m2 f32 x -> finite f64 (fcvt f32 f64 m) = true /\ val f64 (fcvt f32 f64 m) = m2 f32 x.
Proof.
  intros G V. pose proof (fcvt_finite f32 f64 m G) as S. pose proof (m2_bd f32 x) as MB. rewrite V in S. apply exact in S.
  - destruct S as (_ & S2 & S3). auto.
  - rewrite <- V. destruct (repr_float f32 _ (repr_val f32 m G)) as (n & e & -> & H1 & H2). apply repr_int; cbn in *; lia.
  - rewrite Rabs_pos_eq by lra. apply Rlt_le_trans with 16; [lra|]. apply big16; cbn; lia.
Qed.
Lemma sinpi32 x : isbits f32 x -> finite f32 x = true -> bpow radix2 (-70) <= val f32 x ->
  exists t, rs_lgammaf_r_sin_pi x = Some t /\ isbits f32 t /\ finite f32 t = true /\ sgn_ok (m2 f32 x) (val f32 t).
Proof.
  intros B G L. assert (L1 : bpow radix2 (-100) <= val f32 x) by (eapply Rle_trans; [|exact L]; apply bpow_le; lia).
  assert (H4 : finite f32 0x40800000 = true /\ val f32 0x40800000 = 4 / 1) by (split; [reflexivity|lit]).
  destruct (red_ex f32 ltac:(cbn; lia) ltac:(cbn; lia) 0x3f000000 0x40000000 0x40800000 x ltac:(split; [reflexivity|lit]) ltac:(split; [reflexivity|lit]) H4 G L1) as (v0 & E & BM & GM & VM).
  unfold rs_lgammaf_r_sin_pi. cbv zeta. rewrite E. cbn [bind]. cbv zeta.
  set (m := 0x40000000 *' ((x *' 0x3f000000) -' v0)) in *. clearbody m.
  destruct (four_ex f32 ltac:(cbn; lia) 0x40800000 x H4 m GM VM) as (_ & Q1 & Q2). cbv zeta in *.
  pose proof (fl_bd f32 x) as FB. assert (T1 : to_isize f32 (m *' 0x40800000) = Zfloor (4 * m2 f32 x)) by (apply to_int_oct; try assumption; lia). rewrite T1.
  rewrite !sadd_ok by lia. cbn [bind]. rewrite quot_oct. destruct (cvt_ex m x GM VM) as [GM' VM'].
  exists (spkf (fcvt f32 f64 m) (oct f32 x)). destruct (spkf_ok x _ B G L GM' VM') as (S1 & S2 & S3). unfold spkf. change 0x400921fb54442d18%Z with rs_lgamma_r_PI. split; [|split].
  - destruct (_ =? 1)%Z; [reflexivity|]. destruct (_ =? 2)%Z; [reflexivity|]. destruct (_ =? 3)%Z; reflexivity.
  - unfold spkf in S1. cbv zeta in *. exact S1.
  - unfold spkf in S2, S3. cbv zeta in *. auto.
Qed.
