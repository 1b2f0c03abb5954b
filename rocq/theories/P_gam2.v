(** The gamma functions: sin(pi x) has the right sign and vanishes exactly at the integers (f64). *)
From Coq Require Import ZArith Reals Lia Lra Bool List Psatz.
From Flocq Require Import Core Sterbenz.
From Verif Require Import Base Spec SpecFun SpecAcc Format P_format Ieee P_ieee P_real P_neg P_round P_elem P_elem2 P_tot P_lit P_err P_apx P_poly P_poly2 P_taylor P_acc P_kerf P_kerf2 P_red64 P_ksc P_ker64 P_ker64c P_ival P_ival2 P_dom P_bessel P_sym3 P_powt8 P_gam M_basic M_elib M_trig M_gamma.
Open Scope R_scope.
Open Scope fl_scope.
Local Opaque fadd fsub fmul fdiv of_int fcvt.

(** the kernels keep the sign *)
Lemma k_sin_sgn z : isbits f64 z -> finite f64 z = true -> bpow radix2 (-100) <= Rabs (val f64 z) <= 0.7855 -> isbits f64 (rs_k_sin z 0 0) /\ finite f64 (rs_k_sin z 0 0) = true /\ 0 < val f64 z * val f64 (rs_k_sin z 0 0).
Proof.
  intros B G H. split; [apply k_sin_bits|]. rewrite k_sin_B. assert (V0 : val f64 0 = 0) by apply val0.
  destruct (k_sin_big z 0 B G ltac:(vm_compute; split; [discriminate|reflexivity]) ltac:(reflexivity) ltac:(rewrite V0, Rabs_R0; pose proof (Rabs_pos (val f64 z)); assert (0 < u) by (lra); nra) ltac:(lra) ltac:(lra)) as [_ (SB & SF & SE)].
  set (X := val f64 z) in *. set (s := sinB z) in *. pose proof (sin64_poly_err X ltac:(lra)) as P. pose proof (sin_cub X ltac:(lra)) as C. pose proof (Rabs_pos X) as PX.
  assert (U : u <= / 1000) by (lra). assert (Q : Rabs (X + val f64 s - X) <= Rabs X * (/ 5)).
  { assert (X * X <= 0.618) by (assert (X * X = Rabs X * Rabs X) by (rewrite <- Rabs_mult, Rabs_pos_eq by nra; reflexivity); nra).
    assert (Rabs X * (X * X) / 6 <= Rabs X * 0.104) by nra. assert (0.444 * u * Rabs X <= Rabs X * / 1000) by nra. assert (0.0431 * u * Rabs X <= Rabs X * / 1000) by nra.
    replace (X + val f64 s - X) with ((X + val f64 s - X * peval k_sin_poly (X * X)) + (X * peval k_sin_poly (X * X) - sin X) + (sin X - X)) by ring.
    eapply Rle_trans; [apply Rabs_triang|]. eapply Rle_trans; [apply Rplus_le_compat_r, Rabs_triang|]. lra. }
  pose proof (fadd_spec f64 z s G SF) as S. fold X in S. set (W := X + val f64 s) in *.
  assert (AW : Rabs W <= 1). { replace W with (X + (W - X)) by ring. eapply Rle_trans; [apply Rabs_triang|]. lra. }
  destruct (rounds_fin _ _ _ _ S) as [S1 S2]. { eapply Rle_trans; [exact AW|]. change 1 with (bpow radix2 0). apply bpow_le. cbn. lia. }
  split; [exact S1|]. rewrite S2. assert (LB : bpow radix2 (-101) <= Rabs X / 2) by (change (-101)%Z with (-100 - 1)%Z; rewrite bpow_half; lra).
  assert (R : repr f64 (bpow radix2 (-101))) by (apply repr_bpow; cbn; lia). pose proof (bpow_gt_0 radix2 (-101)) as BP. clearbody W. clear S S1 S2 AW P C PX SE H. set (b := bpow radix2 (-101)) in *. clearbody b.
  destruct (Rle_lt_dec 0 X) as [D|D].
  - rewrite (Rabs_pos_eq X) in Q, LB by lra. apply Rabs_le_inv in Q. assert (b <= rnd f64 W) by (rewrite <- (repr_rnd f64 _ R); apply rnd_le; lra). apply Rmult_lt_0_compat; lra.
  - rewrite (Rabs_left X) in Q, LB by lra. apply Rabs_le_inv in Q. assert (rnd f64 W <= - b) by (rewrite <- (repr_rnd f64 _ (repr_opp _ _ R)); apply rnd_le; lra). nra.
Qed.
Lemma k_cos_pos z : isbits f64 z -> finite f64 z = true -> Rabs (val f64 z) <= 0.7855 -> finite f64 (rs_k_cos z 0) = true /\ 0 < val f64 (rs_k_cos z 0).
Proof.
  intros B G H. assert (A : IN f64 (0xbfe922d0e5604190, 0x3fe922d0e5604190)%Z z).
  { split; [exact B|]. split; [exact G|]. cbn [fst snd]. assert (V : val f64 0x3fe922d0e5604190 = (7075155014599056 / 9007199254740992)%R) by lit. assert (V' : val f64 0xbfe922d0e5604190 = (-7075155014599056 / 9007199254740992)%R) by lit. rewrite V, V'. apply Rabs_le_inv in H. lra. }
  unfold rs_k_cos. cbv zeta. match goal with |- finite f64 ?e = _ /\ _ => ivl f64 e K; assert (K' : IN f64 (0x3fd0000000000000, 0x4010000000000000)%Z e) by inw K end. destruct K' as (_ & K1 & K2). cbn [fst snd] in K2. split; [exact K1|].
  assert (V : val f64 0x3fd0000000000000 = 1 / 4) by lit. lra.
Qed.
(** the reduced argument *)
Lemma PI64 : val f64 rs_lgamma_r_PI = 884279719003555 / 281474976710656. Proof. lit. Qed.
Lemma y2_min x : isbits f64 x -> finite f64 x = true -> bpow radix2 (-70) <= val f64 x -> y2 f64 x <> 0 -> bpow radix2 (-70) <= Rabs (y2 f64 x).
Proof.
  intros B G L N. destruct (Rlt_le_dec (val f64 x) (/ 4)) as [S|S].
  - assert (F0 : Zfloor (val f64 x / 2) = 0%Z) by (apply Zfloor_imp; split; [pose proof (bpow_gt_0 radix2 (-70)); cbn; lra|cbn; lra]).
    assert (M : m2 f64 x = val f64 x) by (unfold m2; rewrite F0; ring). assert (O : oct f64 x = 0%Z). { unfold oct. rewrite M. rewrite (Zfloor_imp 0); [reflexivity|]. pose proof (bpow_gt_0 radix2 (-70)). cbn. lra. }
    unfold y2 in *. rewrite M, O in *. replace (val f64 x - 0 / 2) with (val f64 x) by field. rewrite Rabs_pos_eq; [exact L|]. pose proof (bpow_gt_0 radix2 (-70)). lra.
  - destruct (repr_grid f64 (val f64 x) (-2) (repr_val f64 x G)) as (n & E). { intros _. rewrite Rabs_pos_eq by lra. change (bpow radix2 (-2)) with (/ 4). exact S. }
    change (-2 - mw f64)%Z with (-54)%Z in E. set (w := Zfloor (val f64 x / 2)). set (o := oct f64 x).
    assert (Q : y2 f64 x = IZR (n - w * 2 ^ 55 - o * 2 ^ 53) * bpow radix2 (-54)).
    { unfold y2, m2. fold w o. rewrite E, !minus_IZR, !mult_IZR. change (bpow radix2 (-54)) with (/ 18014398509481984). change (IZR (2 ^ 55)) with 36028797018963968. change (IZR (2 ^ 53)) with 9007199254740992. field. }
    rewrite Q in N |- *. assert (K : (n - w * 2 ^ 55 - o * 2 ^ 53 <> 0)%Z) by (intros K; rewrite K in N; apply N; ring). rewrite Rabs_mult, (Rabs_pos_eq (bpow radix2 (-54))) by apply bpow_ge_0. rewrite <- abs_IZR.
    assert (1 <= IZR (Z.abs (n - w * 2 ^ 55 - o * 2 ^ 53))) by (apply IZR_le; lia). apply Rle_trans with (1 * bpow radix2 (-54)); [rewrite Rmult_1_l; apply bpow_le; lia|]. apply Rmult_le_compat_r; [apply bpow_ge_0|assumption].
Qed.
Lemma red_argF F x m : (y2 F x <> 0 -> bpow radix2 (-70) <= Rabs (y2 F x)) -> finite f64 m = true -> val f64 m = m2 F x ->
  let z := (m -: ((of_int f64 (oct F x)) *: 0x3fe0000000000000)) *: rs_lgamma_r_PI in isbits f64 z /\ finite f64 z = true /\
  (y2 F x = 0 -> val f64 z = 0) /\ (y2 F x <> 0 -> bpow radix2 (-70) <= Rabs (val f64 z)) /\ Rabs (val f64 z) <= 0.78545 /\ 0 <= val f64 z * y2 F x.
Proof.
  intros YM Gm Vm. cbv zeta. pose proof (oct_bd F x) as OB. pose proof (m2_bd F x) as MB. pose proof (y2_bd F x) as YB. pose proof (y2_st F x) as YS.
  destruct (of_int_small f64 (oct F x) ltac:(cbn; lia) ltac:(cbn; lia) ltac:(lia)) as (NB & NF & NV). assert (VH : val f64 0x3fe0000000000000 = 1 / 2) by lit.
  pose proof (fmul_spec f64 _ 0x3fe0000000000000 NF ltac:(reflexivity)) as S. rewrite NV, VH in S. replace (IZR (oct F x) * (1 / 2)) with (IZR (oct F x) / 2) in S by field.
  assert (OR : 0 <= IZR (oct F x) <= 4) by (split; apply IZR_le; lia). assert (BG : 16 <= bpow radix2 (bias f64 + 1)) by (apply big16; cbn; lia).
  apply exact in S; [| |rewrite Rabs_pos_eq by lra; lra]. 2:{ replace (IZR (oct F x) / 2) with (IZR (oct F x) * bpow radix2 (-1)) by (change (bpow radix2 (-1)) with (/ 2); field). apply repr_int; cbn; lia. }
  destruct S as (S1 & S2 & S3). set (o2 := of_int f64 (oct F x) *: 0x3fe0000000000000) in *. clearbody o2.
  pose proof (fsub_spec f64 m o2 Gm S2) as T. rewrite Vm, S3 in T. change (m2 F x - IZR (oct F x) / 2) with (y2 F x) in T.
  assert (RY : repr f64 (y2 F x)). { unfold y2. destruct (Z.eq_dec (oct F x) 0) as [O|O].
    - rewrite O. replace (m2 F x - 0 / 2) with (m2 F x) by field. rewrite <- Vm. now apply repr_val.
    - rewrite <- Vm, <- S3. apply sterbenz; [apply fmt_valid_exp|apply FLT_exp_monotone|now apply repr_val|now apply repr_val|]. rewrite Vm, S3. apply YS. lia. }
  assert (AY : Rabs (y2 F x) <= / 4) by (apply Rabs_le; lra).
  apply exact in T; [|exact RY|lra]. destruct T as (T1 & T2 & T3). set (y := m -: o2) in *. clearbody y.
  pose proof (fmul_spec f64 y rs_lgamma_r_PI T2 ltac:(reflexivity)) as W. rewrite T3, PI64 in W. set (Y := y2 F x) in *. set (p := 884279719003555 / 281474976710656) in *. assert (PP : 3.14 <= p <= 3.1416) by (unfold p; lra). clearbody p.
  assert (AP : Rabs (Y * p) <= 0.7854) by (rewrite Rabs_mult, (Rabs_pos_eq p) by lra; pose proof (Rabs_pos Y); nra).
  destruct (rounds_fin _ _ _ _ W) as [W1 W2]. { apply Rle_trans with 1; [lra|]. change 1 with (bpow radix2 0). apply bpow_le. cbn. lia. }
  split; [apply fmul_isbits|]. split; [exact W1|]. rewrite W2.
  split; [intros ->; rewrite Rmult_0_l; apply rnd_0|].
  assert (E1 : Rabs (rnd f64 (Y * p) - Y * p) <= bpow radix2 (-54)) by (apply rnd_one; lra). change (bpow radix2 (-54)) with (/ 18014398509481984) in E1.
  split; [|split].
  - intros N. specialize (YM N). assert (R : repr f64 (bpow radix2 (-70))) by (apply repr_bpow; cbn; lia). assert (L1 : bpow radix2 (-70) <= Rabs (Y * p)) by (rewrite Rabs_mult, (Rabs_pos_eq p) by lra; pose proof (Rabs_pos Y); nra).
    unfold rnd. apply abs_round_ge_generic; [apply fmt_valid_exp|apply valid_rnd_N|exact R|exact L1].
  - replace (rnd f64 (Y * p)) with ((rnd f64 (Y * p) - Y * p) + Y * p) by ring. eapply Rle_trans; [apply Rabs_triang|]. lra.
  - destruct (Rle_lt_dec 0 Y) as [D|D].
    + assert (0 <= rnd f64 (Y * p)) by (rewrite <- (rnd_0 f64); apply rnd_le; nra). nra.
    + assert (rnd f64 (Y * p) <= 0) by (rewrite <- (rnd_0 f64); apply rnd_le; nra). nra.
Qed.
Lemma red_arg x m : isbits f64 x -> finite f64 x = true -> bpow radix2 (-70) <= val f64 x -> finite f64 m = true -> val f64 m = m2 f64 x ->
  let z := (m -: ((of_int f64 (oct f64 x)) *: 0x3fe0000000000000)) *: rs_lgamma_r_PI in isbits f64 z /\ finite f64 z = true /\
  (y2 f64 x = 0 -> val f64 z = 0) /\ (y2 f64 x <> 0 -> bpow radix2 (-100) <= Rabs (val f64 z)) /\ Rabs (val f64 z) <= 0.7855 /\ 0 <= val f64 z * y2 f64 x.
Proof.
  intros B G L Gm Vm. cbv zeta. destruct (red_argF f64 x m (y2_min x B G L) Gm Vm) as (H1 & H2 & H3 & H4 & H5 & H6). repeat (split; [assumption|]). split; [|split; [lra|assumption]].
  intros N. eapply Rle_trans; [|exact (H4 N)]. apply bpow_le. lia.
Qed.
(** sin(pi x) *)
Definition spk (m n : Z) : Z := let z := (m -: ((of_int f64 n) *: 0x3fe0000000000000)) *: rs_lgamma_r_PI in
  if (n =? 1)%Z then rs_k_cos z 0 else if (n =? 2)%Z then rs_k_sin (fneg f64 z) 0 0 else if (n =? 3)%Z then fneg f64 (rs_k_cos z 0) else rs_k_sin z 0 0.
(** the sign of sin(pi r), for r in [0, 2) *)
Definition sgn_ok (m t : R) : Prop := (m = 0 \/ m = 1 -> t = 0) /\ (0 < m < 1 -> 0 < t) /\ (1 < m -> t < 0).
Lemma k_sin_0 z : isbits f64 z -> finite f64 z = true -> val f64 z = 0 -> finite f64 (rs_k_sin z 0 0) = true /\ val f64 (rs_k_sin z 0 0) = 0.
Proof.
  intros B G V. assert (C : z = 0%Z \/ z = 0x8000000000000000%Z). { rewrite (iszero_eq f64 z B (val_eq_0 f64 z B G V)). destruct (signbit f64 z); [right|left]; reflexivity. }
  destruct C as [-> | ->]; (split; [vm_compute; reflexivity|]); (apply iszero_val; vm_compute; reflexivity).
Qed.
Lemma ltmul a b : 0 < a -> 0 < a * b -> 0 < b. Proof. intros. nra. Qed.
Lemma ltmul' a b : a < 0 -> 0 < a * b -> b < 0. Proof. intros. nra. Qed.
Lemma spk_ok x m : isbits f64 x -> finite f64 x = true -> bpow radix2 (-70) <= val f64 x -> finite f64 m = true -> val f64 m = m2 f64 x ->
  isbits f64 (spk m (oct f64 x)) /\ finite f64 (spk m (oct f64 x)) = true /\ sgn_ok (m2 f64 x) (val f64 (spk m (oct f64 x))).
Proof.
  intros B G L Gm Vm. destruct (red_arg x m B G L Gm Vm) as (Bz & Gz & Z0 & ZL & ZU & ZS). unfold spk. cbv zeta. set (z := (m -: ((of_int f64 (oct f64 x)) *: 0x3fe0000000000000)) *: rs_lgamma_r_PI) in *. clearbody z.
  pose proof (oct_bd f64 x) as OB. pose proof (m2_bd f64 x) as MB. pose proof (y2_bd f64 x) as YB. destruct (k_cos_pos z Bz Gz ZU) as [C1 C2].
  pose proof (fneg_val f64 z Bz) as NV. pose proof (fneg_finite f64 z Bz) as NF. pose proof (fneg_isbits f64 z Bz) as NB. rewrite Gz in NF.
  assert (KS : forall w, isbits f64 w -> finite f64 w = true -> Rabs (val f64 w) = Rabs (val f64 z) -> finite f64 (rs_k_sin w 0 0) = true /\ (y2 f64 x = 0 -> val f64 (rs_k_sin w 0 0) = 0) /\ (y2 f64 x <> 0 -> 0 < val f64 w * val f64 (rs_k_sin w 0 0))).
  { intros w Bw Gw E. destruct (Req_dec (y2 f64 x) 0) as [Y|Y].
    - assert (W0 : val f64 w = 0) by (rewrite (Z0 Y), Rabs_R0 in E; destruct (Req_dec (val f64 w) 0) as [|N]; [assumption|apply Rabs_pos_lt in N; lra]). destruct (k_sin_0 w Bw Gw W0) as [K1 K2]. split; [exact K1|]. split; [auto|contradiction].
    - destruct (k_sin_sgn w Bw Gw ltac:(rewrite E; split; [now apply ZL|exact ZU])) as (_ & K1 & K2). split; [exact K1|]. split; [contradiction|auto]. }
  unfold y2 in *. assert (C : (oct f64 x = 0 \/ oct f64 x = 1 \/ oct f64 x = 2 \/ oct f64 x = 3 \/ oct f64 x = 4)%Z) by lia.
  destruct C as [C|[C|[C|[C|C]]]]; rewrite C in *; cbn [Z.eqb Pos.eqb]; unfold sgn_ok.
  - split; [apply k_sin_bits|]. destruct (KS z Bz Gz eq_refl) as (K1 & K2 & K3). split; [exact K1|]. split; [|split].
    + intros [M|M]; [apply K2; lra|lra].
    + intros M. assert (N : m2 f64 x - 0 / 2 <> 0) by lra. specialize (K3 N). specialize (ZL N). apply ltmul with (val f64 z); [|exact K3]. pose proof (bpow_gt_0 radix2 (-100)). destruct (Rle_lt_dec (val f64 z) 0) as [Q|Q]; [|exact Q]. rewrite Rabs_left1 in ZL by lra. nra.
    + intros M. lra.
  - split; [apply k_cos_bits|]. split; [exact C1|]. split; [lra|]. split; [auto|lra].
  - split; [apply k_sin_bits|]. destruct (KS (fneg f64 z) NB NF ltac:(rewrite NV; apply Rabs_Ropp)) as (K1 & K2 & K3). split; [exact K1|]. rewrite NV in K3. split; [|split].
    + intros [M|M]; [lra|apply K2; lra].
    + intros M. assert (N : m2 f64 x - 2 / 2 <> 0) by lra. specialize (K3 N). specialize (ZL N). apply ltmul with (- val f64 z); [|exact K3]. pose proof (bpow_gt_0 radix2 (-100)). destruct (Rle_lt_dec 0 (val f64 z)) as [Q|Q]; [|lra]. rewrite Rabs_pos_eq in ZL by lra. nra.
    + intros M. assert (N : m2 f64 x - 2 / 2 <> 0) by lra. specialize (K3 N). specialize (ZL N). apply ltmul' with (- val f64 z); [|exact K3]. pose proof (bpow_gt_0 radix2 (-100)). destruct (Rle_lt_dec (val f64 z) 0) as [Q|Q]; [|lra]. rewrite Rabs_left1 in ZL by lra. nra.
  - split; [apply fneg_isbits, k_cos_bits|]. rewrite fneg_finite, fneg_val by apply k_cos_bits. split; [exact C1|]. split; [lra|]. split; lra.
  - split; [apply k_sin_bits|]. destruct (KS z Bz Gz eq_refl) as (K1 & K2 & K3). split; [exact K1|]. split; [lra|]. split; [lra|].
    intros M. assert (N : m2 f64 x - 4 / 2 <> 0) by lra. specialize (K3 N). specialize (ZL N). apply ltmul' with (val f64 z); [|exact K3]. pose proof (bpow_gt_0 radix2 (-100)). destruct (Rle_lt_dec 0 (val f64 z)) as [Q|Q]; [|lra]. rewrite Rabs_pos_eq in ZL by lra. nra.
Qed.
Lemma sinpi64 x : isbits f64 x -> finite f64 x = true -> bpow radix2 (-70) <= val f64 x ->
  exists t, rs_lgamma_r_sin_pi x = Some t /\ rs_tgamma_sinpi x = Some t /\ isbits f64 t /\ finite f64 t = true /\ sgn_ok (m2 f64 x) (val f64 t).
Proof.
  intros B G L. assert (L1 : bpow radix2 (-100) <= val f64 x) by (eapply Rle_trans; [|exact L]; apply bpow_le; lia).
  destruct (red_ex f64 ltac:(cbn; lia) ltac:(cbn; lia) 0x3fe0000000000000 0x4000000000000000 0x4010000000000000 x ltac:(split; [reflexivity|lit]) ltac:(split; [reflexivity|lit]) ltac:(split; [reflexivity|lit]) G L1) as (v0 & E & BM & GM & VM).
  unfold rs_lgamma_r_sin_pi, rs_tgamma_sinpi. cbv zeta. rewrite E. cbn [bind]. cbv zeta.
  set (m := 0x4000000000000000 *: ((x *: 0x3fe0000000000000) -: v0)) in *. clearbody m.
  assert (H4 : finite f64 0x4010000000000000 = true /\ val f64 0x4010000000000000 = 4 / 1) by (split; [reflexivity|lit]).
  destruct (four_ex f64 ltac:(cbn; lia) 0x4010000000000000 x H4 m GM VM) as (_ & Q1 & Q2).
  destruct (four_ex' f64 ltac:(cbn; lia) 0x4010000000000000 x H4 m GM VM) as (_ & Q3 & Q4). cbv zeta in *.
  pose proof (fl_bd f64 x) as FB. assert (T1 : to_i32 f64 (m *: 0x4010000000000000) = Zfloor (4 * m2 f64 x)) by (apply to_int_oct; try assumption; lia).
  assert (T2 : to_isize f64 (0x4010000000000000 *: m) = Zfloor (4 * m2 f64 x)) by (apply to_int_oct; try assumption; lia). rewrite T1, T2.
  rewrite !sadd_ok by lia. cbn [bind]. rewrite quot_oct.
  exists (spk m (oct f64 x)). destruct (spk_ok x m B G L GM VM) as (S1 & S2 & S3). unfold spk. change rs_tgamma_PI with rs_lgamma_r_PI. split; [|split].
  - destruct (_ =? 1)%Z; [reflexivity|]. destruct (_ =? 2)%Z; [reflexivity|]. destruct (_ =? 3)%Z; reflexivity.
  - destruct (_ =? 1)%Z; [reflexivity|]. destruct (_ =? 2)%Z; [reflexivity|]. destruct (_ =? 3)%Z; reflexivity.
  - unfold spk in S1, S2, S3. cbv zeta in *. auto.
Qed.
