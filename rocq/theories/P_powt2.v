(** The double-word logarithm and product of [pow] and [powf]: the low parts are small relative to the high parts. *)
From Coq Require Import ZArith Reals Lia Lra Bool List Psatz.
From Flocq Require Import Core.
From Verif Require Import Base Spec Format P_format Ieee P_ieee P_real P_neg P_key P_elem P_lit P_err P_apx P_powt.
Open Scope R_scope.

Lemma ab x : - Rabs x <= x <= Rabs x.
Proof. pose proof (Rle_abs x). pose proof (Rle_abs (- x)) as Q. rewrite Rabs_Ropp in Q. lra. Qed.
Lemma absb_ a b e : Rabs (a - b) <= e -> Rabs b - e <= Rabs a <= Rabs b + e.
Proof. intros H. pose proof (Rabs_triang_inv b a). pose proof (Rabs_triang_inv a b). rewrite (Rabs_minus_sym b a) in *. lra. Qed.
Section Generic.
Variable F : fmt.
Hypothesis HF : (8 <= ew F)%Z.
Let eta := bpow radix2 (- pr F).
Let del := bpow radix2 (emin F - 1).
Lemma bias100 : bpow radix2 122 <= bpow radix2 (bias F).
Proof. apply bpow_le. unfold bias. assert (2 ^ 7 <= 2 ^ (ew F - 1))%Z by (apply Z.pow_le_mono_r; lia). lia. Qed.
Lemma rd v sz y M : rounds_to F v sz y -> Rabs v <= 3 / 2 * M -> M <= bpow radix2 121 -> del <= eta * M / 2 -> isbits F y /\ finite F y = true /\ Rabs (val F y - v) <= 2 * (eta * M).
Proof.
  intros R B C D. pose proof bias100 as Q. assert (E : bpow radix2 122 = 2 * bpow radix2 121) by (change 122%Z with (1 + 121)%Z; rewrite bpow_plus; reflexivity).
  destruct (rounds_fin F v sz y R) as [Fy Vy]. { pose proof (bpow_gt_0 radix2 121). lra. }
  split; [exact (proj1 R)|]. split; [exact Fy|]. rewrite Vy. pose proof (rndF_abs F v) as K. fold eta del in K. assert (0 < eta) by apply bpow_gt_0. nra.
Qed.
Lemma rd_add x y M : finite F x = true -> finite F y = true -> Rabs (val F x + val F y) <= 3 / 2 * M -> M <= bpow radix2 121 -> del <= eta * M / 2 ->
  isbits F (fadd F x y) /\ finite F (fadd F x y) = true /\ Rabs (val F (fadd F x y) - (val F x + val F y)) <= 2 * (eta * M).
Proof. intros Fx Fy. apply (rd _ _ _ M (fadd_spec F x y Fx Fy)). Qed.
Lemma rd_sub x y M : finite F x = true -> finite F y = true -> Rabs (val F x - val F y) <= 3 / 2 * M -> M <= bpow radix2 121 -> del <= eta * M / 2 ->
  isbits F (fsub F x y) /\ finite F (fsub F x y) = true /\ Rabs (val F (fsub F x y) - (val F x - val F y)) <= 2 * (eta * M).
Proof. intros Fx Fy. apply (rd _ _ _ M (fsub_spec F x y Fx Fy)). Qed.
Lemma rd_mul x y M : finite F x = true -> finite F y = true -> Rabs (val F x * val F y) <= 3 / 2 * M -> M <= bpow radix2 121 -> del <= eta * M / 2 ->
  isbits F (fmul F x y) /\ finite F (fmul F x y) = true /\ Rabs (val F (fmul F x y) - (val F x * val F y)) <= 2 * (eta * M).
Proof. intros Fx Fy. apply (rd _ _ _ M (fmul_spec F x y Fx Fy)). Qed.
Hypothesis HP : (24 <= pr F)%Z.
Lemma eta_small : 0 < eta <= / 16777216.
Proof. split; [apply bpow_gt_0|]. change (/ 16777216) with (bpow radix2 (-24)). apply bpow_le. lia. Qed.

(** ** t1 + t2, the logarithm *)
Lemma t12 k zh zl dph tn M t1 t2 : t1 = trc k (fadd F (fadd F (fadd F zh zl) dph) tn) -> t2 = fsub F zl (fsub F (fsub F (fsub F t1 tn) dph) zh) -> (0 <= k <= mw F)%Z -> finite F zh = true -> finite F zl = true -> finite F dph = true -> finite F tn = true ->
  Rabs (val F zh) + Rabs (val F zl) + Rabs (val F dph) + Rabs (val F tn) <= M -> M <= 4096 -> bpow radix2 (k + emin F) <= eta * M / 2 -> M / 50 <= Rabs (val F zh + val F zl + val F dph + val F tn) ->
  let tau := bpow radix2 (k - mw F) in tau <= / 128 ->
  isbits F t1 /\ finite F t1 = true /\ isbits F t2 /\ finite F t2 = true /\ Rabs (val F t1) <= 5000 /\ M / 64 <= Rabs (val F t1) /\ Rabs (val F t2) <= (tau * (130 / 128) + 1200 * eta) * Rabs (val F t1).
Proof.
  intros D1 D2 K F1 F2 F3 F4 HM M1 HD HL tau HT.  pose proof eta_small as EE.
  assert (D0 : del <= eta * M / 2). { eapply Rle_trans; [|exact HD]. apply bpow_le. lia. }
  assert (Dd : 0 < del) by apply bpow_gt_0. assert (M0 : 0 < M). { assert (0 < eta * M) by lra. destruct (Rle_lt_dec M 0); [nra|assumption]. }
  assert (M2 : M <= bpow radix2 121). { apply Rle_trans with (bpow radix2 12); [change (bpow radix2 12) with 4096; lra|apply bpow_le; lia]. }
  set (h := eta * M) in *. assert (Hh : 0 < h <= M / 16777216) by (unfold h; nra).
  set (ZH := val F zh) in *. set (ZL := val F zl) in *. set (D := val F dph) in *. set (N := val F tn) in *.
  assert (A0 : -M <= ZH <= M /\ -M <= ZL <= M /\ -M <= D <= M /\ -M <= N <= M).
  { pose proof (ab ZH). pose proof (ab ZL). pose proof (ab D). pose proof (ab N). repeat split; lra. }
  assert (A1 : -M <= ZH + ZL <= M /\ -M <= ZH + ZL + D <= M /\ -M <= ZH + ZL + D + N <= M /\ -M <= ZL + D + N <= M /\ -M <= ZH + ZL + D <= M /\ -M <= ZL + ZH <= M).
  { pose proof (ab ZH). pose proof (ab ZL). pose proof (ab D). pose proof (ab N). repeat split; lra. }
  destruct (rd_add zh zl M F1 F2 ltac:(fold ZH ZL; apply Rabs_le; lra) M2 D0) as (_ & Fa1 & E1). set (a1 := fadd F zh zl) in *. clearbody a1. fold ZH ZL h in E1. apply Rabs_le_inv in E1.
  destruct (rd_add a1 dph M Fa1 F3 ltac:(fold D; apply Rabs_le; lra) M2 D0) as (_ & Fa2 & E2). set (a2 := fadd F a1 dph) in *. clearbody a2. fold D h in E2. apply Rabs_le_inv in E2.
  destruct (rd_add a2 tn M Fa2 F4 ltac:(fold N; apply Rabs_le; lra) M2 D0) as (Ba3 & Fa3 & E3). set (a3 := fadd F a2 tn) in *. clearbody a3. fold N h in E3. apply Rabs_le_inv in E3.
  destruct (trunc_ok F k a3 Ba3 Fa3 K) as (Bt & Ft & E4 & E4'). fold tau in E4.  rewrite <- D1 in Bt, Ft, E4, E4'.
  assert (A3 : M / 51 <= Rabs (val F a3) <= 1.01 * M).
  { assert (Q : Rabs (val F a3 - (ZH + ZL + D + N)) <= 6 * h) by (apply Rabs_le; lra). apply absb_ in Q. assert (Rabs (ZH + ZL + D + N) <= M) by (apply Rabs_le; lra). lra. }
  assert (T0 : 0 < tau) by apply bpow_gt_0.
  assert (E5 : Rabs (val F t1 - val F a3) <= tau * Rabs (val F a3) + h / 2) by (unfold h in *; lra). clear E4.
  assert (T1 : tau * Rabs (val F a3) <= / 128 * Rabs (val F a3)) by (apply Rmult_le_compat_r; [apply Rabs_pos|lra]).
  set (T := tau * Rabs (val F a3)) in *. assert (T00 : 0 <= T) by (apply Rmult_le_pos; [lra|apply Rabs_pos]).
  pose proof (absb_ _ _ _ E5) as E5'. assert (Rl : Rabs (val F a3) * (127 / 128) - h / 2 <= Rabs (val F t1)) by lra.
  apply Rabs_le_inv in E5. pose proof (ab (val F a3)) as A3'. pose proof (ab (val F t1)) as AT'.
  assert (AT : -1.01 * M <= val F t1 <= 1.01 * M) by lra.
  assert (TB : T <= M * (1.01 / 128)) by lra.
  destruct (rd_sub t1 tn M Ft F4 ltac:(fold N; apply Rabs_le; lra) M2 D0) as (_ & Fb1 & G1). set (b1 := fsub F t1 tn) in *. clearbody b1. fold N h in G1. apply Rabs_le_inv in G1.
  destruct (rd_sub b1 dph M Fb1 F3 ltac:(fold D; apply Rabs_le; lra) M2 D0) as (_ & Fb2 & G2). set (b2 := fsub F b1 dph) in *. clearbody b2. fold D h in G2. apply Rabs_le_inv in G2.
  destruct (rd_sub b2 zh M Fb2 F1 ltac:(fold ZH; apply Rabs_le; lra) M2 D0) as (_ & Fb3 & G3). set (b3 := fsub F b2 zh) in *. clearbody b3. fold ZH h in G3. apply Rabs_le_inv in G3.
  destruct (rd_sub zl b3 M F2 Fb3 ltac:(fold ZL; apply Rabs_le; lra) M2 D0) as (Bt2 & Ft2 & G4). rewrite <- D2 in Bt2, Ft2, G4. fold ZL h in G4. apply Rabs_le_inv in G4.
  split; [exact Bt|]. split; [exact Ft|]. split; [exact Bt2|]. split; [exact Ft2|]. split; [lra|].
  assert (QL : M / 64 <= Rabs (val F t1)) by lra. split; [exact QL|].
  assert (QT : Rabs (val F t2) <= T + 15 * h) by (apply Rabs_le; lra).
  assert (QA : Rabs (val F a3) <= (130 / 128) * Rabs (val F t1)) by lra.
  assert (T <= tau * ((130 / 128) * Rabs (val F t1))) by (apply Rmult_le_compat_l; lra).
  assert (h <= 64 * (eta * Rabs (val F t1))) by (replace (64 * (eta * Rabs (val F t1))) with (eta * (64 * Rabs (val F t1))) by ring; apply Rmult_le_compat_l; lra).
  replace ((tau * (130 / 128) + 1200 * eta) * Rabs (val F t1)) with (tau * (130 / 128 * Rabs (val F t1)) + 1200 * (eta * Rabs (val F t1))) by ring.
  assert (0 <= eta * Rabs (val F t1)) by (apply Rmult_le_pos; [lra|apply Rabs_pos]). lra.
Qed.

(** ** p_l + p_h, the product *)
Lemma prod12 k y t1 t2 ka y1 pl ph z : y1 = trc k y -> pl = fadd F (fmul F (fsub F y y1) t1) (fmul F y t2) -> ph = fmul F y1 t1 -> z = fadd F pl ph -> (0 <= k <= mw F)%Z -> isbits F y -> finite F y = true -> finite F t1 = true -> finite F t2 = true ->
  let tau := bpow radix2 (k - mw F) in tau <= / 128 -> 0 <= ka <= / 128 -> Rabs (val F t2) <= ka * Rabs (val F t1) -> Rabs (val F t1) <= 5000 -> Rabs (val F y) * Rabs (val F t1) <= bpow radix2 120 ->
  bpow radix2 (k + emin F) <= bpow radix2 (-100) ->
    finite F pl = true /\ finite F ph = true /\ isbits F z /\ finite F z = true /\
  let m := Rabs (val F y) * Rabs (val F t1) in Rabs (val F pl) <= (tau + ka + 10 * eta) * m + bpow radix2 (-80) /\ Rabs (val F pl + val F ph - val F y * val F t1) <= (ka + 10 * eta) * m + bpow radix2 (-80) /\
  Rabs (val F z - (val F pl + val F ph)) <= 2 * (eta * m) + bpow radix2 (-80).
Proof.
  intros Ey1 Epl Eph Ez K By Fy F1 F2 tau HT HK H2 H1 HY HD. pose proof eta_small as EE.
  destruct (trunc_ok F k y By Fy K) as (B1 & Fy1 & D1 & D1'). rewrite <- Ey1 in B1, Fy1, D1, D1'. fold tau in D1.
  set (Y := val F y) in *. set (Y1 := val F y1) in *. set (T1 := val F t1) in *. set (T2 := val F t2) in *.
  assert (T0 : 0 < tau) by apply bpow_gt_0. pose proof (Rabs_pos Y) as PY. pose proof (Rabs_pos T1) as PT1. pose proof (Rabs_pos T2) as PT2.
  set (q := bpow radix2 (-100)) in *. assert (Q0 : 0 < q) by apply bpow_gt_0. assert (Q1 : bpow radix2 (-80) = 1048576 * q) by (unfold q; change (-80)%Z with (20 + -100)%Z; rewrite bpow_plus; reflexivity).
  assert (Q2 : q <= / 1267650600228229401496703205376) by (unfold q; apply Req_le; reflexivity).
  assert (Dq : del <= q) by (eapply Rle_trans; [|exact HD]; apply bpow_le; lia). assert (Dd : 0 < del) by apply bpow_gt_0.
  set (b := bpow radix2 (k + emin F)) in *. assert (b0 : 0 < b) by apply bpow_gt_0.
  set (m := Rabs Y * Rabs T1) in *. assert (m0 : 0 <= m) by (apply Rmult_le_pos; assumption).
  pose proof bias100 as B100. assert (B98 : bpow radix2 122 = 4 * bpow radix2 120) by (change 122%Z with (2 + 120)%Z; rewrite bpow_plus; reflexivity). assert (B9 : 1 <= bpow radix2 120) by (change 1 with (bpow radix2 0); apply bpow_le; lia).
  assert (RD : forall v sz w, rounds_to F v sz w -> Rabs v <= 2 * m + 1 -> isbits F w /\ finite F w = true /\ Rabs (val F w - v) <= eta * Rabs v + q).
  { intros v sz w R C. destruct (rounds_fin F v sz w R) as [Fw Vw]; [lra|]. split; [exact (proj1 R)|]. split; [exact Fw|]. rewrite Vw. pose proof (rndF_abs F v) as Z. fold eta del in Z. lra. }
  (* y - y1 is a multiple of the smallest float and no larger than y: the difference is finite *)
  assert (RS : exists d, fsub F y y1 = d /\ isbits F d /\ finite F d = true /\ Rabs (val F d - (Y - Y1)) <= eta * Rabs (Y - Y1) + q).
  { exists (fsub F y y1). split; [reflexivity|]. pose proof (fsub_spec F y y1 Fy Fy1) as R. fold Y Y1 in R.
    assert (L : Rabs (Y - Y1) <= Rabs Y / 128 + q). { rewrite Rabs_minus_sym. fold b in D1. assert (tau * Rabs Y <= / 128 * Rabs Y) by (apply Rmult_le_compat_r; lra). lra. }
    pose proof (val_lt_max F y Fy) as VM. fold Y in VM. assert (B1' : bpow radix2 (bias F + 1) = 2 * bpow radix2 (bias F)) by (rewrite bpow_plus; cbn; lra).
    destruct (rounds_fin F _ _ _ R) as [Fw Vw]; [lra|]. split; [exact (proj1 R)|]. split; [exact Fw|]. rewrite Vw. pose proof (rndF_abs F (Y - Y1)) as Z. fold eta del in Z. lra. }
  destruct RS as (d & Ed & Bd & Fd & HD'). rewrite Ed in Epl. set (Dv := val F d) in *. rewrite Rabs_minus_sym in D1. fold b in D1. set (W := Y - Y1) in *.
  assert (tm : tau * m <= m / 128) by nra. assert (km : 0 <= ka * m <= m / 128) by nra. assert (em : 0 <= eta * m <= m / 16777216) by nra. assert (tm0 : 0 <= tau * m) by nra.
  assert (WT : Rabs (W * T1) <= tau * m + 5000 * q).
  { rewrite Rabs_mult. unfold m. assert (Rabs W * Rabs T1 <= (tau * Rabs Y + q) * Rabs T1) by (apply Rmult_le_compat_r; lra). nra. }
  assert (DT : Rabs (Dv * T1 - W * T1) <= eta * m + 10000 * q).
  { replace (Dv * T1 - W * T1) with ((Dv - W) * T1) by ring. rewrite Rabs_mult.
    assert (eta * Rabs W <= eta * Rabs Y + q). { assert (Rabs W <= Rabs Y + q) by nra. nra. }
    assert (Rabs (Dv - W) * Rabs T1 <= (eta * Rabs Y + 2 * q) * Rabs T1) by (apply Rmult_le_compat_r; lra). unfold m. nra. }
  assert (DT2 : Rabs (Dv * T1) <= tau * m + eta * m + 15000 * q).
  { replace (Dv * T1) with ((Dv * T1 - W * T1) + W * T1) by ring. eapply Rle_trans; [apply Rabs_triang|]. lra. }
  destruct (RD _ _ _ (fmul_spec F d t1 Fd F1)) as (_ & Fm1 & E1); [fold Dv T1; lra|]. fold Dv T1 in E1. set (m1 := fmul F d t1) in *.
  assert (YT : Rabs (Y * T2) <= ka * m). { rewrite Rabs_mult. unfold m. assert (Rabs Y * Rabs T2 <= Rabs Y * (ka * Rabs T1)) by (apply Rmult_le_compat_l; lra). nra. }
  destruct (RD _ _ _ (fmul_spec F y t2 Fy F2)) as (_ & Fm2 & E2); [fold Y T2; lra|]. fold Y T2 in E2. set (m2 := fmul F y t2) in *.
  clearbody m1 m2.
  assert (SM : forall x c, Rabs x <= c * m + 100000 * q -> 0 <= c -> eta * Rabs x <= c * (eta * m) + q).
  { intros x c Hx Hc. apply Rle_trans with (eta * (c * m + 100000 * q)); [apply Rmult_le_compat_l; lra|]. assert (eta * q <= / 16777216 * q) by (apply Rmult_le_compat_r; lra). lra. }
  pose proof (SM (Dv * T1) (/ 64) ltac:(lra) ltac:(lra)) as S1. pose proof (SM (Y * T2) (/ 64) ltac:(lra) ltac:(lra)) as S2.
  assert (X1 : Rabs (val F m1 - Dv * T1) <= / 64 * (eta * m) + 2 * q) by lra. assert (X2 : Rabs (val F m2 - Y * T2) <= / 64 * (eta * m) + 2 * q) by lra.
  assert (U1 : Rabs (val F m1) <= tau * m + 1.1 * (eta * m) + 15010 * q) by (apply absb_ in X1; lra). assert (U2 : Rabs (val F m2) <= ka * m + / 64 * (eta * m) + 2 * q) by (apply absb_ in X2; lra).
  assert (U3 : Rabs (val F m1 + val F m2) <= tau * m + ka * m + 1.2 * (eta * m) + 15020 * q) by (eapply Rle_trans; [apply Rabs_triang|lra]).
  destruct (RD _ _ _ (fadd_spec F m1 m2 Fm1 Fm2)) as (Bpl & Fpl & E3); [lra|]. rewrite <- Epl in Bpl, Fpl, E3.
  pose proof (SM (val F m1 + val F m2) (/ 32) ltac:(lra) ltac:(lra)) as S3.
  assert (X3 : Rabs (val F pl - (val F m1 + val F m2)) <= / 32 * (eta * m) + 2 * q) by lra.
  assert (U4 : Rabs (val F pl) <= tau * m + ka * m + 1.3 * (eta * m) + 15030 * q) by (apply absb_ in X3; lra).
  assert (U5 : Rabs (Y1 * T1) <= m) by (rewrite Rabs_mult; unfold m; apply Rmult_le_compat_r; lra).
  destruct (RD _ _ _ (fmul_spec F y1 t1 Fy1 F1)) as (Bph & Fph & E4); [fold Y1 T1; lra|]. rewrite <- Eph in Bph, Fph, E4. fold Y1 T1 in E4.
  pose proof (SM (Y1 * T1) 1 ltac:(lra) ltac:(lra)) as S4. assert (X4 : Rabs (val F ph - Y1 * T1) <= eta * m + 2 * q) by lra.
  assert (U6 : Rabs (val F ph) <= m + eta * m + 2 * q) by (apply absb_ in X4; lra).
  assert (U7 : Rabs (val F pl + val F ph) <= 1.1 * m + 20000 * q) by (eapply Rle_trans; [apply Rabs_triang|lra]).
  destruct (RD _ _ _ (fadd_spec F pl ph Fpl Fph)) as (Bz & Fz & E5); [lra|]. rewrite <- Ez in Bz, Fz, E5.
  pose proof (SM (val F pl + val F ph) 1.1 ltac:(lra) ltac:(lra)) as S5.
  split; [exact Fpl|]. split; [exact Fph|]. split; [exact Bz|]. split; [exact Fz|]. cbv zeta. rewrite Q1.
  replace ((tau + ka + 10 * eta) * m) with (tau * m + ka * m + 10 * (eta * m)) by ring. replace ((ka + 10 * eta) * m) with (ka * m + 10 * (eta * m)) by ring.
  split; [lra|]. split; [|lra]. assert (EW : Y * T1 = W * T1 + Y1 * T1) by (unfold W; ring). rewrite EW.
  apply Rabs_le_inv in X1. apply Rabs_le_inv in X2. apply Rabs_le_inv in X3. apply Rabs_le_inv in X4. apply Rabs_le_inv in DT. apply Rabs_le_inv in YT. apply Rabs_le. lra.
Qed.
End Generic.
